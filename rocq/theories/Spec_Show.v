(** Specification vocabulary for C79-C83: the texts by which records are shown. *)
From Verif Require Import Base Parse Text Tenhou Event Spec_Win Spec_Hand Spec_Meld Spec_Log Spec_Play Spec_Header Spec_Paifu.
From Coq Require Import String List ZArith.
Import ListNotations.
Open Scope list_scope.
Open Scope Z_scope.

(** ** Decimals *)
(** The text [s] denotes m / 10^p: perhaps a minus sign, digits, perhaps a point and at most
    [p] digits. *)
Definition denotes (p : nat) (m : Z) (s : text) : Prop :=
  exists neg i f tail, s = (if neg : bool then t_ "-" else []) ++ i ++ tail /\
    (f = [] /\ tail = [] \/ f <> [] /\ tail = t_ "." ++ f) /\
    i <> [] /\ Forall (fun c => 48 <= c <= 57) (i ++ f) /\ (length f <= p)%nat /\
    m = (if neg then -1 else 1) * (digits_val (i ++ f) * 10 ^ Z.of_nat (p - length f)).
(** The text [s] is m / 10^p written with exactly [p] digits after the point. *)
Definition spelled (p : nat) (m : Z) (s : text) : Prop :=
  exists i f, s = (if m <? 0 then t_ "-" else []) ++ str_int i ++ t_ "." ++ f /\
    0 <= i /\ length f = p /\ Forall (fun c => 48 <= c <= 57) f /\
    Z.abs m = i * 10 ^ Z.of_nat p + digits_val f.

(** ** Settings: what the bits of a game type say, one character each *)
Definition mark (b : bool) (c : Z) : text := if b then [c] else [].
Definition settings_text (v : Z) : text :=
  (if flag v 4 then [19977] else [22235]) ++
  nth (Z.to_nat (2 * field v 5 1 + field v 7 1)) (level_names (flag v 9)) [] ++
  (if flag v 3 then [21335] else [26481]) ++
  mark (negb (flag v 2)) 21936 ++ mark (negb (flag v 1)) 36196 ++ mark (flag v 6) 36895 ++ mark (flag v 8) 26263 ++
  (if flag v 9 then 31069 :: (if flag v 10 then t_ "5" else t_ "2") else []).

(** ** Deals *)
(** How a deal ends, with the names of the seats: a win by own draw, a win off another seat, or
    a draw with its reason ([draw_reasons] of Spec_Paifu.v). *)
Inductive ending (name : Z -> text -> Prop) : event -> text -> Prop :=
| en_tsumo e w n fu points l : tag e = t_ "AGARI" -> holds e (t_ "who") (str_int w) -> holds e (t_ "fromWho") (str_int w) ->
    holds e (t_ "ten") (comma_list (fu :: points :: l)) -> name w n ->
    ending name e (n ++ [58; 12484; 12514; 40] ++ str_int points ++ t_ ")")
| en_ron e w f n n' fu points l : tag e = t_ "AGARI" -> holds e (t_ "who") (str_int w) -> holds e (t_ "fromWho") (str_int f) ->
    w <> f -> holds e (t_ "ten") (comma_list (fu :: points :: l)) -> name w n -> name f n' ->
    ending name e (n ++ t_ "<-" ++ n' ++ [58; 12525; 12531; 40] ++ str_int points ++ t_ ")")
| en_draw e : tag e = t_ "RYUUKYOKU" -> lookup (t_ "type") (attrib e) = None -> ending name e [27969; 23616; 32]
| en_aborted e k r : tag e = t_ "RYUUKYOKU" -> holds e (t_ "type") k -> In (k, r) draw_reasons ->
    ending name e ([27969; 23616; 32] ++ r).
(** The endings among the events of a deal, in their order. *)
Inductive endings (name : Z -> text -> Prop) : list event -> list text -> Prop :=
| ed_nil : endings name [] []
| ed_end e t es ts : ending name e t -> endings name es ts -> endings name (e :: es) (t :: ts)
| ed_other e es ts : tag e <> t_ "AGARI" -> tag e <> t_ "RYUUKYOKU" -> endings name es ts -> endings name (e :: es) ts.
(** The winds in their order. *)
Definition wind_names : list Z := [26481; 21335; 35199; 21271].
(** The caption of the deal with round number [n] and repeat counter [honba]. *)
Definition caption (n honba : Z) (ends : list text) (s : text) : Prop :=
  exists wind, nth_error wind_names (Z.to_nat (n / 4)) = Some wind /\
    s = [wind] ++ str_int (n mod 4 + 1) ++ [23616] ++ str_int honba ++ [26412; 32] ++ join (t_ ",") ends.

(** ** Records *)
(** The final scores and points of a log: "score,points,score,points,...". *)
Definition finals_text (finals : list (Z * text)) : text :=
  join (t_ ",") (flat_map (fun x => [str_int (fst x); snd x]) finals).
(** Seat [a] is before seat [b] in the final order: it has more, or as much and a lower number. *)
Definition before (score : nat -> Z) (a b : nat) : Prop := score b < score a \/ score a = score b /\ (a < b)%nat.
(** The text of one place: "1<place>:<name>(<points>)". *)
Definition place_text (place : nat) (name points : text) : text :=
  str_int (Z.of_nat place + 1) ++ [20301; 58] ++ name ++ t_ "(" ++ points ++ t_ ")".

(** ** Events *)
(** The text [s] stands for the tiles [l], up to red fives: it is read as as many tiles of every
    face as [l] has. *)
Definition stands_for (s : text) (l : list Z) : Prop :=
  forall k, count_kind k (faces (tiles_from_string s)) = count_kind k (map face l).
Definition call_title (v : Z) : text :=
  match call_kind v with
  | CFlush => t_ "Flush" | CTriplet => t_ "Triplet" | CAddedKan => t_ "TenhouAddedKan" | CKita => t_ "Kita" | _ => t_ "TenhouKan"
  end.
Inductive described : action -> event -> text -> Prop :=
| dc_draw p t e : described (Draw p t) e (t_ "player " ++ str_int p ++ t_ " draw " ++ name_of t)
| dc_discard p t e : described (Discard p t) e (t_ "player " ++ str_int p ++ t_ " discard " ++ name_of t)
| dc_call p v e own others a b : tiles_of (laid_down v) own -> tiles_of (taken v) others -> stands_for a own -> stands_for b others ->
    described (Call p v) e (t_ "player " ++ str_int p ++ t_ " claimed '" ++ call_title v ++ t_ "' using '" ++ a ++ t_ "' to get '" ++ b ++
      t_ "' from player " ++ str_int ((p + source v) mod 4))
| dc_dora t e : described (NewDora t) e (t_ "new dora indicator " ++ name_of t)
| dc_riichi e w : tag e = t_ "REACH" -> holds e (t_ "who") w -> described Other e (t_ "player " ++ w ++ t_ " richii")
| dc_win e w f fu points l : tag e = t_ "AGARI" -> holds e (t_ "who") w -> holds e (t_ "fromWho") f -> holds e (t_ "ten") (comma_list (fu :: points :: l)) ->
    described Other e (t_ "player " ++ w ++ t_ " win " ++ str_int points ++ t_ " from player " ++ f)
| dc_exhausted e : tag e = t_ "RYUUKYOKU" -> lookup (t_ "type") (attrib e) = None -> described Other e (t_ "no body win ")
| dc_aborted e k r : tag e = t_ "RYUUKYOKU" -> holds e (t_ "type") k -> In (k, r) draw_reasons -> described Other e (t_ "no body win " ++ r)
| dc_deal d e : described (Deal d) e (t_ "UNPARSED")
| dc_other e : ~ In (tag e) [t_ "REACH"; t_ "AGARI"; t_ "RYUUKYOKU"] -> described Other e (t_ "UNPARSED").
