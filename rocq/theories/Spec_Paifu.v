(** Specification vocabulary for C67-C70: the table of rows that the row export ([to_paifu])
    ought to give for the play described by a log (Spec_Log.v). *)
From Verif Require Import Base Tile Parse Text Tenhou Event Spec_Meld Spec_Log Spec_Play Paifu.
From Coq Require Import String List ZArith Sorted Permutation.
Import ListNotations.
Open Scope string_scope.
Open Scope list_scope.
Open Scope Z_scope.

(** ** Reading a row *)
Definition cell_text (c : cell) : text := match c with PText s => s | PTile t => tile_str t end.
Fixpoint value (r : row) (name : text) : option cell :=
  match r with [] => None | (k, c) :: r' => if text_eqb k name then Some c else value r' name end.
(** The texts of the tiles in a cell: two characters each. *)
Fixpoint pairs (s : text) : list text :=
  match s with a :: b :: r => [a; b] :: pairs r | _ => [] end.
Definition tiles_under (name : string) (r : row) : list text :=
  match value r (t_ name) with Some c => pairs (cell_text c) | None => [] end.
Definition row_of (p : Z) (r : row) : bool :=
  match value r (t_ "player") with Some c => text_eqb (cell_text c) (str_int p) | None => false end.
(** The tiles seat [p] got to see, and showed, according to the rows. *)
Definition seen (p : Z) (rows : list row) : list text := flat_map (tiles_under "player_see") (filter (row_of p) rows).
Definition shown_by (p : Z) (rows : list row) : list text := flat_map (tiles_under "player_show") (filter (row_of p) rows).

(** ** The printed form of a tile (the same as [printed] of Spec_Play.v, as a text). *)
Definition name_of (t : Z) : text := [48 + (if is_red t then 0 else snd (face t)); suit_letter (fst (face t))].
Definition names_of (l : list Z) : text := concat (map name_of l).

(** ** The rows of one event. [text_row s l]: a row with the given texts and the name [s] of
    the deal. *)
Definition text_row (s : text) (l : list (string * text)) : row :=
  map (fun kv => (t_ (fst kv), PText (snd kv))) l ++ [(t_ "game_str", PText s)].

(** The row of a starting hand: the tiles in the order of their numbers, and the score, of
    which the log has hundreds. *)
Definition hand_shown (s : text) (p : Z) (hand : list Z) (score : Z) (r : row) : Prop :=
  exists l, Permutation l hand /\ Sorted Z.le l /\
    r = text_row s [("event_type", t_ "INIT" ++ str_int (p + 1)); ("player", str_int p);
                    ("player_see", names_of l); ("score", str_int score ++ t_ "00")].

Definition call_name (v : Z) : text :=
  match call_kind v with
  | CFlush => t_ "CHI"
  | CTriplet => t_ "PENG "
  | CAddedKan => t_ "GANG"
  | CKita => t_ "KITA"
  | _ => if source v =? 0 then t_ "ANGANG" else t_ "MINGGANG"
  end.

(** The reasons of an abortive draw, by their names in the log. *)
Definition draw_reasons : list (text * text) :=
  [(t_ "kaze4", [22235; 39080; 36899; 25171]); (t_ "yao9", [20061; 31278; 20061; 29260]);
   (t_ "ron3", [19977; 23478; 21644; 20102]); (t_ "reach4", [22235; 23478; 31435; 30452]);
   (t_ "kan4", [22235; 27091; 25955; 20102]); (t_ "nm", [27969; 23616; 28415; 36011])].

Inductive tells (s : text) : action -> event -> list row -> Prop :=
| tells_deal d e ten r0 r1 r2 r3 dora round :
    holds e (t_ "ten") (comma_list ten) ->
    hand_shown s 0 (d_hands d 0) (nth 0 ten 0) r0 -> hand_shown s 1 (d_hands d 1) (nth 1 ten 0) r1 ->
    hand_shown s 2 (d_hands d 2) (nth 2 ten 0) r2 ->
    (d_hands d 3 <> [] -> exists r, r3 = [r] /\ hand_shown s 3 (d_hands d 3) (nth 3 ten 0) r) ->
    (d_hands d 3 = [] -> r3 = []) ->
    dora = text_row s [("event_type", t_ "DORA"); ("player", t_ "0"); ("player_see", name_of (d_dora d)); ("player_show", name_of (d_dora d))] ->
    round = text_row s [("event_type", t_ "ROUND"); ("score", str_int (nth 2 (d_round d) 0) ++ t_ "000")] ->
    tells s (Deal d) e ([r0; r1; r2] ++ r3 ++ [dora; round])
| tells_draw p t e :
    tells s (Draw p t) e [text_row s [("event_type", t_ "DRAW"); ("player", str_int p); ("player_see", name_of t)]]
| tells_discard p t e :
    tells s (Discard p t) e [text_row s [("event_type", t_ "DISCARD"); ("player", str_int p); ("player_show", name_of t)]]
| tells_call p v e own others : is_kita v = false -> tiles_of (laid_down v) own -> tiles_of (taken v) others ->
    tells s (Call p v) e
      [text_row s [("event_type", call_name v); ("player", str_int p); ("player_show", names_of own);
                   ("player_open", names_of (others ++ own)); ("origin", str_int ((p + source v) mod 4))]]
| tells_kita p v e : is_kita v = true ->
    tells s (Call p v) e
      [text_row s [("event_type", t_ "KITA"); ("player", str_int p); ("player_show", name_of (high_byte v)); ("player_open", name_of (high_byte v))]]
| tells_dora t e k : tile_str k = name_of t ->
    tells s (NewDora t) e
      [[(t_ "event_type", PText (t_ "DORA")); (t_ "player", PText (t_ "0")); (t_ "player_see", PTile k); (t_ "player_show", PTile k);
        (t_ "game_str", PText s)]]
| tells_declares e w : tag e = t_ "REACH" -> holds e (t_ "step") (t_ "1") -> holds e (t_ "who") w ->
    tells s Other e [text_row s [("event_type", t_ "CALLRICHI"); ("player", w)]]
| tells_riichi e w : tag e = t_ "REACH" -> holds e (t_ "step") (t_ "2") -> holds e (t_ "who") w ->
    tells s Other e [text_row s [("event_type", t_ "RICHI"); ("player", w)];
                     text_row s [("event_type", t_ "SCORE"); ("player", w); ("score", t_ "-1000")]]
| tells_win e w f : tag e = t_ "AGARI" -> holds e (t_ "who") w -> holds e (t_ "fromWho") f ->
    tells s Other e [text_row s [("event_type", t_ "WIN"); ("player", w); ("origin", f)]]
| tells_draw_game e : tag e = t_ "RYUUKYOKU" -> lookup (t_ "type") (attrib e) = None ->
    tells s Other e [text_row s [("event_type", t_ "EVEN"); ("origin", [])]]
| tells_abort e k r : tag e = t_ "RYUUKYOKU" -> holds e (t_ "type") k -> In (k, r) draw_reasons ->
    tells s Other e [text_row s [("event_type", t_ "EVEN"); ("origin", r)]]
| tells_nothing e : tag e <> t_ "REACH" -> tag e <> t_ "AGARI" -> tag e <> t_ "RYUUKYOKU" -> tells s Other e [].

(** ** Events with all the attributes that Tenhou writes. *)
Definition complete (a : action) (e : event) : Prop :=
  match a with
  | Deal d => (3 <= length (d_round d))%nat /\ valid_tile (d_dora d) /\
      (forall p, 0 <= p < 4 -> Forall valid_tile (d_hands d p)) /\ (forall p, 0 <= p < 3 -> d_hands d p <> []) /\
      exists ten, holds e (t_ "ten") (comma_list ten) /\ length ten = 4%nat
  | Call p v => forall t, laid_down v t -> valid_tile t
  | Other =>
      (tag e = t_ "REACH" -> (exists w, holds e (t_ "who") (str_int w)) /\ (holds e (t_ "step") (t_ "1") \/ holds e (t_ "step") (t_ "2"))) /\
      (tag e = t_ "AGARI" -> (exists w, holds e (t_ "who") (str_int w)) /\ (exists f, holds e (t_ "fromWho") (str_int f)) /\
                             exists l, holds e (t_ "ten") (comma_list l) /\ (2 <= length l)%nat) /\
      (tag e = t_ "RYUUKYOKU" -> forall k, holds e (t_ "type") k -> exists r, In (k, r) draw_reasons)
  | _ => True
  end.

(** The name of a deal: wind, number of the deal within the wind, and counters. *)
Definition wind_letter (w : Z) : Z := if w =? 0 then 69 else if w =? 1 then 83 else if w =? 2 then 87 else 78.
Definition deal_name (round honba : Z) : text :=
  [wind_letter (round / 4)] ++ t_ "-" ++ str_int (round mod 4 + 1) ++ t_ "-" ++ str_int honba.

(** The rows of a whole deal. *)
Definition deal_rows (s : text) (acts : list action) (es : list event) (rows : list row) : Prop :=
  exists groups, rows = concat groups /\ Forall2 (fun ae g => tells s (fst ae) (snd ae) g) (combine acts es) groups.
