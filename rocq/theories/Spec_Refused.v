(** Specification vocabulary for C97: events that do not tell enough for a table of [n] players. *)
From Verif Require Import Base Tile Parse Text Event Spec_Tile Spec_Meld Spec_Log Spec_Play Spec_Score Spec_Header Spec_Read Spec_Convert.
From Coq Require Import String List ZArith.
Import ListNotations.
Open Scope list_scope.
Open Scope Z_scope.

(** The last settings among the events are for [n] players. *)
Definition table_of (n : Z) (es : list event) : Prop :=
  exists b1 go b2 v, es = b1 ++ go :: b2 /\ tag go = t_ "GO" /\ ~ has_tag (t_ "GO") b2 /\ holds go (t_ "type") (str_int v) /\
    n = (if flag v 4 then 3 else 4).
(** A list with fewer than [k] entries, separated by commas. *)
Definition short (k : Z) (s : text) : Prop :=
  exists l, l <> [] /\ Z.of_nat (length l) < k /\ Forall (fun x => ~ In 44 x) l /\ s = join (t_ ",") l.

(** What is missing, or cannot be. *)
Inductive lacking (n : Z) (e : event) : Prop :=
(** A deal: the scores of all players, the hand of each; the round, the counters and the dora indicator. *)
| lacks_scores : tag e = t_ "INIT" -> ~ says (t_ "ten") e -> lacking n e
| lacks_score : forall s, tag e = t_ "INIT" -> holds e (t_ "ten") s -> short n s -> lacking n e
| lacks_hand : forall p, tag e = t_ "INIT" -> 0 <= p < n -> ~ says (t_ "hai" ++ str_int p) e -> lacking n e
| lacks_seed : forall s, tag e = t_ "INIT" -> holds e (t_ "seed") s -> short 3 s -> lacking n e
(** The end of a deal: two numbers for each player, also for the end of the game. *)
| lacks_changes : forall s, tag e = t_ "AGARI" \/ tag e = t_ "RYUUKYOKU" -> holds e (t_ "sc") s -> short (2 * n) s -> lacking n e
| lacks_results : forall s, tag e = t_ "AGARI" \/ tag e = t_ "RYUUKYOKU" -> holds e (t_ "owari") s -> short (2 * n) s -> lacking n e
(** A win: the yaku or the yakuman; fu and points; for a win on a discard the tile. *)
| lacks_yaku : tag e = t_ "AGARI" -> ~ says (t_ "yaku") e -> ~ says (t_ "yakuman") e -> lacking n e
| lacks_points : forall s, tag e = t_ "AGARI" -> holds e (t_ "ten") s -> short 2 s -> lacking n e
| lacks_tile : forall p q, tag e = t_ "AGARI" -> holds e (t_ "who") (str_int p) -> holds e (t_ "fromWho") (str_int q) -> p <> q ->
    ~ says (t_ "machi") e -> lacking n e
(** The winning tile is not among the tiles of the hand. *)
| wrong_tile : forall p q hai m, tag e = t_ "AGARI" -> holds e (t_ "who") (str_int p) -> holds e (t_ "fromWho") (str_int q) -> p <> q ->
    hai <> [] -> Forall valid_tile hai -> holds e (t_ "hai") (comma_list hai) -> valid_tile m -> holds e (t_ "machi") (str_int m) ->
    (forall u, In u hai -> printed u <> printed m) -> lacking n e
(** There is no such yaku. *)
| wrong_yaku : forall l i, tag e = t_ "AGARI" -> l <> [] -> holds e (t_ "yaku") (comma_list l) -> In i l -> 55 <= i -> lacking n e
(** A draw for no reason that Tenhou has. *)
| wrong_draw : forall s, tag e = t_ "RYUUKYOKU" -> holds e (t_ "type") s -> ~ In s draw_names -> lacking n e
(** A player that is announced has a grade, a rating and a sex, if these are listed. *)
| lacks_player : forall p name s, seat p -> tag e = t_ "UN" -> announced p e -> In name [t_ "dan"; t_ "rate"; t_ "sx"] ->
    holds e name s -> short (p + 1) s -> lacking n e.
