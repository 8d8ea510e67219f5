(** Specification vocabulary for C96: the logs of whole games, complete enough to be converted to
    the universal format. *)
From Verif Require Import Base Tile Parse Text Event Spec_Meld Spec_Log Spec_Play Spec_Score Spec_Header Spec_Read.
From Coq Require Import String List ZArith.
Import ListNotations.
Open Scope list_scope.
Open Scope Z_scope.

(** A text of at least [k] numbers, separated by commas. *)
Definition at_least (k : Z) (s : text) : Prop :=
  exists l, l <> [] /\ k <= Z.of_nat (length l) /\ Forall number_text l /\ s = join (t_ ",") l.
(** A text of at least four parts, one for each seat. *)
Definition four_parts (s : text) : Prop :=
  exists l, 4 <= Z.of_nat (length l) /\ Forall (fun x => ~ In 44 x) l /\ s = join (t_ ",") l.
(** The abortive draws of Tenhou. *)
Definition draw_names : list text := map t_ ["kaze4"; "yao9"; "ron3"; "reach4"; "kan4"; "nm"]%string.
(** The yaku are numbered from 0 to 54; the grades of players from 0 to 20. *)
Definition yaku_numbers (s : text) : Prop := exists l, l <> [] /\ Forall (fun i => 0 <= i < 55) l /\ s = comma_list l.
Definition grades (s : text) : Prop := exists l, 4 <= Z.of_nat (length l) /\ Forall (fun i => 0 <= i <= 20) l /\ s = comma_list l.

(** The event says all it has to, at a table of [n] players playing [w] winds: the settings, the
    players, the deal, riichi, wins and draws. *)
Definition complete (n w : Z) (e : event) : Prop :=
  (tag e = t_ "GO" -> exists v, 0 <= v < 65536 /\ holds e (t_ "type") (str_int v) /\
     n = (if flag v 4 then 3 else 4) /\ w = (if flag v 3 then 2 else 1)) /\
  (tag e = t_ "SHUFFLE" -> says (t_ "seed") e) /\
  (tag e = t_ "TAIKYOKU" -> exists o, holds e (t_ "oya") (str_int o)) /\
  (tag e = t_ "UN" -> (forall s, holds e (t_ "dan") s -> grades s) /\ (forall s, holds e (t_ "rate") s -> at_least 4 s) /\
     (forall s, holds e (t_ "sx") s -> four_parts s)) /\
  (tag e = t_ "INIT" -> (exists r honba sticks more, 0 <= r < 4 * (w + 1) /\ holds e (t_ "seed") (comma_list (r :: honba :: sticks :: more))) /\
     (exists o, holds e (t_ "oya") (str_int o)) /\ exists s, holds e (t_ "ten") s /\ at_least n s) /\
  (tag e = t_ "REACH" -> exists p, 0 <= p < n /\ holds e (t_ "who") (str_int p) /\ says (t_ "step") e) /\
  (tag e = t_ "BYE" -> exists p, holds e (t_ "who") (str_int p)) /\
  (tag e = t_ "AGARI" -> exists p from hai sc yaku,
     holds e (t_ "who") (str_int p) /\ holds e (t_ "fromWho") (str_int from) /\
     hai <> [] /\ Forall valid_tile hai /\ holds e (t_ "hai") (comma_list hai) /\
     (p = from \/ exists m, In m hai /\ holds e (t_ "machi") (str_int m)) /\
     holds e (t_ "sc") sc /\ at_least (2 * n) sc /\
     (holds e (t_ "yaku") yaku \/ (lookup (t_ "yaku") (attrib e) = None /\ holds e (t_ "yakuman") yaku)) /\ yaku_numbers yaku /\
     exists ten, holds e (t_ "ten") ten /\ at_least 2 ten) /\
  (tag e = t_ "RYUUKYOKU" -> (forall s, holds e (t_ "type") s -> In s draw_names) /\ (forall s, holds e (t_ "sc") s -> at_least (2 * n) s)) /\
  (ends_deal e -> forall s, holds e (t_ "owari") s -> at_least (2 * n) s).

(** The seats in play are the first [n]: they are dealt tiles, and they play. *)
Definition at_table (n : Z) (a : action) : Prop :=
  match a with
  | Deal d => valid_tile (d_dora d) /\ forall p, 0 <= p < n -> d_hands d p <> []
  | Draw q _ | Discard q _ | Call q _ => q < n
  | _ => True
  end.

(** The settings come before what depends on them, and a deal before the play. *)
Definition has_tag (t : text) (es : list event) : Prop := exists e, In e es /\ tag e = t.
Definition in_order (es : list event) : Prop :=
  forall before e after, es = before ++ e :: after ->
    (In (tag e) [t_ "TAIKYOKU"; t_ "INIT"; t_ "AGARI"; t_ "RYUUKYOKU"] -> has_tag (t_ "GO") before) /\
    (In (tag e) [t_ "N"; t_ "DORA"; t_ "REACH"] \/ Spec_Log.tile_tag (tag e) -> has_tag (t_ "INIT") before).

(** A proper log: complete, in order, and everybody plays fair. *)
Definition proper (n w : Z) (acts : list action) (es : list event) : Prop :=
  (n = 3 \/ n = 4) /\ log acts es /\ Forall (complete n w) es /\ Forall (at_table n) acts /\ in_order es /\
  forall p, 0 <= p < n -> fair_play p acts es.

(** The events the translation knows: they tell it something. *)
Definition known (e : event) : Prop :=
  Spec_Log.tile_tag (tag e) \/
  In (tag e) [t_ "GO"; t_ "SHUFFLE"; t_ "TAIKYOKU"; t_ "INIT"; t_ "N"; t_ "DORA"; t_ "BYE"; t_ "AGARI"; t_ "RYUUKYOKU"] \/
  (tag e = t_ "UN" /\ exists p, seat p /\ announced p e) \/
  (tag e = t_ "REACH" /\ (holds e (t_ "step") (t_ "1") \/ holds e (t_ "step") (t_ "2"))).
(** What an event of a kind cannot do without. *)
Definition needed : list (text * list text) :=
  [(t_ "GO", [t_ "type"]); (t_ "SHUFFLE", [t_ "seed"]); (t_ "TAIKYOKU", [t_ "oya"]); (t_ "INIT", [t_ "seed"; t_ "oya"]);
   (t_ "N", [t_ "who"; t_ "m"]); (t_ "DORA", [t_ "hai"]); (t_ "REACH", [t_ "who"; t_ "step"]); (t_ "BYE", [t_ "who"]);
   (t_ "AGARI", [t_ "who"; t_ "fromWho"; t_ "hai"; t_ "sc"; t_ "ten"])].
