(** Vocabulary for C84 and C85: tags with a number, the table of an event, file names. It does
    not mention regular expressions or dictionaries. *)
From Verif Require Import Base Parse Text Event Table.
From Coq Require Import String List ZArith Bool.
Import ListNotations.
Open Scope list_scope.
Open Scope Z_scope.

Definition letter (c : Z) : Prop := 65 <= c <= 90 \/ 97 <= c <= 122.
Definition digit (c : Z) : Prop := 48 <= c <= 57.
(** [t] is a word followed by a number, as the draws T12 and the discards D12 are. *)
Definition numbered (t word number : text) : Prop :=
  t = word ++ number /\ word <> [] /\ Forall letter word /\ number <> [] /\ Forall digit number.
Definition plain (t : text) : Prop := forall word number, ~ numbered t word number.

(** What XML guarantees of an element: attribute names are distinct and have no '<', and the tag
    has no line break. *)
Definition xml_element (e : event) : Prop :=
  NoDup (map fst (attrib e)) /\ (forall k v, In (k, v) (attrib e) -> ~ In 60 k) /\ ~ In 10 (tag e).

(** The rows that tell everything about the event number [i]: its tag, in two rows if it has a
    number, and then its attributes in the order of the log. *)
Inductive told (i : Z) : event -> list row -> Prop :=
| told_plain e : plain (tag e) ->
    told i e (mkRow i (tag e) (t_ "<tag>") (tag e) :: map (fun kv => mkRow i (tag e) (fst kv) (snd kv)) (attrib e))
| told_numbered e word number : numbered (tag e) word number ->
    told i e (mkRow i word (t_ "<tag_extra>") number :: mkRow i word (t_ "<tag>") word ::
              map (fun kv => mkRow i word (fst kv) (snd kv)) (attrib e)).
(** Event after event, numbered from [i] on. *)
Inductive all_told : Z -> list event -> list row -> Prop :=
| told_none i : all_told i [] []
| told_next i e es rs more : told i e rs -> all_told (i + 1) es more -> all_told i (e :: es) (rs ++ more).
(** The same, the events with a numbered tag left out (their numbers are still counted). *)
Inductive others_told : Z -> list event -> list row -> Prop :=
| others_none i : others_told i [] []
| others_skip i e es word number more : numbered (tag e) word number -> others_told (i + 1) es more -> others_told i (e :: es) more
| others_next i e es rs more : plain (tag e) -> told i e rs -> others_told (i + 1) es more -> others_told i (e :: es) (rs ++ more).
