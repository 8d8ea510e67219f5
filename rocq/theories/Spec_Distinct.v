(** What "keep first occurrences" means. *)
From Coq Require Import List Bool.
Import ListNotations.

(** [lt] is a strict total order on the items satisfying [P], modulo "not [ne]". *)
Record total_order {A} (P : A -> Prop) (lt ne : A -> A -> bool) : Prop := {
  to_irrefl : forall x, P x -> lt x x = false;
  to_trans : forall x y z, P x -> P y -> P z -> lt x y = true -> lt y z = true -> lt x z = true;
  to_total : forall x y, P x -> P y -> (ne x y = true <-> lt x y = true \/ lt y x = true);
  to_cong : forall x y z, P x -> P y -> P z -> ne x y = false -> lt x z = lt y z /\ lt z x = lt z y
}.

(** The items that differ from all items before them, in order. *)
Fixpoint first_occurrences {A} (ne : A -> A -> bool) (before l : list A) : list A :=
  match l with
  | [] => []
  | x :: r =>
    if forallb (fun y => ne y x) before then x :: first_occurrences ne (before ++ [x]) r
    else first_occurrences ne (before ++ [x]) r
  end.
