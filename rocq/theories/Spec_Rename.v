(** Calling the suits, the ranks and the honours by other names. *)
From Verif Require Import Base Tile Spec_Tile Spec_Win.
From Coq Require Import List ZArith Permutation.
Import ListNotations.
Open Scope Z_scope.

(** The three tiles of every run are the three tiles of a run under their new names. *)
Definition keeps_runs (f : kind -> kind) : Prop :=
  forall c n, legal_unit (URun c n) ->
  exists c' n', legal_unit (URun c' n') /\ Permutation (map f (unit_kinds (URun c n))) (unit_kinds (URun c' n')).

(** [f] gives every face another name, [g] gives the old one back, and runs stay runs. *)
Definition renames (f g : kind -> kind) : Prop :=
  (forall k, legal_kind k -> legal_kind (f k) /\ g (f k) = k) /\
  (forall k, legal_kind k -> legal_kind (g k) /\ f (g k) = k) /\
  keeps_runs f /\ keeps_runs g.

(** [b] is [a] with the names changed. *)
Definition renamed (f : kind -> kind) (a b : counts) : Prop := forall k, legal_kind k -> b (f k) = a k.

(** The names that may be changed: the three suits among each other, 1..9 counted from
    the other end in some of the suits, and the seven honours among each other. *)
Definition rename (suit : color -> color) (turned : color -> bool) (honour : Z -> Z) (k : kind) : kind :=
  match k with
  | (Cz, n) => (Cz, honour n)
  | (c, n) => (suit c, if turned c then 10 - n else n)
  end.
Definition swaps_suits (p q : color -> color) : Prop :=
  forall c, c <> Cz -> p c <> Cz /\ q (p c) = c.
Definition swaps_honours (p q : Z -> Z) : Prop :=
  forall n, 1 <= n <= 7 -> 1 <= p n <= 7 /\ q (p n) = n.
