(** Specification vocabulary for the waiting analysis of hands that are already complete. *)
From Verif Require Import Base Tile Spec_Tile Spec_Win.
From Coq Require Import List ZArith.
Import ListNotations.
Open Scope Z_scope.

(** [missing] are the tiles that the hand lacks for the units (with at most four of a face). *)
Definition lacks (s : shape) (h : counts) (missing : list kind) : Prop :=
  exists us, forms s us /\ (forall k, uses us k <= 4) /\ (forall k, count_kind k missing = Z.max 0 (uses us k - h k)).
(** The least number of tiles, but not none, that the hand lacks for a winning hand. *)
Definition nearest_other (s : shape) (h : counts) (n : nat) : Prop :=
  n <> 0%nat /\ (exists missing, lacks s h missing /\ length missing = n) /\
  forall missing, lacks s h missing -> missing <> [] -> (n <= length missing)%nat.
(** A shape with at least one pair. *)
Definition has_pair (s : shape) : Prop := match s with Standard p _ => 1 <= p | DistinctPairs n => 1 <= n end.
