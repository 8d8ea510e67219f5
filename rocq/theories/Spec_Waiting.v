(** Distance of a hand from winning, in terms of counts only. *)
From Verif Require Import Base Tile Spec_Tile Spec_Win.
From Coq Require Import List ZArith.
Import ListNotations.
Open Scope Z_scope.

(** The hand after adding some tiles. *)
Definition plus (h : counts) (add : list kind) : counts := fun k => h k + count_kind k add.

(** [n] tiles can be added so that the hand wins; with [limit] no face may then
    occur more than four times. *)
Definition reach (limit : bool) (s : shape) (h : counts) (n : nat) : Prop :=
  exists add : list kind, length add = n /\ Forall legal_kind add /\
    (limit = true -> forall k, plus h add k <= 4) /\ wins s (plus h add).

(** [n] is the least such number. *)
Definition distance (limit : bool) (s : shape) (h : counts) (n : nat) : Prop :=
  reach limit s h n /\ forall m, reach limit s h m -> (n <= m)%nat.

(** Face [k] advances the hand: one tile of it may be added, and that brings the
    hand one step closer. *)
Definition advances (limit : bool) (s : shape) (h : counts) (k : kind) : Prop :=
  legal_kind k /\ (limit = true -> h k < 4) /\
  exists n, distance limit s h (S n) /\ distance limit s (plus h [k]) n.

(** A hand that may occur in play: at most four of each face, legal faces only. *)
Definition legal_counts (h : counts) : Prop :=
  forall k, 0 <= h k <= 4 /\ (h k <> 0 -> legal_kind k).

(** The hand after discarding one tile of face [k]. *)
Definition without (h : counts) (k : kind) : counts :=
  fun j => if same_kind k j then h j - 1 else h j.

(** Discarding [k] (which the hand has) does not move the hand further from winning. *)
Definition keeps_distance (limit : bool) (s : shape) (h : counts) (k : kind) : Prop :=
  0 < h k /\ exists n, distance limit s h n /\ distance limit s (without h k) n.
