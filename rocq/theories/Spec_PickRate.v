(** Specification vocabulary for C122: distributions that a matrix of transfer rates leaves as they are,
    and the discards all wins come from. *)
From Verif Require Import Base Tile TileSet Spec_Tile Spec_Win Spec_Hand Spec_WinRate.
From Coq Require Import List ZArith QArith.
Import ListNotations.
Open Scope Z_scope.

(** The matrix, a list of columns, applied to the vector, at row [i]. *)
Fixpoint applied (matrix : list (list Q)) (v : list Q) (i : nat) : Q :=
  match matrix, v with
  | c :: cs, x :: xs => (nth i c 0 * x + applied cs xs i)%Q
  | _, _ => 0%Q
  end.
(** The matrix leaves [v] as it is, and [v] is not just zeros: an eigenvector for the eigenvalue 1. *)
Definition stationary (matrix : list (list Q)) (v : list Q) : Prop :=
  length v = length matrix /\ (exists x, In x v /\ ~ x == 0)%Q /\ forall i, (i < length v)%nat -> (applied matrix v i == nth i v 0)%Q.
(** With these draws nothing wins but the discard of [t]. *)
Definition only_winner (hand : tset) (draws : list (list tile)) (t : tile) : Prop :=
  forall d u, In d draws -> In u (map fst hand) -> winning (afterwards hand u d) -> u = t.
