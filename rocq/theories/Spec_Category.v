(** Specification vocabulary for mixed-radix numbering. Nothing here refers to
    the model of category.py. *)
From Coq Require Import List ZArith.
Import ListNotations.
Open Scope Z_scope.

(** A shape accepted by SubCategory: all dimensions positive, the first may be -1
    ("unbounded"). *)
Definition good_shape (dims : list Z) : Prop :=
  match dims with
  | [] => False
  | d :: ds => (d = -1 \/ 0 < d) /\ Forall (fun x => 0 < x) ds
  end.

Definition bounded_shape (dims : list Z) : Prop :=
  dims <> [] /\ Forall (fun x => 0 < x) dims.

(** Number of cells of a bounded shape. *)
Fixpoint cells (dims : list Z) : Z :=
  match dims with [] => 1 | d :: ds => d * cells ds end.

(** The index belongs to the shape. *)
Definition valid_index (dims : list Z) (i : Z) : Prop :=
  match dims with
  | [] => False
  | d :: _ => d = -1 \/ 0 <= i < cells dims
  end.

(** The tuple belongs to the shape. *)
Definition in_shape (dims tup : list Z) : Prop :=
  match dims, tup with
  | d :: ds, x :: xs => (d = -1 \/ 0 <= x < d) /\ Forall2 (fun d x => 0 <= x < d) ds xs
  | _, _ => False
  end.

(** Lexicographic order of equally long tuples. *)
Fixpoint lex_lt (a b : list Z) : Prop :=
  match a, b with
  | x :: a', y :: b' => x < y \/ (x = y /\ lex_lt a' b')
  | _, _ => False
  end.

(** Position [i] of the concatenation of blocks with the given sizes falls in
    block [b] at offset [o]. *)
Fixpoint locate (sizes : list Z) (i : Z) : option (Z * Z) :=
  match sizes with
  | [] => None
  | n :: r =>
    if (0 <=? i) && (i <? n) then Some (0, i)
    else match locate r (i - n) with
         | Some (b, o) => Some (b + 1, o)
         | None => None
         end
  end%bool.

(** Digits count the same in two shapes: they are equally long, and wherever the first has more than one
    digit, a step there is worth the same in both (the dimensions after it have as many cells). *)
Definition same_weights (own other : list Z) : Prop :=
  length own = length other /\
  forall j d, nth_error own j = Some d -> 1 < d -> cells (skipn (S j) own) = cells (skipn (S j) other).
(** The block before block [k] of [n], the last one before the first. *)
Definition block_before (n k : nat) : nat := match k with O => (n - 1)%nat | S j => j end.
