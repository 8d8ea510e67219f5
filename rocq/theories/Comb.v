(** Model of mahjong/tenhou_record_check.py 28-34: [n_a_r] and [n_c_r]. *)
From Verif Require Import Base.
From Coq Require Import List ZArith Lia Bool.
Import ListNotations.
Open Scope Z_scope.

(** [range(n, stop, -1)]: n, n-1, ... down to stop+1. *)
Definition range_down (n stop : Z) : list Z := map (fun i => n - Z.of_nat i) (seq 0 (Z.to_nat (n - stop))).
(** 28-29: [reduce(op.mul, range(n, n - r, -1), 1)]. *)
Definition n_a_r (n r : Z) : Z := fold_left Z.mul (range_down n (n - r)) 1.

(** 32-34. The true division of two integers is given by its operands (Python rounds the
    exact quotient to the nearest double, and raises OverflowError beyond the largest one). *)
Record quotient := mkQuot { q_num : Z; q_den : Z }.
Definition true_div (a b : Z) : res quotient := if b =? 0 then Err ZeroDivisionError else Ok (mkQuot a b).
Definition n_c_r (n r : Z) : res quotient :=
  let r := Z.min r (n - r) in true_div (n_a_r n r) (n_a_r r r).
