(** The Python values that commands carry: None, booleans, numbers, texts and lists. *)
From Verif Require Import Base Parse Text.
From Coq Require Import String List ZArith Lia Bool.
Import ListNotations.
Open Scope list_scope.
Open Scope Z_scope.

(** Simplified: a float is the exact decimal [NDec m k] = m / 10^k it stands for, and its
    arithmetic is exact; NaN and the infinities are not values. *)
Inductive val := VNone | VBool (b : bool) | VNum (n : num) | VStr (s : text) | VList (l : list val).
Definition VInt (z : Z) : val := VNum (NInt z).

(** Numbers as fractions: numerator and exponent. *)
Definition num_m (n : num) : Z := match n with NInt z => z | NDec m _ => m end.
Definition num_k (n : num) : nat := match n with NInt _ => O | NDec _ k => k end.
Definition p10 (k : nat) : Z := 10 ^ Z.of_nat k.
(** [a == b], [a < b] of numbers. *)
Definition num_eqb (a b : num) : bool := num_m a * p10 (num_k b) =? num_m b * p10 (num_k a).
Definition num_ltb (a b : num) : bool := num_m a * p10 (num_k b) <? num_m b * p10 (num_k a).
(** [a + b], [a - b], [a * i]: integers stay integers, anything with a float is one. *)
Definition num_add (a b : num) : num :=
  match a, b with
  | NInt x, NInt y => NInt (x + y)
  | _, _ => NDec (num_m a * p10 (num_k b) + num_m b * p10 (num_k a)) (num_k a + num_k b)
  end.
Definition num_neg (a : num) : num := match a with NInt x => NInt (- x) | NDec m k => NDec (- m) k end.
Definition num_sub (a b : num) : num := num_add a (num_neg b).
Definition num_scale (a : num) (i : Z) : num := match a with NInt x => NInt (x * i) | NDec m k => NDec (m * i) k end.

(** Booleans count as the numbers 0 and 1. *)
Definition as_num (v : val) : option num :=
  match v with VBool b => Some (NInt (if b then 1 else 0)) | VNum n => Some n | _ => None end.

(** [a == b]. *)
Fixpoint val_eqb (a b : val) {struct a} : bool :=
  match a with
  | VNone => match b with VNone => true | _ => false end
  | VBool x => match b with
               | VBool _ | VNum _ => match as_num b with Some n => num_eqb (NInt (if x then 1 else 0)) n | None => false end
               | _ => false end
  | VNum x => match as_num b with Some n => num_eqb x n | None => false end
  | VStr s => match b with VStr t => text_eqb s t | _ => false end
  | VList l => match b with
               | VList m => (fix go l m := match l, m with
                                           | [], [] => true
                                           | x :: l', y :: m' => val_eqb x y && go l' m'
                                           | _, _ => false end) l m
               | _ => false end
  end.

(** property_manager.py 102-104 [a + b]. *)
Definition add_general (a b : val) : res val :=
  match a, b with
  | VStr s, VStr t => Ok (VStr (s ++ t))
  | VList l, VList m => Ok (VList (l ++ m))
  | _, _ => match as_num a, as_num b with
            | Some x, Some y => Ok (VNum (num_add x y))
            | _, _ => Err TypeError
            end
  end.
(** 107-109 [a - b]. *)
Definition remove_general (a b : val) : res val :=
  match as_num a, as_num b with
  | Some x, Some y => Ok (VNum (num_sub x y))
  | _, _ => Err TypeError
  end.
(** [list.remove]: the first element equal to it. *)
Fixpoint list_remove (l : list val) (x : val) : res (list val) :=
  match l with
  | [] => Err ValueError
  | y :: r => if val_eqb y x then Ok r else do r' <- list_remove r x; Ok (y :: r')
  end.
Fixpoint list_remove_all (l values : list val) : res (list val) :=
  match values with [] => Ok l | x :: r => do l' <- list_remove l x; list_remove_all l' r end.
(** What [for val in values] runs through; a text is iterated by character. *)
Definition iter_val (v : val) : res (list val) :=
  match v with
  | VList l => Ok l
  | VStr s => Ok (map (fun c => VStr [c]) s)
  | _ => Err TypeError
  end.
(** 94-99 [remove_all]: only lists have the [copy] method used. *)
Definition remove_all (lst values : val) : res val :=
  match lst with
  | VList l => do vs <- iter_val values; do r <- list_remove_all l vs; Ok (VList r)
  | _ => Err AttributeError
  end.

(** [Counter(v)]: the elements; None counts nothing; lists are not hashable. *)
Definition counted (v : val) : res (list val) :=
  match v with
  | VNone => Ok []
  | _ => do l <- iter_val v;
         if forallb (fun x => match x with VList _ => false | _ => true end) l then Ok l else Err TypeError
  end.
Definition count_in (x : val) (l : list val) : nat := length (filter (val_eqb x) l).
(** 63-65 [tiles_equal]: equality of two Counters, as multisets. *)
Definition tiles_equal (expected actual : val) : res bool :=
  do a <- counted expected; do b <- counted actual;
  Ok (Nat.eqb (length a) (length b) && forallb (fun x => Nat.eqb (count_in x a) (count_in x b)) a).
