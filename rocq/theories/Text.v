(** Python text helpers used by the record package. A text is its list of code points
    ([text] of Parse.v). *)
From Verif Require Import Base Parse.
From Coq Require Import String Ascii List ZArith Lia Bool.
Import ListNotations.
Open Scope list_scope.
Open Scope Z_scope.

(** A literal of ASCII characters as a text. *)
Definition t_ (s : string) : text := map (fun c => Z.of_nat (nat_of_ascii c)) (list_ascii_of_string s).

(** [==] of texts. *)
Fixpoint text_eqb (a b : text) : bool :=
  match a, b with
  | [], [] => true
  | x :: a', y :: b' => (x =? y) && text_eqb a' b'
  | _, _ => false
  end.

(** [s.split(c)] for a one-character separator: always at least one piece. *)
Fixpoint split_on (c : Z) (s : text) : list text :=
  match s with
  | [] => [[]]
  | x :: r =>
    if x =? c then [] :: split_on c r
    else match split_on c r with
         | p :: ps => (x :: p) :: ps
         | [] => [[x]]
         end
  end.

(** [sep.join(l)]. *)
Fixpoint join (sep : text) (l : list text) : text :=
  match l with
  | [] => []
  | [x] => x
  | x :: r => (x ++ sep ++ join sep r)%list
  end.

(** The value of a run of ASCII digits. *)
Definition digits_val (s : text) : Z := fold_left (fun a c => a * 10 + (c - 48)) s 0.

(** [int(s)] of a text: optional sign and ASCII digits. Simplified: surrounding white
    space, underscores and non-ASCII digits, which Python also accepts, are rejected
    here with the ValueError of other malformed texts. *)
Definition py_int (s : text) : res Z :=
  let number ds := match ds with [] => Err ValueError
                   | _ => if forallb ch_digit ds then Ok (digits_val ds) else Err ValueError end in
  match s with
  | 45 :: ds => do n <- number ds; Ok (- n)
  | 43 :: ds => number ds
  | _ => number s
  end.

(** A number read by [number_list]: an integer, or a decimal fraction [m / 10^k] that
    is not one. *)
Inductive num := NInt (n : Z) | NDec (m : Z) (k : nat).

(** mahjong/record/utils/value/general.py 2-4, one element: [int(float(x))] if that
    loses nothing, else [float(x)]. Simplified: floating point values are the exact
    decimals they denote (Python rounds from 2^53 on), and only sign, digits and an
    optional point with digits are accepted (no exponent, no "inf" or "nan"). *)
Definition num_of_digits (neg : bool) (i f : text) : num :=
  let m := digits_val (i ++ f) in
  let s := if neg then - m else m in
  let d := 10 ^ Z.of_nat (length f) in
  if s mod d =? 0 then NInt (s / d) else NDec s (length f).
Definition py_number (s : text) : res num :=
  let body neg ds :=
    match split_on 46 ds with
    | [i] => match i with [] => Err ValueError
             | _ => if forallb ch_digit i then Ok (num_of_digits neg i []) else Err ValueError end
    | [i; f] => match (i ++ f)%list with [] => Err ValueError
                | _ => if forallb ch_digit (i ++ f) then Ok (num_of_digits neg i f) else Err ValueError end
    | _ => Err ValueError
    end in
  match s with
  | 45 :: ds => body true ds
  | 43 :: ds => body false ds
  | _ => body false s
  end.

(** general.py 1-5 [number_list] with the default separator. *)
Definition number_list (s : text) : res (list num) := mapM py_number (split_on 44 s).

(** [number_list] where the program goes on to use the numbers as integers. Simplified:
    a number with a fraction, which Python would carry along as a float, is rejected
    with ValueError. *)
Definition as_int (n : num) : res Z := match n with NInt i => Ok i | NDec _ _ => Err ValueError end.
Definition int_list (s : text) : res (list Z) := do l <- number_list s; mapM as_int l.
