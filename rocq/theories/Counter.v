(** A [collections.Counter] with text keys: an association list in insertion order. *)
From Verif Require Import Base Parse Text.
From Coq Require Import String List ZArith Lia Bool.
Import ListNotations.
Open Scope list_scope.
Open Scope Z_scope.

Definition counter := list (text * Z).
(** [c[k]], 0 when missing; [k in c]; [c[k] = v]. *)
Fixpoint cget (c : counter) (k : text) : Z :=
  match c with [] => 0 | (k', v) :: r => if text_eqb k' k then v else cget r k end.
Definition chas (c : counter) (k : text) : bool := existsb (fun e => text_eqb (fst e) k) c.
Fixpoint cput (c : counter) (k : text) (v : Z) : counter :=
  match c with
  | [] => [(k, v)]
  | (k', v') :: r => if text_eqb k' k then (k', v) :: r else (k', v') :: cput r k v
  end.
(** [Counter(iterable)]. *)
Definition counter_of (l : list text) : counter := fold_left (fun c k => cput c k (cget c k + 1)) l [].
(** [Counter.__sub__] and [Counter.__add__] of CPython. *)
Definition counter_sub (a b : counter) : counter :=
  flat_map (fun e => let n := snd e - cget b (fst e) in if 0 <? n then [(fst e, n)] else []) a ++
  flat_map (fun e => if negb (chas a (fst e)) && (snd e <? 0) then [(fst e, 0 - snd e)] else []) b.
Definition counter_add (a b : counter) : counter :=
  flat_map (fun e => let n := snd e + cget b (fst e) in if 0 <? n then [(fst e, n)] else []) a ++
  flat_map (fun e => if negb (chas a (fst e)) && (0 <? snd e) then [e] else []) b.
(** [Counter.elements]. *)
Definition elements (c : counter) : list text := flat_map (fun e => repeat (fst e) (Z.to_nat (snd e))) c.
(** Counter equality is dict equality (before Python 3.10): same keys, same counts. *)
Definition counter_eqb (a b : counter) : bool :=
  Nat.eqb (length a) (length b) && forallb (fun e => chas b (fst e) && (cget b (fst e) =? snd e)) a.
