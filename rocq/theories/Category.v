(** Model of mahjong/record/category.py. *)
From Verif Require Import Base.
From Coq Require Import List ZArith Lia Bool.
Import ListNotations.
Open Scope Z_scope.

(** category.py 72-83: a [SubCategory] object; [sc_totals] is [self._totals]
    after [reverse()], [sc_max] is [self._max] ([None] for a head of -1).
    Named-tuple classes only rename the components and are left out. *)
Record subcat := mkSub { sc_totals : list Z; sc_max : option Z }.

(** category.py 73-83 [SubCategory.__init__]: the assertions, the reversal and
    the product. [SubCategory()] without arguments raises IndexError at line 77. *)
Definition new_subcat (args : list Z) : res subcat :=
  match args with
  | [] => Err IndexError
  | head :: tl =>
    if forallb (fun x => 0 <? x) tl then
      if (head =? -1) || (0 <? head) then
        Ok (mkSub (rev args)
                  (if head =? -1 then None else Some (fold_right Z.mul 1 (rev args))))
      else Err AssertionError
    else Err AssertionError
  end.

(** category.py 85-92 [_category_iter] without the assertion of line 86. Python's
    [%] and [//] on integers are floor modulo and floor division, as [Z.modulo]
    and [Z.div]. *)
Fixpoint category_iter (totals : list Z) (index : Z) : list Z :=
  match totals with
  | [] => []
  | total :: rest =>
    if negb (total =? -1) then (index mod total) :: category_iter rest (index / total)
    else index :: category_iter rest index
  end.

(** category.py 85-86 and 94-97 [SubCategory.category]. *)
Definition sub_category (c : subcat) (index : Z) : res (list Z) :=
  match sc_max c with
  | Some m => if index <? m then Ok (rev (category_iter (sc_totals c) index)) else Err AssertionError
  | None => Ok (rev (category_iter (sc_totals c) index))
  end.

(** category.py 102-104: the loop body over [zip(category_tuple[1:], totals[1:])]. *)
Fixpoint horner (index : Z) (tup totals : list Z) : Z :=
  match tup, totals with
  | idx :: tup', total :: totals' => horner (index * total + idx) tup' totals'
  | _, _ => index
  end.

(** category.py 99-105 [SubCategory.index]. *)
Definition sub_index (c : subcat) (tup : list Z) : res Z :=
  if Nat.eqb (length tup) (length (sc_totals c)) then
    match tup with
    | [] => Err IndexError
    | x :: rest => Ok (horner x rest (tl (rev (sc_totals c))))
    end
  else Err AssertionError.

(** category.py 107-108 [SubCategory.__len__]; [len()] of an object whose
    [__len__] returns [math.inf] raises TypeError. *)
Definition sub_len (c : subcat) : res Z :=
  match sc_max c with Some m => Ok m | None => Err TypeError end.

(** category.py 33-45: a [MixedCategory] (without named tuples). *)
Record mixedcat := mkMixed { mc_list : list subcat; mc_acc : list Z }.

(** category.py 47-52 [_accumulate], after the first [yield]. *)
Fixpoint accumulate (sum_len : Z) (lens : list Z) : list Z :=
  match lens with
  | [] => []
  | n :: r => (sum_len + n) :: accumulate (sum_len + n) r
  end.

(** category.py 34-45 [MixedCategory.__init__]. *)
Definition new_mixed (l : list subcat) : res mixedcat :=
  do lens <- mapM sub_len l; Ok (mkMixed l (0 :: accumulate 0 lens)).

(** category.py 54-55 [__len__] (the sum computed at line 44). *)
Definition mixed_len (m : mixedcat) : res Z :=
  do lens <- mapM sub_len (mc_list m); Ok (fold_left Z.add lens 0).

(** category.py 57-65 [MixedCategory.category]. *)
Definition mixed_category (m : mixedcat) (index : Z) : res (list Z) :=
  let category := Z.of_nat (bisect_right Z.ltb 0 (mc_acc m) index) in
  let belongs_id := category - 1 in
  do belongs <- py_nth (mc_list m) belongs_id;
  do hi <- py_nth (mc_acc m) category;
  do sub_id <- sub_category belongs (index - hi);
  Ok (belongs_id :: sub_id).

(** category.py 67-69 [MixedCategory.index]; unpacking an empty tuple raises
    ValueError. *)
Definition mixed_index (m : mixedcat) (tup : list Z) : res Z :=
  match tup with
  | [] => Err ValueError
  | category :: sub_id =>
    do a <- py_nth (mc_acc m) category;
    do c <- py_nth (mc_list m) (category - 1);
    do i <- sub_index c sub_id;
    Ok (a + i)
  end.
