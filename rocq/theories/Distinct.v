(** Model of [distinct] (mahjong/container/utils.py 25-31) and of
    [WinPattern.unique_win_selections] (mahjong/container/pattern/win.py 67-68). *)
From Verif Require Import Base Tile TileSet Win.
From Coq Require Import List ZArith Lia Bool.
Import ListNotations.
Open Scope Z_scope.

(** [list.insert(i, x)]. *)
Definition insert_at {A} (i : nat) (x : A) (l : list A) : list A := firstn i l ++ x :: skipn i l.

(** utils.py 25-31 [distinct], with the item comparisons [<] and [!=] as parameters; [d]
    only fills the unused default of [nth]. The generator is the list of its values. *)
Fixpoint distinct_loop {A} (lt ne : A -> A -> bool) (d : A) (unique l : list A) : list A :=
  match l with
  | [] => []
  | item :: r =>
    let index := bisect_left lt d unique item in
    if (length unique <=? index)%nat || ne (nth index unique d) item
    then item :: distinct_loop lt ne d (insert_at index item unique) r
    else distinct_loop lt ne d unique r
  end.
Definition distinct {A} (lt ne : A -> A -> bool) (d : A) (l : list A) : list A :=
  distinct_loop lt ne d [] l.

(** Python list comparison of lists of TileSets: the first pair of elements that are not
    [==] decides; otherwise the shorter list is smaller. *)
Fixpoint sel_ltb (a b : list tset) : bool :=
  match a, b with
  | [], [] => false
  | [], _ :: _ => true
  | _ :: _, [] => false
  | x :: a', y :: b' => if ts_eqb x y then sel_ltb a' b' else ts_ltb x y
  end.
Fixpoint sel_eqb (a b : list tset) : bool :=
  match a, b with
  | [], [] => true
  | x :: a', y :: b' => ts_eqb x y && sel_eqb a' b'
  | _, _ => false
  end.
Definition sel_neb (a b : list tset) : bool := negb (sel_eqb a b).

(** [sorted(selection)]: stable sorting with [TileSet.__lt__] (set.py 53-54). *)
Fixpoint sel_ins (x : tset) (l : list tset) : list tset :=
  match l with
  | [] => [x]
  | y :: r => if ts_ltb x y then x :: l else y :: sel_ins x r
  end.
Definition sel_sort (l : list tset) : list tset := fold_left (fun a x => sel_ins x a) l [].

(** win.py 67-68 [unique_win_selections]. *)
Definition unique_win_selections (p : pattern) (hand : tset) : list (list tset) :=
  distinct sel_ltb sel_neb [] (map sel_sort (win_selections p hand)).
