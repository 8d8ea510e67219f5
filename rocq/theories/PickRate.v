(** Model of the end of mahjong/win_rate_demo.py: the "accurate" pick rates and the rows that are printed. *)
From Verif Require Import Base Tile TileSet Parse Win Distribution WinRate.
From Coq Require Import List ZArith QArith Bool.
Import ListNotations.
Open Scope list_scope.
Open Scope Z_scope.

(** 97-102: a row. *)
Record pick_row := mkPick { pr_tile : tile; pr_wins : Z; pr_tries : Z; pr_rough : Q; pr_accurate : Q }.
(** 89: divided by the sum. Simplified: exact fractions; where numpy gives nan or inf for a sum of 0, this gives 0. *)
Definition infinite_pick (vector : list Q) : list Q := map (fun x => x / sumQ vector)%Q vector.
(** 93: [sorted] with [reverse=True] keeps the order of rows with equal rates. *)
Fixpoint insert_row (x : pick_row) (l : list pick_row) : list pick_row :=
  match l with
  | [] => [x]
  | y :: r => if Qle_bool (pr_accurate y) (pr_accurate x) then x :: l else y :: insert_row x r
  end.
Definition sort_rows (l : list pick_row) : list pick_row := fold_right insert_row [] l.
(** 90-91, 97: the rates and the count of a tile together. *)
Definition to_row (s : tally) (try_count : Z) (x : tile * Q * Q) : pick_row :=
  match x with (tile, rough, infinite) => mkPick tile (get (win_counter s) tile) try_count rough infinite end.
(** 64-102. [eig]: 85-88, the column of the eigenvectors that [LA.eig] gives for the eigenvalue nearest to 1. Simplified: it is real. *)
Definition pick_rows (eig : list (list Q) -> list Q) (try_count : Z) (s : tally) (solution_tiles : list tile) : res (list pick_row) :=
  do m <- condition_matrix try_count s solution_tiles;
  Ok (sort_rows (map (to_row s try_count) (combine (combine solution_tiles (rough_pick m (length solution_tiles))) (infinite_pick (eig m))))).
(** 14-102 [main], and 36-80: the matrix it makes. *)
Definition pick_main (eig : list (list Q) -> list Q) (input_hand : tset) (source : list (list Z)) : res (list pick_row) :=
  let discards := possible_discard input_hand in
  do s <- experiments (remain_tiles input_hand) discards source no_tally;
  pick_rows eig (Z.of_nat (length source)) s (map fst discards).
Definition the_matrix (input_hand : tset) (source : list (list Z)) : res (list (list Q)) :=
  let discards := possible_discard input_hand in
  do s <- experiments (remain_tiles input_hand) discards source no_tally;
  condition_matrix (Z.of_nat (length source)) s (map fst discards).
