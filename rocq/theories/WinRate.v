(** Model of mahjong/win_rate_demo.py: estimating which discard wins most often. The eigenvector (85-89)
    and the order of the printed rows, which depends on it (93), are in PickRate.v. Not modelled: the progress
    messages (57-63, 65). *)
From Verif Require Import Base Tile TileSet Parse Win Distribution.
From Coq Require Import List ZArith QArith Bool.
Import ListNotations.
Open Scope list_scope.
Open Scope Z_scope.

(** 15-19: lines are asked for until one has 14 tiles; [None]: there was none so far. *)
Fixpoint read_hand (lines : list text) : option tset :=
  match lines with
  | [] => None
  | l :: r => let input_hand := tile_set_from_string l in if total input_hand =? 14 then Some input_hand else read_hand r
  end.
(** 20: [TileSet(TileDistribution.ALL_TILES * 4) - input_hand]. *)
Definition remain_tiles (input_hand : tset) : tset :=
  ts_sub (of_tiles (ALL_TILES ++ ALL_TILES ++ ALL_TILES ++ ALL_TILES)) input_hand.
(** 22: for every tile of the hand, the hand without it. *)
Definition possible_discard (input_hand : tset) : list (tile * tset) :=
  map (fun tile => (tile, ts_sub input_hand (of_tiles [tile]))) (map fst input_hand).
(** 28-30, with the defaults of win.py 104 and 131. *)
Definition win_patterns : list pattern := [NormalTypeWin 1 4; UniquePairs 7 []].
(** 42-44. *)
Definition hand_wins (hand sample_wall : tset) : bool :=
  let total_hand := ts_add hand sample_wall in existsb (fun p => match_ p total_hand) win_patterns.

(** A Counter of fractions: [c[tile]] (0 if missing) and [c[tile] += x]. Simplified: exact fractions
    instead of floats. *)
Definition fractions := list (tile * Q).
Fixpoint fraction (c : fractions) (t : tile) : Q :=
  match c with [] => 0%Q | (u, q) :: r => if tile_eqb u t then q else fraction r t end.
Fixpoint add_fraction (c : fractions) (t : tile) (x : Q) : fractions :=
  match c with
  | [] => [(t, x)]
  | (u, q) :: r => if tile_eqb u t then (u, q + x)%Q :: r else (u, q) :: add_fraction r t x
  end.
(** A defaultdict(Counter). *)
Definition table := list (tile * fractions).
Fixpoint entry (d : table) (t : tile) : fractions :=
  match d with [] => [] | (u, c) :: r => if tile_eqb u t then c else entry r t end.
Fixpoint add_entry (d : table) (t tile : tile) (x : Q) : table :=
  match d with
  | [] => [(t, add_fraction [] tile x)]
  | (u, c) :: r => if tile_eqb u t then (u, add_fraction c tile x) :: r else (u, c) :: add_entry r t tile x
  end.

(** 24-25, 31-32: the counters. *)
Record tally := mkTally { win_counter : tset; total_win_count : Z; avg_win_counter : fractions; condition_win_counter : table }.
Definition no_tally : tally := mkTally [] 0 [] [].
(** 39-48: the discards after which the hand wins with the sampled tiles, in the order of the loop. *)
Definition possible_win_set (discards : list (tile * tset)) (sample_wall : tset) : list tile :=
  map fst (filter (fun d => hand_wins (snd d) sample_wall) discards).
(** 37-55: one experiment. The sets of 39 and 53 are lists here; the order in which they are iterated
    only matters for the order of the counters' keys, which is never used. *)
Definition experiment (discards : list (tile * tset)) (sample_wall : tset) (s : tally) : tally :=
  let won := possible_win_set discards sample_wall in
  let share := (1 / inject_Z (Z.of_nat (length won)))%Q in
  let lost := filter (fun t => negb (existsb (fun u => tile_eqb u t) won)) (map fst discards) in
  mkTally (fold_left (fun c t => put c t (get c t + 1)) won (win_counter s))
          (total_win_count s + Z.of_nat (length won))
          (fold_left (fun c t => add_fraction c t share) won (avg_win_counter s))
          (fold_left (fun d no_win => fold_left (fun d t => add_entry d no_win t share) won d) lost (condition_win_counter s)).
(** 36-55: as many experiments as the random source has entries ([range] of a negative number is empty); an entry has the numbers for one
    sample (Distribution.v). *)
Fixpoint experiments (wall : tset) (discards : list (tile * tset)) (source : list (list Z)) (s : tally) : res tally :=
  match source with
  | [] => Ok s
  | xs :: rest =>
    do drawn <- sample wall xs;
    experiments wall discards rest (experiment discards (of_tiles drawn) s)
  end.

(** 64-80: the matrix, column after column ([condition_index]); [try_count] experiments. *)
Definition self_rate (s : tally) (t : tile) : res Q :=
  if total_win_count s =? 0 then Err ZeroDivisionError
  else Ok (fraction (avg_win_counter s) t / inject_Z (total_win_count s))%Q.
Definition raw_entry (min_rate : Q) (s : tally) (condition transfer : tile) : Q :=
  let transfer_count := fraction (entry (condition_win_counter s) condition) transfer in
  if (negb (Qle_bool transfer_count 0) && (0 <? get (win_counter s) transfer))%bool then transfer_count else min_rate.
Definition sumQ (l : list Q) : Q := fold_right Qplus 0%Q l.
(** The entry of the diagonal is replaced after the scaling (78). Positions are compared, not tiles. *)
Fixpoint replace_at (i : nat) (x : Q) (l : list Q) : list Q :=
  match l, i with
  | [], _ => []
  | _ :: r, O => x :: r
  | y :: r, S j => y :: replace_at j x r
  end.
Definition column (min_rate : Q) (s : tally) (solution_tiles : list tile) (i : nat) (condition : tile) : res (list Q) :=
  do self <- self_rate s condition;
  let raw := map (raw_entry min_rate s condition) solution_tiles in
  let scaled := map (fun x => x * ((1 - self) / sumQ raw))%Q raw in
  Ok (replace_at i self scaled).
Fixpoint columns_from (min_rate : Q) (s : tally) (solution_tiles : list tile) (i : nat) (rest : list tile) : res (list (list Q)) :=
  match rest with
  | [] => Ok []
  | t :: r => do c <- column min_rate s solution_tiles i t; do cs <- columns_from min_rate s solution_tiles (S i) r; Ok (c :: cs)
  end.
Definition condition_matrix (try_count : Z) (s : tally) (solution_tiles : list tile) : res (list (list Q)) :=
  if try_count =? 0 then Err ZeroDivisionError
  else columns_from (1 / inject_Z try_count)%Q s solution_tiles 0 solution_tiles.
(** 82-84: the product of the matrix with the uniform distribution, one entry per tile. *)
Definition rough_pick (matrix : list (list Q)) (n : nat) : list Q :=
  map (fun i => sumQ (map (fun c => nth i c 0%Q * (1 / inject_Z (Z.of_nat n)))%Q matrix)) (seq 0 n).

(** 95-102: what is printed about a discard: its win count out of the number of experiments, and its rough pick
    rate. *)
Record outcome := mkOutcome { out_tile : tile; out_wins : Z; out_tries : Z; out_rough : Q }.
Definition outcomes (try_count : Z) (s : tally) (solution_tiles : list tile) : res (list outcome) :=
  do m <- condition_matrix try_count s solution_tiles;
  Ok (map (fun tr => mkOutcome (fst tr) (get (win_counter s) (fst tr)) try_count (snd tr))
          (combine solution_tiles (rough_pick m (length solution_tiles)))).
(** 14-102 [main] for a hand and a random source with one entry per experiment. *)
Definition main (input_hand : tset) (source : list (list Z)) : res (list outcome) :=
  let discards := possible_discard input_hand in
  do s <- experiments (remain_tiles input_hand) discards source no_tally;
  outcomes (Z.of_nat (length source)) s (map fst discards).
