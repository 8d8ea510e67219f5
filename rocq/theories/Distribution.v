(** Model of mahjong/container/distribution.py: sampling from a wall. *)
From Verif Require Import Base Tile TileSet.
From Coq Require Import List ZArith Lia Bool.
Import ListNotations.
Open Scope Z_scope.

(** 16-17 [weights] of a StaticWall (40-41 [weight_of]). *)
Definition weights (wall : tset) : list Z := map (get wall) ALL_TILES.

(** [itertools.accumulate]. *)
Fixpoint accumulate (acc : Z) (l : list Z) : list Z :=
  match l with [] => [] | w :: r => (acc + w) :: accumulate (acc + w) r end.

(** [random.choices(population, weights)] for one item (CPython 3.6-3.9, the versions that
    still have [collections.Iterator], line 5): [population[bisect(cum_weights, random() * total, 0, n - 1)]].
    Simplified: the weights being integers, comparing [random() * total] with them only
    depends on its integer part, which is the argument [x]; the random source makes it any
    number with [0 <= x < total] (0 when the total is 0). *)
Definition choices (population : list tile) (ws : list Z) (x : Z) : res tile :=
  let cum := accumulate 0 ws in
  let n := length population in
  match nth_error population (bisect_right_loop Z.ltb 0 n cum x 0 (n - 1)) with
  | Some t => Ok t
  | None => Err IndexError
  end.

(** 43-44 [pick]: [self._tiles - Counter([tile])]. *)
Definition wall_pick (wall : tset) (t : tile) : tset := ts_sub wall (of_tiles [t]).

(** 27-33 [sample]: one draw per number delivered by the random source. *)
Fixpoint sample (wall : tset) (xs : list Z) : res (list tile) :=
  match xs with
  | [] => Ok []
  | x :: r =>
    do t <- choices ALL_TILES (weights wall) x;
    do ts <- sample (wall_pick wall t) r;
    Ok (t :: ts)
  end.
