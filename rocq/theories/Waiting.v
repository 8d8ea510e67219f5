(** Model of mahjong/container/pattern/reasoning.py. *)
From Verif Require Import Base Tile TileSet Win.
From Coq Require Import List ZArith Lia Bool.
Import ListNotations.
Open Scope Z_scope.

(** A Python set of tiles: a list without two equal tiles; adding keeps the object
    that is already there. *)
Definition set_add (t : tile) (s : list tile) : list tile :=
  if existsb (tile_eqb t) s then s else s ++ [t].
Definition set_update (s : list tile) (ts : list tile) : list tile :=
  fold_left (fun a t => set_add t a) ts s.

(** ** BruteForceWaiting (reasoning.py 31-46) *)

(** [itertools.product(ALL_TILES, repeat=n)]. *)
Fixpoint product (n : nat) : list (list tile) :=
  match n with
  | O => [[]]
  | S m => flat_map (fun t => map (cons t) (product m)) ALL_TILES
  end.

(** reasoning.py 38-39: the test made for one tuple of tiles. *)
Definition brute_test (p : pattern) (hand : tset) (ignore_4counts : bool) (ts : list tile) : bool :=
  let added := ts_add hand (of_tiles ts) in
  (ignore_4counts && forallb (fun e => snd e <=? 4) added) && match_ p added.

(** reasoning.py 36-40: the loop over [count(1)], with fuel. *)
Fixpoint brute_loop (fuel : nat) (p : pattern) (hand : tset) (ig : bool) (need : nat) : res Z :=
  match fuel with
  | O => Err OutOfFuel
  | S f => if existsb (brute_test p hand ig) (product need) then Ok (Z.of_nat need - 1)
           else brute_loop f p hand ig (S need)
  end.

(** reasoning.py 33-40 [before_waiting_step]. *)
Definition brute_step (fuel : nat) (p : pattern) (hand : tset) (ig : bool) : res Z :=
  if match_ p hand then Ok (-1) else brute_loop fuel p hand ig 1.

(** reasoning.py 42-46 [useful_tiles]: the inner [before_waiting_step] calls use the
    default [ignore_4counts=True]. *)
Fixpoint brute_filter (fuel : nat) (p : pattern) (hand : tset) (ig : bool) (w : Z) (l : list tile) : res (list tile) :=
  match l with
  | [] => Ok []
  | t :: r =>
    if ig && (get hand t <? 4) then
      do s <- brute_step fuel p (ts_add hand (of_tiles [t])) true;
      do rest <- brute_filter fuel p hand ig w r;
      Ok (if s <? w then t :: rest else rest)
    else brute_filter fuel p hand ig w r
  end.
Definition brute_useful (fuel : nat) (p : pattern) (hand : tset) (ig : bool) : res (list tile) :=
  do w <- brute_step fuel p hand true; brute_filter fuel p hand ig w ALL_TILES.

(** reasoning.py 27-28 [Waiting.waiting_and_useful_tiles]. *)
Definition brute_both (fuel : nat) (p : pattern) (hand : tset) (ig : bool) : res (Z * list tile) :=
  do s <- brute_step fuel p hand ig; do u <- brute_useful fuel p hand ig; Ok (s, u).

(** ** PatternMatchWaiting (reasoning.py 49-106) *)

(** reasoning.py 49-54 [borrowed_limit] (the in-place [hand.re_sort()] of line 51
    changes no count; callers below keep using the same hand). *)
Definition borrowed_limit (hand : tset) : tset :=
  fold_left (fun a t => put a t (get a t - 4)) ALL_TILES hand.

(** reasoning.py 65, 192: the limit test. *)
Definition within_limits (limits hand : tset) : bool :=
  forallb (fun e => get limits (fst e) <=? snd e) hand.

(** reasoning.py 72-81: the loop over the tiles still to be searched. The list
    passed to the recursive call is the part starting at the current tile, because
    earlier tiles have been removed from [searching_start]. *)
Fixpoint pm_loop (rec : pattern -> tset -> list tile -> list (list tset * tset))
    (st : pattern) (hand : tset) (start : list tile) : list (list tset * tset) :=
  match start with
  | [] => []
  | t :: rest =>
    flat_map (fun us => map (fun r => (fst us :: fst r, snd r))
                            (rec (snd us) (subtract hand (fst us)) start))
             (next_states st t)
    ++ pm_loop rec st (if 0 <=? get hand t then del hand t else hand) rest
  end.

(** reasoning.py 61-81 [_win_selections_in_tiles]. *)
Fixpoint pm_sel (fuel : nat) (max_used : Z) (ig : bool) (limits : tset)
    (st : pattern) (hand : tset) (start : list tile) : list (list tset * tset) :=
  match fuel with
  | O => []
  | S f =>
    if max_used <? total (neg hand) then []
    else if ig && negb (within_limits limits hand) then []
    else (if has_win st then [([], neg hand)] else []) ++
         (if total (pos hand) + max_used <? need_count st then []
          else pm_loop (pm_sel f max_used ig limits) st hand start)
  end.

(** The call made by lines 88-90 and 103-105. *)
Definition pm_search (p : pattern) (hand : tset) (need : Z) (ig : bool) : list (list tset * tset) :=
  pm_sel (depth p) need ig (borrowed_limit hand) p hand ALL_TILES.

(** reasoning.py 99-106 [before_waiting_step]: the loop over [count(0)], with fuel. *)
Fixpoint pm_step_loop (fuel : nat) (p : pattern) (hand : tset) (ig : bool) (need : nat) : res Z :=
  match fuel with
  | O => Err OutOfFuel
  | S f => match pm_search p hand (Z.of_nat need) ig with
           | _ :: _ => Ok (Z.of_nat need - 1)
           | [] => pm_step_loop f p hand ig (S need)
           end
  end.
Definition pm_step (fuel : nat) (p : pattern) (hand : tset) (ig : bool) : res Z :=
  pm_step_loop fuel p hand ig 0.

(** reasoning.py 87-91: union of the borrowed tiles. *)
Definition union_borrowed {A} (rs : list (A * tset)) : list tile :=
  fold_left (fun a r => set_update a (map fst (snd r))) rs [].

(** reasoning.py 83-93 [waiting_and_useful_tiles]. *)
Fixpoint pm_both_loop (fuel : nat) (p : pattern) (hand : tset) (ig : bool) (need : nat) : res (Z * list tile) :=
  match fuel with
  | O => Err OutOfFuel
  | S f => match union_borrowed (pm_search p hand (Z.of_nat need) ig) with
           | t :: r => Ok (Z.of_nat need - 1, t :: r)
           | [] => pm_both_loop f p hand ig (S need)
           end
  end.
Definition pm_both (fuel : nat) (p : pattern) (hand : tset) (ig : bool) : res (Z * list tile) :=
  pm_both_loop fuel p hand ig 0.

(** ** HeuristicPatternMatchWaiting (reasoning.py 109-233) *)

(** reasoning.py 109-110, 119-122. *)
Definition borrowed_tile_count (hand : tset) : Z := total (neg hand).
Definition need_to_borrow (hand unit : tset) : Z := borrowed_tile_count (subtract hand unit).

(** [sorted(set(...))] of tiles: insertion, dropping duplicates. *)
Fixpoint ins_tile (t : tile) (l : list tile) : list tile :=
  match l with
  | [] => [t]
  | x :: r => if tile_eqb t x then l else if tile_ltb t x then t :: l else x :: ins_tile t r
  end.
Definition sorted_set (l : list tile) : list tile := fold_left (fun a t => ins_tile t a) l [].

(** reasoning.py 140-154 [init_search_by_hand]. [units] are the triples of lines
    141-143; [borrowed_count_map[i]] (144-147) holds the units whose first component
    is [i] (sorting brings equal keys together, so [groupby] makes one group per
    value); sorting does not matter further because line 149 sorts the tiles again. *)
Definition search_units (p : pattern) (hand : tset) : list (Z * tile) :=
  flat_map (fun t => map (fun us => (need_to_borrow hand (fst us), t)) (next_states p t)) ALL_TILES.
Definition down_to_zero (n : nat) : list Z := map Z.of_nat (rev (seq 0 (S n))).
Definition init_search (p : pattern) (hand : tset) : list (list tile) :=
  let units := search_units p hand in
  map (fun searching_borrow =>
         sorted_set (flat_map (fun i => map snd (filter (fun u => fst u =? i) units))
                              (down_to_zero searching_borrow)))
      (seq 0 (Z.to_nat (max_unit_length p + 1))).

(** [l[i] = x] for a list of lists. *)
Fixpoint set_nth {A} (i : nat) (x : A) (l : list A) : list A :=
  match l, i with
  | [], _ => []
  | _ :: r, O => x :: r
  | y :: r, S j => y :: set_nth j x r
  end.

(** A result of the search: (borrowed count, units, borrowed tiles). *)
Definition hres := (Z * list tset * tset)%type.

(** reasoning.py 215-232: the units of one tile. The attribute [self.max_used_tiles]
    is threaded as [mx]; the boolean says that the [return] of line 232 was taken. *)
Fixpoint h_units (rec : pattern -> tset -> Z -> list hres * Z)
    (hand : tset) (base min_used can_borrowed : Z)
    (us : list (tset * pattern)) (mx : Z) : list hres * Z * bool :=
  match us with
  | [] => ([], mx, false)
  | (u, st) :: r =>
    if base + min_used <=? mx then
      let hand_temp := subtract hand u in
      let borrowed_new := borrowed_tile_count hand_temp in
      let '(rs, mx1) :=
        if borrowed_new - base =? can_borrowed then
          let '(rs0, mx0) := rec st hand_temp mx in
          (map (fun x => (fst (fst x), u :: snd (fst x), snd x)) rs0, mx0)
        else ([], mx) in
      let '(rs2, mx2, ret) := h_units rec hand base min_used can_borrowed r mx1 in
      (rs ++ rs2, mx2, ret)
    else ([], mx, true)
  end.

(** reasoning.py 214-233: the tiles of one round. The list stored in
    [temp_searching_group[can_borrowed]] is [searching_round], from which processed
    tiles are removed (233), hence [t :: rest] at tile [t]. *)
Fixpoint h_tiles (rec : list (list tile) -> pattern -> tset -> Z -> list hres * Z)
    (group : list (list tile)) (cb : nat)
    (hand : tset) (base min_used : Z) (st : pattern)
    (tiles : list tile) (mx : Z) : list hres * Z * bool :=
  match tiles with
  | [] => ([], mx, false)
  | t :: rest =>
    let '(rs, mx1, ret) :=
      h_units (rec (set_nth cb (t :: rest) group)) hand base min_used (Z.of_nat cb) (next_states st t) mx in
    if ret then (rs, mx1, true)
    else let '(rs2, mx2, ret2) := h_tiles rec group cb hand base min_used st rest mx1 in
         (rs ++ rs2, mx2, ret2)
  end.

(** reasoning.py 207-213: the rounds, for [can_borrowed] in the given list. *)
Fixpoint h_rounds (rec : nat -> list (list tile) -> pattern -> tset -> Z -> list hres * Z)
    (group : list (list tile)) (hand : tset) (base : Z) (st : pattern)
    (rounds : list nat) (mx : Z) : list hres * Z :=
  match rounds with
  | [] => ([], mx)
  | cb :: more =>
    let '(rs, mx1, ret) :=
      h_tiles (rec cb) group cb hand base (need_units st * Z.of_nat cb) st (nth cb group []) mx in
    if ret then (rs, mx1)
    else let '(rs2, mx2) := h_rounds rec group hand base st more mx1 in (rs ++ rs2, mx2)
  end.

(** reasoning.py 187-233 [_win_selections_in_tiles]; [range(borrowed_stage,
    max_unit_length + 1)] at line 207. The search group always has an entry for every
    round because it is built for the initial pattern (152). *)
Fixpoint h_sel (fuel : nat) (ig : bool) (limits : tset) (pruning : Z)
    (stage : nat) (group : list (list tile)) (st : pattern) (hand : tset) (mx : Z) : list hres * Z :=
  match fuel with
  | O => ([], mx)
  | S f =>
    if ig && negb (within_limits limits hand) then ([], mx)
    else if has_win st then
      let borrowed := neg hand in
      let borrowed_count := total borrowed in
      ([(borrowed_count, [], borrowed)], borrowed_count - pruning)
    else
      h_rounds (fun cb g st' hd m => h_sel f ig limits pruning cb g st' hd m)
               group hand (borrowed_tile_count hand) st
               (seq stage (Z.to_nat (max_unit_length st + 1) - stage)) mx
  end.

(** [min(...)] of a generator; ValueError when it is empty. *)
Fixpoint min_list (l : list Z) : res Z :=
  match l with
  | [] => Err ValueError
  | x :: r => match min_list r with Ok y => Ok (Z.min x y) | Err _ => Ok x end
  end.

(** reasoning.py 131-138 [before_waiting_step]. *)
Definition h_step (p : pattern) (hand : tset) (ig : bool) : res Z :=
  let mx := total hand in
  let rs := fst (h_sel (depth p) ig (borrowed_limit hand) 1 0 (init_search p hand) p hand mx) in
  do m <- min_list (map (fun r => fst (fst r)) rs); Ok (m - 1).

(** reasoning.py 179-185 [count_hand_borrow_combinition_iter]. *)
Definition h_combos (p : pattern) (hand : tset) (ig : bool) (self_waiting : Z) : list hres :=
  fst (h_sel (depth p) ig (borrowed_limit hand) 0 0 (init_search p hand) p hand (self_waiting + 1)).

(** reasoning.py 160-165 [waiting_and_useful_tiles] (line 162 uses the default
    [ignore_4counts=True]). *)
Definition h_both (p : pattern) (hand : tset) (ig : bool) : res (Z * list tile) :=
  do w <- h_step p hand true;
  Ok (w, union_borrowed (h_combos p hand ig w)).

(** reasoning.py 170-175: [all_hand_cnt], an insertion-ordered dict of sets. *)
Fixpoint dict_update (d : list (tile * list tile)) (t : tile) (ts : list tile) : list (tile * list tile) :=
  match d with
  | [] => [(t, set_update [] ts)]
  | (t', s) :: r => if tile_eqb t' t then (t', set_update s ts) :: r else (t', s) :: dict_update r t ts
  end.

(** reasoning.py 167-177 [batch_waiting_and_useful_tiles]. *)
Definition h_batch (p : pattern) (hand : tset) (ig : bool) : res (list (tile * Z * list tile)) :=
  do w <- h_step p hand true;
  let d := fold_left (fun d (r : hres) =>
             let hand_win := fold_left ts_add (snd (fst r)) [] in
             let can_drops := ts_sub hand hand_win in
             fold_left (fun d e => dict_update d (fst e) (map fst (snd r))) can_drops d)
           (h_combos p hand ig w) [] in
  Ok (map (fun e => (fst e, w, snd e)) d).

(** reasoning.py 95-97 and 156-158 [useful_tiles] of the two pattern matching classes. *)
Definition pm_useful (fuel : nat) (p : pattern) (hand : tset) (ig : bool) : res (list tile) :=
  do r <- pm_both fuel p hand ig; Ok (snd r).
Definition h_useful (p : pattern) (hand : tset) (ig : bool) : res (list tile) :=
  do r <- h_both p hand ig; Ok (snd r).
