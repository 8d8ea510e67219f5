(** Model of mahjong/container/pattern/win.py. *)
From Verif Require Import Base Tile TileSet.
From Coq Require Import List ZArith Lia Bool.
Import ListNotations.
Open Scope Z_scope.

(** win.py 91-107 [NormalTypeWin(pairs, melds)] and 127-136 [UniquePairs(pairs, used)];
    [used] is a Python set of tiles, here a list searched by tile equality. *)
Inductive pattern :=
| NormalTypeWin (pairs melds : Z)
| UniquePairs (pairs : Z) (used : list tile).

(** win.py 109-110, 138-139 [has_win]. *)
Definition has_win (p : pattern) : bool :=
  match p with
  | NormalTypeWin pairs melds => (pairs =? 0) && (melds =? 0)
  | UniquePairs pairs _ => pairs =? 0
  end.

(** win.py 123-124, 145-146 [need_count]. *)
Definition need_count (p : pattern) : Z :=
  match p with
  | NormalTypeWin pairs melds => pairs * 2 + melds * 3
  | UniquePairs pairs _ => pairs * 2
  end.

(** win.py 92-93, 148-149 [need_units]. *)
Definition need_units (p : pattern) : Z :=
  match p with
  | NormalTypeWin pairs melds => pairs + melds
  | UniquePairs pairs _ => pairs
  end.

(** win.py 95-96, 128-129 [max_unit_length]. *)
Definition max_unit_length (p : pattern) : Z :=
  match p with
  | NormalTypeWin _ melds => if 0 <? melds then 3 else 2
  | UniquePairs _ _ => 2
  end.

(** win.py 112-121, 141-143 [next_states]. A flush TileSet is truthy (length 3). *)
Definition next_states (p : pattern) (t : tile) : list (tset * pattern) :=
  match p with
  | NormalTypeWin pairs melds =>
    (if 0 <? pairs then [(pair t, NormalTypeWin (pairs - 1) melds)] else []) ++
    (if 0 <? melds then
       let meld_next := NormalTypeWin pairs (melds - 1) in
       (match flush t with Some f => [(f, meld_next)] | None => [] end) ++
       [(triplet t, meld_next)]
     else [])
  | UniquePairs pairs used =>
    if negb (existsb (tile_eqb t) used) && (0 <? pairs)
    then [(pair t, UniquePairs (pairs - 1) (t :: used))] else []
  end.

(** win.py 56-65 [update_possible_units], consumed completely by [list()] at line
    31: the list of (tile, contained units) ... *)
Definition contained_states (p : pattern) (hand : tset) (t : tile) : list (tset * pattern) :=
  filter (fun us => contains hand (fst us)) (next_states p t).
Definition unit_list (p : pattern) (hand : tset) : list (tile * list (tset * pattern)) :=
  map (fun e => (fst e, contained_states p hand (fst e))) hand.
(** ... and the counter [possible_units] of lines 29/63 after all updates. *)
Definition possible_units (p : pattern) (hand : tset) : tset :=
  fold_left (fun a us => update a (fst us))
            (flat_map (fun e => contained_states p hand (fst e)) hand) [].
(** win.py 33-35. *)
Definition restrict_hand (pu hand : tset) : tset :=
  map (fun e => if 0 <? snd e then (fst e, get hand (fst e)) else e) pu.

(** win.py 42-45: the loop over [unit_list]; [rec] is the recursive call and [hand]
    loses one tile per round. *)
Fixpoint units_loop (rec : pattern -> tset -> list (list tset))
    (ul : list (tile * list (tset * pattern))) (hand : tset) : list (list tset) :=
  match ul with
  | [] => []
  | (t, unit_tuples) :: rest =>
    flat_map (fun us => map (cons (fst us)) (rec (snd us) (ts_sub hand (fst us)))) unit_tuples
    ++ units_loop rec rest (del hand t)
  end.

(** win.py 22-45 [_win_selections]: the generator as the list of its values. Every
    recursive call has one unit less to find, so fuel [depth p] (below) is never
    exhausted; [WinProofs.win_sel_fuel] shows more fuel changes nothing. *)
Fixpoint win_sel (fuel : nat) (p : pattern) (hand : tset) : list (list tset) :=
  match fuel with
  | O => []
  | S f =>
    (if has_win p then [[]] else []) ++
    (if total hand <? need_count p then []
     else
       let ul := unit_list p hand in
       let hand2 := restrict_hand (possible_units p hand) hand in
       if total hand2 <? need_count p then []
       else units_loop (win_sel f) ul hand2)
  end.

Definition depth (p : pattern) : nat :=
  match p with
  | NormalTypeWin pairs melds => S (Z.to_nat (Z.max 0 pairs) + Z.to_nat (Z.max 0 melds))
  | UniquePairs pairs _ => S (Z.to_nat (Z.max 0 pairs))
  end.

(** win.py 18-20 [win_selections]. [re_sort] sorts the caller's hand in place; the
    sorted hand is returned by [win_selections_effect]. *)
Definition win_selections (p : pattern) (hand : tset) : list (list tset) :=
  win_sel (depth p) p (re_sort hand).
Definition win_selections_effect (hand : tset) : tset := re_sort hand.

(** win.py 13-16 [match]. *)
Definition match_ (p : pattern) (hand : tset) : bool :=
  match win_selections p hand with [] => false | _ :: _ => true end.
