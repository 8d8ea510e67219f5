(** Model of mahjong/container/set.py: [TileSet], a [collections.Counter].

    A dict is an association list in insertion order; keys are tile objects and are
    looked up by tile equality ([tile_eqb]), i.e. by face. The key object that was
    inserted first stays in place (as in a Python dict), so a red five may stand for
    all fives of its suit. *)
From Verif Require Import Base Tile.
From Coq Require Import List ZArith Lia Bool.
Import ListNotations.
Open Scope Z_scope.

Definition tset := list (tile * Z).

(** [Counter.__getitem__] (missing keys read as 0), by face. *)
Fixpoint getk (s : tset) (k : kind) : Z :=
  match s with
  | [] => 0
  | (t, v) :: r => if kind_eqb (view t) k then v else getk r k
  end.
Definition get (s : tset) (t : tile) : Z := getk s (view t).

(** [key in d]. *)
Definition has_key (s : tset) (t : tile) : bool := existsb (fun e => tile_eqb (fst e) t) s.

(** [d[t] = v]: in place when the key exists, appended otherwise. *)
Fixpoint put (s : tset) (t : tile) (v : Z) : tset :=
  match s with
  | [] => [(t, v)]
  | (t', v') :: r => if tile_eqb t' t then (t', v) :: r else (t', v') :: put r t v
  end.

(** [del d[t]] ([Counter.__delitem__] ignores missing keys). *)
Definition del (s : tset) (t : tile) : tset := filter (fun e => negb (tile_eqb (fst e) t)) s.

(** set.py 50-51 [__len__], also [sum(s.values())]. *)
Definition total (s : tset) : Z := sumZ snd s.

(** [Counter._keep_positive]. *)
Definition keep_positive (s : tset) : tset := filter (fun e => 0 <? snd e) s.

(** [Counter.__iadd__] / [__isub__] without the final [_keep_positive]. *)
Definition add_into (s other : tset) : tset :=
  fold_left (fun a e => put a (fst e) (get a (fst e) + snd e)) other s.
Definition sub_into (s other : tset) : tset :=
  fold_left (fun a e => put a (fst e) (get a (fst e) - snd e)) other s.

(** [Counter.subtract] with a mapping. *)
Definition subtract (s other : tset) : tset := sub_into s other.

(** [Counter.update] with a mapping: the test [if self:] uses [__len__] (the total),
    otherwise plain [dict.update]. *)
Definition update (s other : tset) : tset :=
  if negb (total s =? 0) then add_into s other
  else fold_left (fun a e => put a (fst e) (snd e)) other s.

(** [Counter(iterable)] ([_count_elements]). *)
Definition of_tiles (l : list tile) : tset :=
  fold_left (fun a t => put a t (get a t + 1)) l [].

(** Unary [+] and [-] of Counter. *)
Definition pos (s : tset) : tset := filter (fun e => 0 <? snd e) s.
Definition neg (s : tset) : tset :=
  map (fun e => (fst e, 0 - snd e)) (filter (fun e => snd e <? 0) s).

(** set.py 11-16 [re_sort]: [sorted(self.items())] compares (tile, count) pairs; keys
    are pairwise different so this is sorting by face. [sort_ins] inserts before the
    first strictly larger key (stable). *)
Fixpoint sort_ins (e : tile * Z) (s : tset) : tset :=
  match s with
  | [] => [e]
  | e' :: r => if tile_ltb (fst e) (fst e') then e :: s else e' :: sort_ins e r
  end.
Definition re_sort (s : tset) : tset := fold_left (fun a e => sort_ins e a) s [].

(** set.py 21-25 [contains]. *)
Definition contains (s tiles : tset) : bool :=
  forallb (fun e => negb (get s (fst e) <? snd e)) tiles.

(** set.py 33-35 [tiles]; [[tile] * num] is empty for [num <= 0]. *)
Definition tiles (s : tset) : list tile :=
  flat_map (fun e => repeat (fst e) (Z.to_nat (snd e))) s.

(** set.py 56-62 [__add__]; 64-67 [__sub__]. *)
Definition ts_add (a b : tset) : tset := re_sort (keep_positive (add_into a b)).
Definition ts_sub (a b : tset) : tset := keep_positive (sub_into a b).

(** set.py 37-41 [exclude]. *)
Definition exclude (s other : tset) : option tset :=
  if contains s other then Some (ts_sub s other) else None.

(** set.py 69-70 [__and__] ([Counter.__and__]). *)
Definition ts_and (a b : tset) : tset :=
  flat_map (fun e => let n := if snd e <? get b (fst e) then snd e else get b (fst e) in
                     if 0 <? n then [(fst e, n)] else []) a.
(** set.py 72-73 [__or__] ([Counter.__or__]). *)
Definition ts_or (a b : tset) : tset :=
  flat_map (fun e => let n := if snd e <? get b (fst e) then get b (fst e) else snd e in
                     if 0 <? n then [(fst e, n)] else []) a
  ++ flat_map (fun e => if negb (has_key a (fst e)) && (0 <? snd e) then [e] else []) b.

(** set.py 10, dict equality: same keys with the same counts. *)
Definition ts_eqb (a b : tset) : bool :=
  Nat.eqb (length a) (length b) &&
  forallb (fun e => has_key b (fst e) && (get b (fst e) =? snd e)) a.

(** set.py 53-54 [__lt__]: list comparison of the items. *)
Fixpoint items_ltb (a b : tset) : bool :=
  match a, b with
  | [], [] => false
  | [], _ :: _ => true
  | _ :: _, [] => false
  | (t, v) :: a', (u, w) :: b' =>
    if tile_eqb t u then
      if v =? w then items_ltb a' b' else v <? w
    else tile_ltb t u
  end.
Definition ts_ltb (a b : tset) : bool := items_ltb a b.

(** definition.py 44-48, 81-99, 138-142: [flush], [triplet], [pair]. *)
Definition flush (t : tile) : option tset := option_map of_tiles (flush_tiles t).
Definition triplet (t : tile) : tset := of_tiles (repeat_tiles t 3).
Definition pair (t : tile) : tset := of_tiles (repeat_tiles t 2).

(** distribution.py 14 [ALL_TILES]: the 34 faces in order. *)
Definition range_tiles (c : color) (n : nat) : list tile :=
  map (fun i => Plain (Z.of_nat i) c) (seq 1 n).
Definition ALL_TILES : list tile :=
  range_tiles Cm 9 ++ range_tiles Cp 9 ++ range_tiles Cs 9 ++ range_tiles Cz 7.
