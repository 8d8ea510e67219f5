(** Model of mahjong/tile/definition.py: tiles, comparison, hashing, the pool. *)
From Verif Require Import Base.
From Coq Require Import List ZArith Lia Bool.
Import ListNotations.
Open Scope Z_scope.

(** definition.py 8-13: the four colour letters. Any other string makes
    [tile_hash_num] raise KeyError; such calls are not modelled. *)
Inductive color := Cm | Cp | Cs | Cz.

(** definition.py 8-13 [_suit_ordering]; the string order of the letters
    m < p < s < z is the same. *)
Definition suit_ord (c : color) : Z :=
  match c with Cm => 0 | Cp => 1 | Cs => 2 | Cz => 3 end.

Definition color_eqb (a b : color) : bool := suit_ord a =? suit_ord b.

(** A tile object. [Plain n c] is [Tile(n, c)] (definition.py 32-49) and [Aka c] is
    [AkaTile(0, c)] (123-143; line 125 asserts the colour is m, p or s). *)
Inductive tile := Plain (n : Z) (c : color) | Aka (c : color).

(** definition.py 70-71, 135. *)
Definition tcolor (t : tile) : color := match t with Plain _ c => c | Aka c => c end.
(** definition.py 74-75, 134: a red five shows number 0. *)
Definition tnumber (t : tile) : Z := match t with Plain n _ => n | Aka _ => 0 end.

(** The face of a tile: colour and number. *)
Definition kind := (color * Z)%type.

(** definition.py 42 and 136 [_tuple_view]. *)
Definition view (t : tile) : kind :=
  match t with Plain n c => (c, n) | Aka c => (c, 0 + 5) end.

(** Tuple comparison of [_tuple_view]s. *)
Definition kind_eqb (a b : kind) : bool := color_eqb (fst a) (fst b) && (snd a =? snd b).
Definition kind_ltb (a b : kind) : bool :=
  (suit_ord (fst a) <? suit_ord (fst b)) || (color_eqb (fst a) (fst b) && (snd a <? snd b)).

(** definition.py 54-61 [__eq__], [__ne__], [__lt__]. *)
Definition tile_eqb (a b : tile) : bool := kind_eqb (view a) (view b).
Definition tile_neb (a b : tile) : bool := negb (kind_eqb (view a) (view b)).
Definition tile_ltb (a b : tile) : bool := kind_ltb (view a) (view b).
(** definition.py 20 [@total_ordering] derives the others from [__lt__]
    (functools: [>] is [not (a < b) and a != b], [<=] is [a < b or a == b],
    [>=] is [not a < b]). *)
Definition tile_gtb (a b : tile) : bool := negb (tile_ltb a b) && tile_neb a b.
Definition tile_leb (a b : tile) : bool := tile_ltb a b || tile_eqb a b.
Definition tile_geb (a b : tile) : bool := negb (tile_ltb a b).

(** definition.py 16-17 [tile_hash_num]. *)
Definition tile_hash_num (c : color) (n : Z) : Z := suit_ord c * 10 + n.
(** definition.py 33/39/51-52 and 130/133/153-154 [__hash__]. *)
Definition tile_hash (t : tile) : Z :=
  match t with
  | Plain n c => tile_hash_num c n
  | Aka c => tile_hash_num c (0 + 5)
  end.

(** definition.py 66-67 [is_suit]. *)
Definition is_suit (t : tile) : bool := match tcolor t with Cz => false | _ => true end.

(** definition.py 77-79 [Tile.next] and 145-147 [AkaTile.next]; [None] when the
    method falls through. *)
Definition tile_next (t : tile) : option tile :=
  match t with
  | Plain n c => if is_suit t && (n <? 9) then Some (Plain (n + 1) c) else None
  | Aka c => if is_suit t && (0 <? 9) then Some (Plain (0 + 6) c) else None
  end.

(** definition.py 44-46 and 138-140: the tiles of [_flush] ([None] if there is
    none). The [TileSet] built from them is in TileSet.v. *)
Definition flush_tiles (t : tile) : option (list tile) :=
  match t with
  | Plain n c => if is_suit t && (n <=? 9 - 3 + 1)
                 then Some (map (fun i => Plain (n + i) c) [0; 1; 2]) else None
  | Aka c => if is_suit t && (0 =? 0)
             then Some (map (fun i => Plain (0 + 5 + i) c) [0; 1; 2]) else None
  end.

(** definition.py 88-91 and 156-159 [repeat]: the tiles repeated. *)
Definition repeat_tiles (t : tile) (count : nat) : list tile :=
  match t with
  | Plain n c => repeat (Plain n c) count
  | Aka c => repeat (Plain (0 + 5) c) count
  end.

(** ** The tile pool (definition.py 30-49)
    An object is its position in the pool together with its number and colour;
    the pool maps hash numbers to objects. [pool_new] is [Tile.__new__]: look up,
    or register the object and then build the tiles of its flush (44-46) and its
    repetitions (47-48, always found in the pool by then). Fuel bounds the nested
    constructor calls. *)
Record tobj := mkObj { o_id : nat; o_number : Z; o_color : color }.
Definition pool := list (Z * tobj).

Fixpoint pool_find (h : Z) (p : pool) : option tobj :=
  match p with
  | [] => None
  | (h', o) :: r => if h =? h' then Some o else pool_find h r
  end.

Fixpoint pool_new (fuel : nat) (p : pool) (n : Z) (c : color) : res (pool * tobj) :=
  match fuel with
  | O => Err OutOfFuel
  | S f =>
    let h := tile_hash_num c n in
    match pool_find h p with
    | Some o => Ok (p, o)
    | None =>
      let o := mkObj (length p) n c in
      let p1 := p ++ [(h, o)] in
      if is_suit (Plain n c) && (n <=? 9 - 3 + 1) then
        do r0 <- pool_new f p1 (n + 0) c;
        do r1 <- pool_new f (fst r0) (n + 1) c;
        do r2 <- pool_new f (fst r1) (n + 2) c;
        Ok (fst r2, o)
      else Ok (p1, o)
    end
  end.

Definition pool_fuel (n : Z) : nat := Z.to_nat (10 - n) + 2.

(** definition.py 123-143 [AkaTile.__new__], its effect on the pool of plain tiles: the
    flush of line 139 constructs 5, 6 and 7, the repetitions of lines 141-142 construct 5
    again. (The pool of red fives is looked up under [tile_hash_num(color, 0)] but filled
    under [tile_hash_num(color, 5)], so every call makes a new object; the assertion of
    line 125 fails for colour z.) *)
Definition pool_aka (p : pool) (c : color) : res pool :=
  match c with
  | Cz => Err AssertionError
  | _ =>
    do r0 <- pool_new (pool_fuel 5) p (0 + 5 + 0) c;
    do r1 <- pool_new (pool_fuel 5) (fst r0) (0 + 5 + 1) c;
    do r2 <- pool_new (pool_fuel 5) (fst r1) (0 + 5 + 2) c;
    Ok (fst r2)
  end.

(** A history of constructor calls: [Tile(n, c)] and [AkaTile(0, c)]. *)
Inductive ctor := CTile (n : Z) (c : color) | CAka (c : color).
Definition pool_step (p : pool) (x : ctor) : res pool :=
  match x with
  | CTile n c => do r <- pool_new (pool_fuel n) p n c; Ok (fst r)
  | CAka c => pool_aka p c
  end.
Fixpoint pool_run (p : pool) (calls : list ctor) : res pool :=
  match calls with
  | [] => Ok p
  | x :: r => do p' <- pool_step p x; pool_run p' r
  end.
