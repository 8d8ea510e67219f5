(** Model of mahjong/container/utils.py 8-22 (text to tiles) and of [TileSet.__str__]
    (mahjong/container/set.py 27-31, 43-45). A text is its list of Unicode code points. *)
From Verif Require Import Base Tile TileSet.
From Coq Require Import List ZArith Lia Bool.
Import ListNotations.
Open Scope Z_scope.

Definition text := list Z.

(** The character classes of utils.py 8-9 (SUIT is m, p, s and HONOR is z,
    definition.py 22-23). *)
Definition ch_digit (c : Z) : bool := (48 <=? c) && (c <=? 57).
Definition ch_1to7 (c : Z) : bool := (49 <=? c) && (c <=? 55).
Definition ch_suit (c : Z) : bool := (c =? 109) || (c =? 112) || (c =? 115).
Definition ch_honor (c : Z) : bool := c =? 122.

(** One regular expression [X+Y] of two character classes at the start of a text: greedy
    with backtracking. Result: what [X+] matched, what [Y] matched, the rest. *)
Fixpoint plus_then (X Y : Z -> bool) (s : text) : option (text * Z * text) :=
  match s with
  | [] => None
  | c :: r =>
    if X c then
      match plus_then X Y r with
      | Some (m, y, rest) => Some (c :: m, y, rest)
      | None => match r with
                | d :: r' => if Y d then Some ([c], d, r') else None
                | [] => None
                end
      end
    else None
  end.

(** utils.py 8-9: the first alternative, else the second. *)
Definition match_at (s : text) : option (text * Z * text) :=
  match plus_then ch_digit ch_suit s with
  | Some r => Some r
  | None => plus_then ch_1to7 ch_honor s
  end.

(** utils.py 13 [finditer]: leftmost matches, one after the other. The fuel is the length
    of the text, and one more. *)
Fixpoint find_groups (fuel : nat) (s : text) : list (text * Z) :=
  match fuel, s with
  | O, _ => []
  | S f, [] => []
  | S f, _ :: r =>
    match match_at s with
    | Some (m, y, rest) => (m, y) :: find_groups f rest
    | None => find_groups f r
    end
  end.

(** Colour letters (the letters that the regular expression accepts). *)
Definition color_of (c : Z) : color :=
  if c =? 109 then Cm else if c =? 112 then Cp else if c =? 115 then Cs else Cz.
Definition letter_of (c : color) : Z :=
  match c with Cm => 109 | Cp => 112 | Cs => 115 | Cz => 122 end.

(** utils.py 16: one digit; [int(number)] of an ASCII digit. *)
Definition tile_of_digit (d : Z) (c : color) : tile :=
  if negb (d =? 48) then Plain (d - 48) c else Aka c.

(** utils.py 12-16 [tiles_from_string]. *)
Definition tiles_from_string (s : text) : list tile :=
  flat_map (fun g => map (fun d => tile_of_digit d (color_of (snd g))) (fst g))
           (find_groups (S (length s)) s).

(** utils.py 19-22 [tile_set_from_string]. *)
Definition tile_set_from_string (s : text) : tset := re_sort (of_tiles (tiles_from_string s)).

(** [str(n)] of an integer: decimal digits. The fuel exceeds the number of digits. *)
Fixpoint digits_of (fuel : nat) (n : Z) : text :=
  match fuel with
  | O => []
  | S f => if n <? 10 then [48 + n] else digits_of f (n / 10) ++ [48 + n mod 10]
  end.
Definition str_int (n : Z) : text :=
  if n <? 0 then 45 :: digits_of (S (Z.to_nat (- n))) (- n) else digits_of (S (Z.to_nat n)) n.

(** [itertools.groupby] fully consumed: maximal runs of equal keys. *)
Fixpoint groupby {A K} (eqb : K -> K -> bool) (key : A -> K) (l : list A) : list (K * list A) :=
  match l with
  | [] => []
  | x :: r =>
    match groupby eqb key r with
    | (k, g) :: gs => if eqb (key x) k then (key x, x :: g) :: gs else (key x, [x]) :: (k, g) :: gs
    | [] => [(key x, [x])]
    end
  end.

(** set.py 27-31 [_gen_str_iter] ([str * num] is empty for [num <= 0]). *)
Definition gen_str (s : tset) : text :=
  flat_map (fun g => flat_map (fun e => concat (repeat (str_int (tnumber (fst e))) (Z.to_nat (snd e)))) (snd g)
                     ++ [letter_of (fst g)])
           (groupby color_eqb (fun e => tcolor (fst e)) s).
(** set.py 43-45 [__str__]: it also leaves the set sorted. *)
Definition ts_str (s : tset) : text := gen_str (re_sort s).

(** definition.py 101-102 [Tile.__str__]. *)
Definition tile_str (t : tile) : text := str_int (tnumber t) ++ [letter_of (tcolor t)].
