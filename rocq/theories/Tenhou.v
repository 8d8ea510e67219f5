(** Model of mahjong/record/utils/constant.py 117, utils/value/tile.py, utils/bit.py,
    utils/value/meld.py and utils/value/gametype.py. *)
From Verif Require Import Base Category Tile Parse Text.
From Coq Require Import String List ZArith Lia Bool.
Import ListNotations.
Open Scope list_scope.
Open Scope Z_scope.

(** constant.py 117 [TENHOU_TILE_CATEGORY]. *)
Definition TENHOU_TILE_CATEGORY : res mixedcat :=
  do suit <- new_subcat [9; 4];
  do honor <- new_subcat [7; 4];
  new_mixed [suit; suit; suit; honor].

Definition ttc_index (tup : list Z) : res Z := do c <- TENHOU_TILE_CATEGORY; mixed_index c tup.
Definition ttc_category (i : Z) : res (list Z) := do c <- TENHOU_TILE_CATEGORY; mixed_category c i.

(** constant.py 12 [SUIT_ORDER] = 'mpsz'; [SUIT_ORDER[i]] and [SUIT_ORDER.index(c)]. *)
Definition SUIT_ORDER : list color := [Cm; Cp; Cs; Cz].
Definition suit_order_index (c : color) : Z := match c with Cm => 0 | Cp => 1 | Cs => 2 | Cz => 3 end.

(** tile.py 5-18 [tile_from_tenhou]. *)
Definition tile_from_tenhou (index : Z) : res tile :=
  do am <- ttc_index [suit_order_index Cm; 4; 0];
  if index =? am then Ok (Aka Cm) else
  do ap <- ttc_index [suit_order_index Cp; 4; 0];
  if index =? ap then Ok (Aka Cp) else
  do as' <- ttc_index [suit_order_index Cs; 4; 0];
  if index =? as' then Ok (Aka Cs) else
  do cat <- ttc_category index;
  match cat with
  | [color; number; _] => do c <- py_nth SUIT_ORDER color; Ok (Plain (number + 1) c)
  | _ => Err ValueError
  end.

(** The integers [a .. b-1] ([range(a, b)]). *)
Definition zrange (a b : Z) : list Z := map (fun i => a + Z.of_nat i) (seq 0 (Z.to_nat (b - a))).

(** tile.py 21-25 [tile_to_tenhou_range]. *)
Definition tile_to_tenhou_range (t : tile) : res (list Z) :=
  let color := suit_order_index (tcolor t) in
  let number := tnumber t - 1 in
  do start_tile <- ttc_index [color; number; 0];
  do end_tile <- ttc_index [color; number; 3];
  Ok (zrange start_tile (end_tile + 1)).

(** ** bit.py
    A field description, in the order of the text (least significant field first). *)
Definition desc := list (string * nat).

(** bit.py 27-29 [to_bit_bytes]: 16 bits, most significant first; [struct.pack]
    rejects numbers outside 0..65535. The argument is the value after [int(...)]. *)
Definition to_bit_bytes (v : Z) : res (list bool) :=
  if (0 <=? v) && (v <? 65536) then Ok (map (fun i => Z.testbit v (15 - Z.of_nat i)) (seq 0 16))
  else Err StructError.

(** Unsigned big-endian value of a list of bits. *)
Definition bits_val (l : list bool) : Z := fold_left (fun a (b : bool) => 2 * a + (if b then 1 else 0)) l 0.

(** bitstruct's [unpack] of ">u..b.." : the fields one after the other from the most
    significant bit. Booleans ([b1]) are 0 or 1. *)
Fixpoint unpack_bits (d : desc) (bs : list bool) : list (string * Z) :=
  match d with
  | [] => []
  | (name, w) :: r => (name, bits_val (firstn w bs)) :: unpack_bits r (skipn w bs)
  end.

(** bit.py 7-20: the packer and the named tuple both use the reversed description. *)
Definition unpack_with (d : desc) (v : Z) : res (list (string * Z)) :=
  do bs <- to_bit_bytes v; Ok (unpack_bits (rev d) bs).

(** bit.py 23-24 [repack_to]: bitstruct's [pack] of the values, then one 16-bit number. *)
Fixpoint pack_bits (d : desc) (vals : list Z) (acc : Z) : Z :=
  match d, vals with
  | (_, w) :: r, v :: vs => pack_bits r vs (acc * 2 ^ Z.of_nat w + v)
  | _, _ => acc
  end.
Definition repack_to (d : desc) (vals : list Z) : Z := pack_bits (rev d) vals 0.

(** Attribute access on the named tuple. *)
Fixpoint fld (r : list (string * Z)) (name : string) : Z :=
  match r with
  | [] => 0
  | (n, v) :: r' => if String.eqb n name then v else fld r' name
  end.

(** ** meld.py 11-59: the descriptions. *)
Open Scope string_scope.
Open Scope Z_scope.
Definition flush_desc : desc :=
  [("kui", 2); ("syuntsu", 1); ("hai0", 2); ("hai1", 2); ("hai2", 2); ("padding__", 1); ("type6", 6)]%nat.
Definition triplet_desc : desc :=
  [("kui", 2); ("syuntsu", 1); ("koutsu", 1); ("chakan", 1); ("hai_unused", 2); ("padding__", 2); ("type7", 7)]%nat.
Definition kan_desc : desc :=
  [("kui", 2); ("syuntsu", 1); ("koutsu", 1); ("chakan", 1); ("nuki", 1); ("padding__", 2); ("type8", 8)]%nat.
Definition added_kan_desc : desc :=
  [("kui", 2); ("syuntsu", 1); ("koutsu", 1); ("chakan", 1); ("hai_added", 2); ("padding__", 2); ("type7", 7)]%nat.
Definition kita_desc : desc :=
  [("kui", 2); ("syuntsu", 1); ("koutsu", 1); ("chakan", 1); ("nuki", 1); ("padding__", 2); ("type8", 8)]%nat.
(** meld.py 341 [meld_type_desc]. *)
Definition meld_type_desc : desc := kita_desc.

(** meld.py 61 [FROM_MAP]. *)
Definition FROM_MAP : list Z := [0; 1; 2; 3].

(** The class of a meld object. *)
Inductive mclass := CFlush | CTriplet | CAddedKan | CKan | CKita | CKanFromTriplet.

(** A meld object, with the values of its properties [self_tiles], [borrowed_tiles] and
    [from_who] (all computed from fields that never change). A set of integers is a list
    without repetitions; its order is not observable. *)
Record meld := mkMeld { m_class : mclass; m_self : list Z; m_borrowed : list Z; m_from : Z }.

(** Sets of integers: [set(l)], [a - b], [a | b]. *)
Definition set_of (l : list Z) : list Z := nodup Z.eq_dec l.
Definition mem (x : Z) (l : list Z) : bool := existsb (Z.eqb x) l.
Definition set_minus (a b : list Z) : list Z := filter (fun x => negb (mem x b)) a.
Definition set_union (a b : list Z) : list Z := (a ++ set_minus b a)%list.

(** meld.py 64-67 [init_from_basic]: (borrowed, own). *)
Definition init_from_basic (tiles_basic : list Z) (which_first : Z) : res (list Z * list Z) :=
  do first_tile <- py_nth tiles_basic which_first;
  Ok ([first_tile], set_minus (set_of tiles_basic) [first_tile]).

(** meld.py 127-129 [TenhouMeld.from_who]. *)
Definition from_who (who kui : Z) : res Z := do f <- py_nth FROM_MAP kui; Ok ((who + f) mod 4).

(** [[TENHOU_TILE_CATEGORY.index((color, number, hai)) for i, hai in enumerate(hais)]]. *)
Definition same_face_tiles (color number : Z) (hais : list Z) : res (list Z) :=
  mapM (fun hai => ttc_index [color; number; hai]) hais.

(** meld.py 142-155 [Flush.__init__]. *)
Definition new_flush (who v : Z) : res meld :=
  do data <- unpack_with flush_desc v;
  do flush_kinds <- new_subcat [3; 7; 3];
  do cat <- sub_category flush_kinds (fld data "type6");
  match cat with
  | [flush_color; flush_start_number; which_first] =>
    do t0 <- ttc_index [flush_color; flush_start_number + 0; fld data "hai0"];
    do t1 <- ttc_index [flush_color; flush_start_number + 1; fld data "hai1"];
    do t2 <- ttc_index [flush_color; flush_start_number + 2; fld data "hai2"];
    do bs <- init_from_basic [t0; t1; t2] which_first;
    do f <- from_who who (fld data "kui");
    Ok (mkMeld CFlush (snd bs) (fst bs) f)
  | _ => Err ValueError
  end.

(** meld.py 179-192 [Triplet.__init__]. *)
Definition new_triplet (who v : Z) : res meld :=
  do data <- unpack_with triplet_desc v;
  do triplet_kinds <- new_subcat [34; 3];
  do triplet_color_number <- new_subcat [4; 9];
  do cat <- sub_category triplet_kinds (fld data "type7");
  match cat with
  | [tile_type; which_first] =>
    do cn <- sub_category triplet_color_number tile_type;
    match cn with
    | [color; number] =>
      let hais := set_minus [0; 1; 2; 3] [fld data "hai_unused"] in
      do tiles_basic <- same_face_tiles color number hais;
      do bs <- init_from_basic tiles_basic which_first;
      do f <- from_who who (fld data "kui");
      Ok (mkMeld CTriplet (snd bs) (fst bs) f)
    | _ => Err ValueError
    end
  | _ => Err ValueError
  end.

(** meld.py 219-226 [TenhouAddedKan.__init__]. *)
Definition new_added_kan (who v : Z) : res meld :=
  do data <- unpack_with added_kan_desc v;
  do triplet_kinds <- new_subcat [34; 3];
  do triplet_color_number <- new_subcat [4; 9];
  do cat <- sub_category triplet_kinds (fld data "type7");
  match cat with
  | [tile_type; which_first] =>
    do cn <- sub_category triplet_color_number tile_type;
    match cn with
    | [color; number] =>
      do t <- ttc_index [color; number; fld data "hai_added"];
      do f <- from_who who (fld data "kui");
      Ok (mkMeld CAddedKan [t] [] f)
    | _ => Err ValueError
    end
  | _ => Err ValueError
  end.

(** meld.py 250-264 [TenhouKan.__init__]. *)
Definition new_kan (who v : Z) : res meld :=
  do data <- unpack_with kan_desc v;
  do cat <- ttc_category (fld data "type8");
  match cat with
  | [color; number; hai_index] =>
    do tiles_basic <- same_face_tiles color number [0; 1; 2; 3];
    do f <- from_who who (fld data "kui");
    if fld data "kui" =? 0 then Ok (mkMeld CKan (set_of tiles_basic) [] f)
    else
      do bs <- init_from_basic tiles_basic hai_index;
      Ok (mkMeld CKan (snd bs) (fst bs) f)
  | _ => Err ValueError
  end.

(** meld.py 308-311 [Kita.__init__]. *)
Definition new_kita (who v : Z) : res meld :=
  do data <- unpack_with kita_desc v;
  do f <- from_who who (fld data "kui");
  Ok (mkMeld CKita [fld data "type8"] [] f).

(** meld.py 284-288 [KanFromTriplet.__init__]. *)
Definition kan_from_triplet (triplet_meld added_meld : meld) : meld :=
  mkMeld CKanFromTriplet (set_union (m_self triplet_meld) (m_self added_meld))
         (m_borrowed triplet_meld) (m_from triplet_meld).

(** meld.py 370-381 [meld_from] after reading the two attributes. *)
Definition meld_from_code (who v : Z) : res meld :=
  do type_of <- unpack_with meld_type_desc v;
  if negb (fld type_of "syuntsu" =? 0) then new_flush who v
  else if negb (fld type_of "koutsu" =? 0) then new_triplet who v
  else if negb (fld type_of "chakan" =? 0) then new_added_kan who v
  else if negb (fld type_of "nuki" =? 0) then new_kita who v
  else new_kan who v.

(** meld.py 353-364 [meld_type]; the enumeration members are named by the classes. *)
Definition meld_type (v : Z) : res mclass :=
  do type_of <- unpack_with meld_type_desc v;
  Ok (if negb (fld type_of "syuntsu" =? 0) then CFlush
      else if negb (fld type_of "koutsu" =? 0) then CTriplet
      else if negb (fld type_of "chakan" =? 0) then CAddedKan
      else if negb (fld type_of "nuki" =? 0) then CKita
      else CKan).

(** meld.py 90-94 [Meld.is_opened]. *)
Definition is_opened (m : meld) : bool := match m_borrowed m with [] => false | _ => true end.

(** meld.py 384-387 [is_triplet_of_added_kan]: the first element of each set in its
    iteration order; for the set of the triplet the model takes the first of its list. *)
Definition is_triplet_of_added_kan (item added : meld) : res bool :=
  do a <- py_nth (m_self added) 0;
  do added_tile <- tile_from_tenhou a;
  do i <- py_nth (m_self item) 0;
  do triplet_representative <- tile_from_tenhou i;
  Ok (tile_eqb added_tile triplet_representative).

(** ** gametype.py 3-16. *)
Definition game_type_desc : desc :=
  [("preserved", 1); ("no_aka_dora", 1); ("no_tanyao_open_hand", 1); ("east_and_south_round", 1);
   ("three_players", 1); ("play_level_high_bit", 1); ("speed_up", 1); ("play_level_low_bit", 1);
   ("show_discard_shadow", 1); ("with_tips", 1); ("is_5tips", 1); ("padding_", 5)]%nat.

Record game_type := mkGT { gt_origin : Z; gt_data : list (string * Z); gt_standard : Z }.

(** [l[-1] = v] on a non-empty list. *)
Fixpoint set_last (l : list Z) (v : Z) : list Z :=
  match l with [] => [] | [_] => [v] | x :: r => x :: set_last r v end.
(** [l[0] = v]. *)
Definition set_first (l : list Z) (v : Z) : list Z := match l with [] => [] | _ :: r => v :: r end.

(** gametype.py 28-34 [GameType.__init__] (after [int(type_data)]). *)
Definition new_game_type (v : Z) : res game_type :=
  do data <- unpack_with game_type_desc v;
  let listed := set_last (set_first (map snd data) 0) 0 in
  Ok (mkGT v data (repack_to game_type_desc listed)).

(** gametype.py 36-72. *)
Definition gt_flag (g : game_type) (name : string) : bool := negb (fld (gt_data g) name =? 0).
Definition player_count (g : game_type) : Z := if gt_flag g "three_players" then 3 else 4.
Definition has_aka_dora (g : game_type) : bool := negb (gt_flag g "no_aka_dora").
Definition play_level (g : game_type) : Z :=
  Z.lor (Z.shiftl (fld (gt_data g) "play_level_high_bit") 1) (fld (gt_data g) "play_level_low_bit").
Definition speed_up (g : game_type) : bool := gt_flag g "speed_up".
Definition allow_tanyao_open (g : game_type) : bool := negb (gt_flag g "no_tanyao_open_hand").
Definition play_wind_count (g : game_type) : Z := if gt_flag g "east_and_south_round" then 2 else 1.
Definition main_game_count (g : game_type) : Z := play_wind_count g * player_count g.
Definition with_tips (g : game_type) : bool := gt_flag g "with_tips".
Definition tips_count (g : game_type) : Z :=
  if with_tips g then (if gt_flag g "is_5tips" then 5 else 2) else 0.
Definition show_discard_shadow (g : game_type) : bool := gt_flag g "show_discard_shadow".
Definition gt_eqb (a b : game_type) : bool := gt_standard a =? gt_standard b.
