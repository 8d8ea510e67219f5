(** Specification vocabulary: the Tenhou numbering of physical tiles, the bit layout of
    meld codes and of game types. Nothing here refers to the model's decoders. *)
From Verif Require Import Tile Tenhou.
From Coq Require Import List ZArith.
Import ListNotations.
Open Scope Z_scope.

(** ** Physical tiles 0..135: four consecutive numbers per face, in the order 1m..9m,
    1p..9p, 1s..9s, 1z..7z. The first copy of 5m, 5p, 5s is the red one. *)
Definition valid_tile (i : Z) : Prop := 0 <= i < 136.
Definition suit_of_block (b : Z) : color :=
  if b <? 9 then Cm else if b <? 18 then Cp else if b <? 27 then Cs else Cz.
Definition face (i : Z) : kind := (suit_of_block (i / 4), (i / 4) mod 9 + 1).
Definition red_number (i : Z) : Prop := i = 16 \/ i = 52 \/ i = 88.

(** ** Bit fields: [width] bits of [v] starting at bit [low]. *)
Definition field (v low width : Z) : Z := (v / 2 ^ low) mod 2 ^ width.

(** ** Meld codes. *)
Definition call_kind (v : Z) : mclass :=
  if field v 2 1 =? 1 then CFlush
  else if field v 3 1 =? 1 then CTriplet
  else if field v 4 1 =? 1 then CAddedKan
  else if field v 5 1 =? 1 then CKita
  else CKan.

(** Relative seat of the player the tile was taken from; 0 for nobody. *)
Definition source (v : Z) : Z := field v 0 2.

(** chi: bits 10-15 are 3 * (7 * suit + lowest number - 1) + position of the taken tile;
    bits 3-4, 5-6, 7-8 tell which copy each tile is. *)
Definition chi_tile (v i : Z) : Z :=
  let t := field v 10 6 / 3 in 4 * (9 * (t / 7) + t mod 7 + i) + field v (3 + 2 * i) 2.
Definition chi_position (v : Z) : Z := field v 10 6 mod 3.
(** pon: bits 9-15 are 3 * face number + position of the taken tile; bits 5-6 tell the
    copy that is not used. *)
Definition pon_tile (v i : Z) : Z :=
  4 * (field v 9 7 / 3) + (if i <? field v 5 2 then i else i + 1).
Definition pon_position (v : Z) : Z := field v 9 7 mod 3.
(** added kan: the same, bits 5-6 tell the copy that is added. *)
Definition added_tile (v : Z) : Z := 4 * (field v 9 7 / 3) + field v 5 2.
(** kan and kita: bits 8-15 are a tile number. *)
Definition high_byte (v : Z) : Z := field v 8 8.

(** The codes whose tile field makes sense to the decoder. *)
Definition tile_field_ok (v : Z) : Prop :=
  match call_kind v with
  | CFlush => field v 10 6 < 63
  | CTriplet | CAddedKan => field v 9 7 < 102
  | CKan => high_byte v < 136
  | _ => True
  end.

(** Tiles taken from another player, and tiles laid down from the own hand. *)
Definition taken (v x : Z) : Prop :=
  match call_kind v with
  | CFlush => x = chi_tile v (chi_position v)
  | CTriplet => x = pon_tile v (pon_position v)
  | CKan => source v <> 0 /\ x = high_byte v
  | _ => False
  end.
Definition laid_down (v x : Z) : Prop :=
  match call_kind v with
  | CFlush => exists i, 0 <= i < 3 /\ i <> chi_position v /\ x = chi_tile v i
  | CTriplet => exists i, 0 <= i < 3 /\ i <> pon_position v /\ x = pon_tile v i
  | CAddedKan => x = added_tile v
  | CKita => x = high_byte v
  | _ => x / 4 = high_byte v / 4 /\ ~ (source v <> 0 /\ x = high_byte v)
  end.

(** ** Well-formed melds. *)
Definition meld_tiles (m : meld) : list Z := m_self m ++ m_borrowed m.
Definition meld_shape (m : meld) : Prop :=
  match m_class m with
  | CFlush => exists a b c s n, (forall x, In x (meld_tiles m) <-> x = a \/ x = b \/ x = c) /\
      s <> Cz /\ 1 <= n <= 7 /\ face a = (s, n) /\ face b = (s, n + 1) /\ face c = (s, n + 2) /\
      length (m_self m) = 2%nat /\ length (m_borrowed m) = 1%nat
  | CTriplet => (exists k, forall x, In x (meld_tiles m) -> face x = k) /\
      length (m_self m) = 2%nat /\ length (m_borrowed m) = 1%nat
  | CKan => exists k, forall x, valid_tile x -> (In x (meld_tiles m) <-> face x = k)
  | CAddedKan | CKita => length (m_self m) = 1%nat /\ m_borrowed m = []
  | CKanFromTriplet => False
  end.
Definition well_formed (m : meld) : Prop :=
  NoDup (meld_tiles m) /\ Forall valid_tile (meld_tiles m) /\ meld_shape m.

(** ** Game types. *)
Definition flag (v bit : Z) : bool := field v bit 1 =? 1.
