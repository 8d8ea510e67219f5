(** What a text of tiles means, segment by segment. Nothing here refers to the model of the
    regular expression search. *)
From Verif Require Import Base Tile.
From Coq Require Import List ZArith Bool.
Import ListNotations.
Open Scope Z_scope.

(** Code points: '0'..'9', 'm', 'p', 's', 'z'. *)
Definition digit (c : Z) : Prop := 48 <= c <= 57.
Definition honor_digit (c : Z) : Prop := 49 <= c <= 55.
Inductive suit_letter : Z -> color -> Prop :=
| SLm : suit_letter 109 Cm | SLp : suit_letter 112 Cp | SLs : suit_letter 115 Cs.

(** Any text is cut after each character that is not a digit: a segment is a run of digits
    and the character that ends it; some digits may be left over at the end. *)
Definition segment := (list Z * Z)%type.
Definition segment_ok (g : segment) : Prop := Forall digit (fst g) /\ ~ digit (snd g).
Definition write (segs : list segment) (left_over : list Z) : list Z :=
  flat_map (fun g => fst g ++ [snd g]) segs ++ left_over.

(** The tile that a digit denotes in a colour: '0' is the red five. *)
Definition digit_tile (c : color) (d : Z) : tile := if d =? 48 then Aka c else Plain (d - 48) c.

(** The tiles that a segment denotes: all its digits if it ends with m, p or s; if it ends
    with z the digits 1-7 directly before the z; nothing otherwise. *)
Inductive segment_tiles : segment -> list tile -> Prop :=
| ST_suit : forall ds l c, suit_letter l c -> segment_tiles (ds, l) (map (digit_tile c) ds)
| ST_honor : forall junk ds, Forall honor_digit ds ->
    (forall pre x, junk = pre ++ [x] -> ~ honor_digit x) ->
    segment_tiles (junk ++ ds, 122) (map (digit_tile Cz) ds)
| ST_other : forall ds l, l <> 109 -> l <> 112 -> l <> 115 -> l <> 122 -> segment_tiles (ds, l) [].
