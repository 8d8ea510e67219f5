(** Specification vocabulary about faces and counts of faces. *)
From Verif Require Import Tile.
From Coq Require Import List ZArith.
Import ListNotations.
Open Scope Z_scope.

(** The 34 legal faces: 1-9 of each suit, 1-7 of the honours. *)
Definition legal_kind (k : kind) : Prop :=
  match fst k with
  | Cz => 1 <= snd k <= 7
  | _ => 1 <= snd k <= 9
  end.

(** Faces in one list (for sums). *)
Definition suit_kinds (c : color) (l : list Z) : list kind := map (fun n => (c, n)) l.
Definition KINDS : list kind :=
  suit_kinds Cm [1;2;3;4;5;6;7;8;9] ++ suit_kinds Cp [1;2;3;4;5;6;7;8;9] ++
  suit_kinds Cs [1;2;3;4;5;6;7;8;9] ++ suit_kinds Cz [1;2;3;4;5;6;7].

(** A legal tile object. *)
Definition legal_tile (t : tile) : Prop :=
  match t with
  | Plain n c => legal_kind (c, n)
  | Aka c => c <> Cz
  end.
