(** Hands as objects handed to the library, and what it means for a call to return. *)
From Verif Require Import Base Tile TileSet Spec_Tile Spec_Win.
From Coq Require Import List ZArith.
Import ListNotations.
Open Scope Z_scope.

(** Faces of a list of tile objects. *)
Definition faces (l : list tile) : list kind := map view l.

(** How many tiles of each face a TileSet holds: the sum of its entries for the face. *)
Definition face_count (s : tset) : counts :=
  fun k => sumZ (fun e => if same_kind (view (fst e)) k then snd e else 0) s.

(** A TileSet of legal tiles with non-negative counts. Being a dict keyed by tile
    equality, it has one entry per face. *)
Definition hand_ok (s : tset) : Prop :=
  NoDup (map (fun e => view (fst e)) s) /\
  Forall (fun e => legal_kind (view (fst e)) /\ 0 <= snd e) s.

(** At most four tiles of every face. *)
Definition four_max (s : tset) : Prop := forall k, face_count s k <= 4.

(** Number of tiles. *)
Definition hand_size (s : tset) : Z := sumZ snd s.

(** A call modelled with fuel returns [v]: with enough fuel the result is [v]. *)
Definition returns {A} (call : nat -> res A) (v : A) : Prop :=
  exists f0, forall fuel, (f0 <= fuel)%nat -> call fuel = Ok v.
(** The call never returns. *)
Definition diverges {A} (call : nat -> res A) : Prop := forall fuel, call fuel = Err OutOfFuel.

(** A TileSet holds exactly the tiles of a unit; a list of TileSets shows a list of units. *)
Definition shows (ts : tset) (u : munit) : Prop :=
  NoDup (map (fun e => view (fst e)) ts) /\ Forall (fun e => 0 < snd e) ts /\
  forall k, face_count ts k = count_kind k (unit_kinds u).
Definition represents (sel : list tset) (us : list munit) : Prop := Forall2 shows sel us.

(** Shapes that 34 faces can lay out, and their number of tiles. *)
Definition sane_shape (s : shape) : Prop :=
  match s with
  | Standard p m => 0 <= p /\ 0 <= m /\ p + m <= 34
  | DistinctPairs n => 0 <= n <= 34
  end.
Definition shape_tiles (s : shape) : Z :=
  match s with Standard p m => 2 * p + 3 * m | DistinctPairs n => 2 * n end.

(** A (non-empty) hand at most one tile short of the shape, e.g. 13 or 14 tiles for one pair
    and four melds, or for seven pairs. *)
Definition usual_size (s : shape) (hand : tset) : Prop :=
  sane_shape s /\ 0 < hand_size hand /\ shape_tiles s - 1 <= hand_size hand.
