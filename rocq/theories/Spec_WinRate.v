(** What the win rate estimation is about, in terms of faces only. *)
From Verif Require Import Base Tile TileSet Spec_Tile Spec_Win Spec_Hand.
From Coq Require Import List ZArith QArith.
Import ListNotations.
Open Scope Z_scope.

(** The hand after discarding a tile like [t] and drawing [drawn]. *)
Definition afterwards (hand : tset) (t : tile) (drawn : list tile) : counts :=
  fun k => face_count hand k - count_kind k [view t] + count_kind k (faces drawn).
(** Four melds and a pair, or seven different pairs, can be laid out. *)
Definition winning (h : counts) : Prop := wins (Standard 1 4) h \/ wins (DistinctPairs 7) h.

(** What four tiles of every face leave when the hand is taken out. *)
Definition left_over (hand : tset) (k : kind) : Z := Z.max 0 (4 - face_count hand k).
Definition left_over_size (hand : tset) : Z := sumZ (left_over hand) KINDS.
(** A draw takes legal tiles, of no face more than there are. *)
Definition legal_draw (hand : tset) (drawn : list tile) : Prop :=
  Forall legal_tile drawn /\ forall k, count_kind k (faces drawn) <= left_over hand k.

(** [n] of the things have the property. *)
Inductive times {A : Type} (P : A -> Prop) : list A -> Z -> Prop :=
| times_nil : times P [] 0
| times_yes : forall a l n, P a -> times P l n -> times P (a :: l) (1 + n)
| times_no : forall a l n, ~ P a -> times P l n -> times P (a :: l) n.

(** The tiles of the hand whose discard wins with this draw. *)
Definition winners (hand : tset) (drawn : list tile) (ws : list tile) : Prop :=
  NoDup (faces ws) /\ forall t, In t ws <-> In t (map fst hand) /\ winning (afterwards hand t drawn).
(** The even share of each of them. *)
Definition even_share (ws : list tile) : Q := 1 / inject_Z (Z.of_nat (length ws)).
Definition tile_in (t : tile) (ws : list tile) : bool := existsb (fun u => same_kind (view u) (view t)) ws.
Fixpoint add_up {A : Type} (f : A -> Q) (l : list A) : Q :=
  match l with [] => 0 | a :: r => f a + add_up f r end.
