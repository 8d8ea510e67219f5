(** What a winning shape is, in terms of faces only. *)
From Verif Require Import Base Tile Spec_Tile.
From Coq Require Import List ZArith.
Import ListNotations.
Open Scope Z_scope.

(** A unit of a winning hand: a pair, a run of three in one suit, or a triplet. *)
Inductive munit := UPair (k : kind) | URun (c : color) (n : Z) | UTrip (k : kind).

Definition legal_unit (u : munit) : Prop :=
  match u with
  | UPair k | UTrip k => legal_kind k
  | URun c n => c <> Cz /\ 1 <= n <= 7
  end.

(** The tiles of a unit. *)
Definition unit_kinds (u : munit) : list kind :=
  match u with
  | UPair k => [k; k]
  | UTrip k => [k; k; k]
  | URun c n => [(c, n); (c, n + 1); (c, n + 2)]
  end.

Definition same_kind (a b : kind) : bool :=
  (match fst a, fst b with
   | Cm, Cm | Cp, Cp | Cs, Cs | Cz, Cz => true
   | _, _ => false
   end && (snd a =? snd b))%bool.

(** How many tiles of face [k] are in a list of faces. *)
Definition count_kind (k : kind) (l : list kind) : Z :=
  sumZ (fun x => if same_kind x k then 1 else 0) l.

(** How many tiles of face [k] the units use together. *)
Definition uses (us : list munit) (k : kind) : Z := count_kind k (flat_map unit_kinds us).

Definition is_pair (u : munit) : bool := match u with UPair _ => true | _ => false end.
Definition pair_face (u : munit) : kind :=
  match u with UPair k => k | UTrip k => k | URun c n => (c, n) end.

(** The two kinds of winning shape offered by the library. *)
Inductive shape :=
| Standard (pairs melds : Z)        (* NormalTypeWin(pairs, melds) *)
| DistinctPairs (n : Z).            (* UniquePairs(n) *)

(** The units form the shape. *)
Definition forms (s : shape) (us : list munit) : Prop :=
  Forall legal_unit us /\
  match s with
  | Standard p m =>
    Z.of_nat (length (filter is_pair us)) = p /\
    Z.of_nat (length (filter (fun u => negb (is_pair u)) us)) = m
  | DistinctPairs n =>
    Forall (fun u => is_pair u = true) us /\ NoDup (map pair_face us) /\ Z.of_nat (length us) = n
  end.

(** A hand, seen as the number of tiles it has of each face. *)
Definition counts := kind -> Z.

(** The units can be laid out with the tiles of the hand. *)
Definition fits (us : list munit) (h : counts) : Prop := forall k, uses us k <= h k.

(** The hand wins: some units of the right shape fit. *)
Definition wins (s : shape) (h : counts) : Prop := exists us, forms s us /\ fits us h.
