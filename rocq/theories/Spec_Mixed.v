(** Specification vocabulary for the report about a hand with nothing on the table, where
    the analysis of the standard shape and that of seven pairs are put together. *)
From Coq Require Import String.
From Verif Require Import Base Tile Parse Text Tenhou Event State Spec_Tile Spec_Win Spec_Waiting Spec_Checker.
From Coq Require Import List ZArith.
Import ListNotations.
Open Scope list_scope.
Open Scope Z_scope.

Definition standard : shape := Standard 1 4.
Definition seven_pairs : shape := DistinctPairs 7.
(** The faces that advance the hand to the standard shape after discarding [fst ks], if that
    shape is a nearest one, and those that advance it to seven pairs after discarding
    [snd ks], if that is a nearest one. [n1] and [n2] are the distances. *)
Definition mixed_advances (hand : list Z) (n1 n2 : nat) (ks : kind * kind) (j : kind) : Prop :=
  ((n1 <= n2)%nat /\ advances true standard (without (hand_counts hand) (fst ks)) j) \/
  ((n2 <= n1)%nat /\ advances true seven_pairs (without (hand_counts hand) (snd ks)) j).
(** A row with the discard [fst ks] and these faces. *)
Definition mixed_row (hand : list Z) (n1 n2 : nat) (ks : kind * kind) (discard : list text) (step : Z) (useful : list text) : Prop :=
  (exists x, discard = [x] /\ names x (fst ks)) /\
  step = Z.of_nat (Nat.min n1 n2) - 1 /\
  (exists js, lists useful js /\ forall j, In j js <-> mixed_advances hand n1 n2 ks j).
Definition mixed_count (hand : list Z) (unseen : Z -> Prop) (n1 n2 : nat) (ks : kind * kind) (count : Z) : Prop :=
  exists js, (forall j, In j js <-> mixed_advances hand n1 n2 ks j) /\ counts_unseen unseen js count.

(** The face under which the copies of a useful tile are counted: its own, but for a red five
    that of the tile before the suit's ace: for a red 5p the 9m, for a red 5s the 9p, for a
    red 5m none. *)
Definition counted_face (t : tile) : list kind :=
  match t with
  | Plain n c => [(c, n)]
  | Aka Cp => [(Cm, 9)]
  | Aka Cs => [(Cp, 9)]
  | Aka _ => []
  end.
(** The sum of these counts. *)
Definition counted (unseen : Z -> Prop) (useful : list tile) (n : Z) : Prop :=
  exists ns, Forall2 (fun u m => counts_unseen unseen (counted_face u) m) useful ns /\ n = sumZ (fun m => m) ns.

(** The same told by the texts of the useful tiles: a text stands for its face, but 0m for
    nothing, 0p for the 9m and 0s for the 9p. *)
Definition stands_for (s : text) (ks : list kind) : Prop :=
  (exists k, legal_kind k /\ s = face_text k /\ ks = [k]) \/
  (s = t_ "0m" /\ ks = []) \/ (s = t_ "0p" /\ ks = [(Cm, 9)]) \/ (s = t_ "0s" /\ ks = [(Cp, 9)]).
Definition texts_counted (unseen : Z -> Prop) (useful : list text) (n : Z) : Prop :=
  exists kss ns, Forall2 stands_for useful kss /\ Forall2 (counts_unseen unseen) kss ns /\ n = sumZ (fun m => m) ns.
