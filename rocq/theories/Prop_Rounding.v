(** C119: the wrong rate as Python computes it, with floats. *)
From Coq Require Import String.
From Verif Require Import Base Tile Spec_Tile Spec_Win Spec_Waiting Parse Text Tenhou Spec_Meld Event State Spec_Log Checker Spec_Checker CheckerReport CheckerGame Prop_Checker Spec_Mixed Prop_Mixed Spec_Turns Prop_Turns Spec_Advice Prop_Advice.
From Coq Require Import List ZArith QArith Qround Lia Lqa Bool.
Import ListNotations.
Open Scope list_scope.
Open Scope Z_scope.

(** A rounding: equal numbers get the same result, the order is kept, and 0 and 1 stay what they are.
    The rounding of Python's floats (to the nearest, ties to even) is one, as is any other IEEE
    rounding. Infinity and "not a number" do not occur: see [C119_range], nothing is above 1, and
    the numerator is below 2^53. *)
Record rounding (rnd : Q -> Q) : Prop := mkRounding {
  rnd_le : forall a b, (a <= b)%Q -> (rnd a <= rnd b)%Q;
  rnd_zero : (rnd 0 == 0)%Q;
  rnd_one : (rnd 1 == 1)%Q }.
(** tenhou_record_check.py 257-261: [base = expect_counts * shanten_sequence_count], an integer, since the
    choice is never nearer than the expected row; [correct_rate = your_counts / base] and
    [wrong_rate = 1 - correct_rate], each rounded. [u] is the number of tiles taken for unseen. *)
Definition float_rate (rnd : Q -> Q) (u : Z) (best choice : shown) : Q :=
  let base := sh_count best * u ^ (sh_step choice - sh_step best) in
  rnd (1 - rnd (inject_Z (sh_count choice) / inject_Z base))%Q.

Lemma rnd_eq rnd a b : rounding rnd -> (a == b)%Q -> (rnd a == rnd b)%Q.
Proof. intros R E. apply Qle_antisym; apply (rnd_le _ R); rewrite E; apply Qle_refl. Qed.
(** What a rounding does to a rate [q]. *)
Definition twice (rnd : Q -> Q) (q : Q) : Q := rnd (1 - rnd (1 - q))%Q.
Lemma twice_le rnd q q' : rounding rnd -> (q <= q')%Q -> (twice rnd q <= twice rnd q')%Q.
Proof. intros R L. unfold twice. apply (rnd_le _ R). assert (rnd (1 - q') <= rnd (1 - q))%Q by (apply (rnd_le _ R); lra). lra. Qed.
Lemma twice_zero rnd : rounding rnd -> (twice rnd 0 == 0)%Q.
Proof.
  intro R. pose proof (rnd_zero _ R) as R0. pose proof (rnd_one _ R) as R1. unfold twice. assert (E : (rnd (1 - 0) == 1)%Q).
  { transitivity (rnd 1%Q); [|exact R1]. apply rnd_eq; [exact R|]. lra. }
  transitivity (rnd 0%Q); [|exact R0]. apply rnd_eq; [exact R|]. lra.
Qed.
Lemma twice_one rnd : rounding rnd -> (twice rnd 1 == 1)%Q.
Proof.
  intro R. pose proof (rnd_zero _ R) as R0. pose proof (rnd_one _ R) as R1. unfold twice. assert (E : (rnd (1 - 1) == 0)%Q).
  { transitivity (rnd 0%Q); [|exact R0]. apply rnd_eq; [exact R|]. lra. }
  transitivity (rnd 1%Q); [|exact R1]. apply rnd_eq; [exact R|]. lra.
Qed.

(** The rate of any expected row is the same, and is what the exact rate becomes by rounding. *)
Lemma float_of_exact rnd e p hand players invisible melds t r best : rounding rnd -> discards e p hand melds t ->
  reported e p hand players invisible melds = Ok r -> In best (rr_expected r) ->
  (float_rate rnd (hidden_count hand invisible) best (rr_choice r) == twice rnd (rr_wrong_rate r))%Q.
Proof.
  intros R T E Ib. destruct (C64_formula _ _ _ _ _ _ _ _ T E) as (b & I0 & Pb & Sb & Q). destruct (C52_expected _ _ _ _ _ _ E) as (x & rest & _ & _ & F & _).
  rewrite Forall_forall in F. destruct (F _ Ib) as [A1 A2], (F _ I0) as [B1 B2]. unfold float_rate, twice. cbv zeta.
  apply rnd_eq; [exact R|]. apply Qplus_comp; [reflexivity|]. apply Qopp_comp. apply rnd_eq; [exact R|]. rewrite Q.
  replace (sh_step best) with (sh_step b) by congruence. replace (sh_count best) with (sh_count b) by congruence. lra.
Qed.

(** The computed rate is at most 1, it is 0 if the exact rate is, it never changes sign, and a choice with
    a greater exact rate never gets a smaller one. *)
Theorem C119_float : forall rnd e p hand players invisible melds t r best, rounding rnd -> discards e p hand melds t ->
  reported e p hand players invisible melds = Ok r -> In best (rr_expected r) ->
  let f := float_rate rnd (hidden_count hand invisible) best (rr_choice r) in
  (f <= 1)%Q /\ (0 <= rr_wrong_rate r -> 0 <= f)%Q /\ (rr_wrong_rate r <= 0 -> f <= 0)%Q.
Proof.
  intros rnd e p hand players invisible melds t r best R T E Ib f. pose proof (float_of_exact rnd _ _ _ _ _ _ _ _ _ R T E Ib) as Q. fold f in Q. rewrite !Q.
  destruct (C64_range _ _ _ _ _ _ _ _ T E) as [L _]. split; [|split].
  - pose proof (twice_one rnd R). pose proof (twice_le rnd _ _ R L). lra.
  - intro G. pose proof (twice_zero rnd R). pose proof (twice_le rnd _ _ R G). lra.
  - intro G. pose proof (twice_zero rnd R). pose proof (twice_le rnd _ _ R G). lra.
Qed.
Theorem C119_order : forall rnd e p hand players invisible melds t r best e' p' hand' players' invisible' melds' t' r' best',
  rounding rnd -> discards e p hand melds t -> reported e p hand players invisible melds = Ok r -> In best (rr_expected r) ->
  discards e' p' hand' melds' t' -> reported e' p' hand' players' invisible' melds' = Ok r' -> In best' (rr_expected r') ->
  (rr_wrong_rate r <= rr_wrong_rate r' ->
   float_rate rnd (hidden_count hand invisible) best (rr_choice r) <= float_rate rnd (hidden_count hand' invisible') best' (rr_choice r'))%Q.
Proof.
  intros rnd e p hand players invisible melds t r best e' p' hand' players' invisible' melds' t' r' best' R T E Ib T' E' Ib' L.
  rewrite (float_of_exact rnd _ _ _ _ _ _ _ _ _ R T E Ib), (float_of_exact rnd _ _ _ _ _ _ _ _ _ R T' E' Ib'). now apply twice_le.
Qed.

(** In a deal played by the rules, where [u] is the number of tiles taken for unseen and three players
    have eight more: the computed rate of every row is at most 1, 0 for a choice as good as the
    expected rows, and not negative with a meld on the table and no useful red five in hand. *)
Definition float_about (rnd : Q -> Q) (p players : Z) (pt : list action * Z) (row : round) : Prop :=
  exists hand u, hand_at p (fst pt) hand /\ number_of (taken_for_unseen p players (fst pt)) u /\
    forall best, In best (rr_expected row) ->
      let f := float_rate rnd (u + if players =? 3 then 8 else 0) best (rr_choice row) in
      (f <= 1)%Q /\ (as_good best (rr_choice row) -> f == 0)%Q /\
      (melds_made p (fst pt) <> 0 -> reds_idle (shapes_for (melds_made p (fst pt))) hand ->
       reds_useless hand (advances true (Standard 1 (4 - melds_made p (fst pt))) (without (hand_counts hand) (face (snd pt)))) -> (0 <= f)%Q).
Theorem C119_deal : forall rnd p players acts b es rows, rounding rnd -> seat p -> players = 3 \/ players = 4 -> playing p acts b -> log acts es ->
  game_reason_list es p players = Ok rows -> Forall2 (float_about rnd p players) (own_discards p [] acts) rows.
Proof.
  intros rnd p players acts b es rows R P Pl H LG E. pose proof (rows_at _ _ _ _ _ _ P Pl H LG E) as F. revert F. apply pairs_mono.
  intros [before t] row (e & hand & s & ms & r & T & Ns & HA & Tm & To & Hu & Ex & Er & Erow). cbn [fst snd] in *. rewrite Erow.
  destruct (hidden_total hand s _ _ Ns To Ex Hu) as (n & Nn & En). exists hand, n. split; [exact HA|]. split; [exact Nn|].
  cbn [fst flagged rr_choice rr_expected]. unfold flagged. cbn [rr_choice rr_expected]. intros best Ib.
  replace (n + (if players =? 3 then 8 else 0)) with (hidden_count hand s) by (rewrite En; now destruct (players =? 3)).
  destruct (C119_float rnd _ _ _ _ _ _ _ _ best R T Er Ib) as (A & B & C). split; [exact A|]. split.
  - intros [G1 G2]. assert (Z0 : (rr_wrong_rate r == 0)%Q) by now apply (C64_zero _ _ _ _ _ _ _ _ best T Er Ib).
    apply Qle_antisym; [apply C|apply B]; rewrite Z0; apply Qle_refl.
  - intros N0 nr nc. rewrite <- Tm in *. apply B. now apply (C64_open_partial _ _ _ _ _ _ _ _ T Ns N0 nr nc Er).
Qed.

(** Cutting off after 53 binary digits is a rounding. *)
Definition cut (q : Q) : Q := (Qfloor (q * inject_Z (2 ^ 53)) # Z.to_pos (2 ^ 53)).
Example C119_cut : rounding cut /\ (cut (1 # 3) < 1 # 3)%Q /\ (0 < cut (1 # 3))%Q.
Proof.
  split; [|split; reflexivity]. constructor; [|reflexivity|reflexivity]. intros a b0 L. unfold cut, Qle. cbn [Qnum Qden]. apply Z.mul_le_mono_nonneg_r; [lia|].
  apply Qfloor_resp_le. apply Qmult_le_compat_r; [exact L|discriminate].
Qed.

Print Assumptions C119_float.
Print Assumptions C119_order.
Print Assumptions C119_deal.
