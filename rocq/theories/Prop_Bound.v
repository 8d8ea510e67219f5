(** C123: how far a hand can be from winning. *)
From Verif Require Import Base Tile TileSet Spec_Tile TileSetFacts Win Spec_Win WinFacts WinProofs Waiting Spec_Waiting WaitingFacts WaitingPM WaitingBrute WaitingHeur WaitingHeurTop WaitingSize Spec_Hand WaitingTop Parse Text Prop_Waiting.
From Verif Require Import Tenhou Spec_Meld Event State Spec_Log Checker Spec_Checker CheckerHand CheckerReport Prop_Checker Prop_CheckerWitness.
From Coq Require Import List ZArith Lia Bool Permutation.
From Coq Require String.
Import String.StringSyntax ListNotations.
Open Scope string_scope.
Open Scope list_scope.
Open Scope Z_scope.

(** ** Layouts with one unit per face. *)
Definition held (h : counts) : list kind := filter (fun k => 0 <? h k) KINDS.
Definition absent (h : counts) : list kind := filter (fun k => negb (0 <? h k)) KINDS.
Lemma held_absent h : Permutation (held h ++ absent h) KINDS.
Proof.
  unfold held, absent. induction KINDS as [|k l IH]; [reflexivity|]. cbn [filter]. destruct (0 <? h k); cbn [negb app]; [now constructor|].
  rewrite <- Permutation_middle. now constructor.
Qed.
Lemma split_length h : (length (held h) + length (absent h) = 34)%nat.
Proof. rewrite <- app_length, (Permutation_length (held_absent h)). reflexivity. Qed.
Lemma sum_split (f : kind -> Z) h : sumK f = sumZ f (held h) + sumZ f (absent h).
Proof.
  unfold sumK. assert (P : forall a b, Permutation a b -> sumZ f a = sumZ f b).
  { induction 1; cbn [sumZ]; lia. }
  rewrite <- (P _ _ (held_absent h)), sumZ_app. reflexivity.
Qed.

Definition no_run (u : munit) : Prop := match u with URun _ _ => False | _ => True end.
Lemma one_use u k : no_run u -> use1 u k = if kind_eqb (pair_face u) k then usize u else 0.
Proof.
  destruct u as [j|c n|j]; intros N; [| destruct N |]; unfold use1, count_kind; cbn [unit_kinds sumZ pair_face usize length]; rewrite !same_kind_eqb; destruct (kind_eqb j k); reflexivity.
Qed.
Lemma uses_other us k : Forall no_run us -> ~ In k (map pair_face us) -> uses us k = 0.
Proof.
  induction us as [|u us IH]; intros N I; [apply uses_nil|]. inversion N; subst. cbn [map In] in I. rewrite uses_cons, IH, one_use by tauto.
  destruct (kind_eqb (pair_face u) k) eqn:E; [apply kind_eqb_eq in E; tauto|reflexivity].
Qed.
Lemma distinct_defic h us : (forall k, 0 <= h k) -> Forall legal_unit us -> Forall no_run us -> NoDup (map pair_face us) ->
  defic h us = sumZ (fun u => Z.max 0 (usize u - h (pair_face u))) us.
Proof.
  intros H L N D. induction us as [|u us IH].
  - cbn [sumZ]. unfold defic, sumK. apply sumZ_zero. intros k _. unfold miss. rewrite uses_nil. specialize (H k). lia.
  - inversion L as [|? ? L1 L2]; inversion N as [|? ? N1 N2]; cbn [map] in D; inversion D as [|? ? D1 D2]; subst. specialize (IH L2 N2 D2). cbn [sumZ]. rewrite <- IH.
    unfold defic, sumK. rewrite (sumZ_change_one KINDS (miss h (u :: us)) (miss h us) (pair_face u)).
    + unfold miss. rewrite uses_cons, one_use, (uses_other us) by auto. rewrite kind_eqb_refl. specialize (H (pair_face u)). lia.
    + apply KINDS_NoDup.
    + apply KINDS_legal. destruct u; [exact L1|destruct N1|exact L1].
    + intros k Ik Ne. unfold miss. rewrite uses_cons, one_use by auto. destruct (kind_eqb (pair_face u) k) eqn:E; [apply kind_eqb_eq in E; congruence|reflexivity].
Qed.
Lemma distinct_uses us k : Forall no_run us -> NoDup (map pair_face us) -> uses us k <= 3.
Proof.
  induction us as [|u us IH]; intros N D; [rewrite uses_nil; lia|]. inversion N as [|? ? N1 N2]; cbn [map] in D; inversion D as [|? ? D1 D2]; subst. rewrite uses_cons, one_use by auto.
  destruct (kind_eqb (pair_face u) k) eqn:E.
  - apply kind_eqb_eq in E. subst k. rewrite uses_other by auto. destruct u; [| destruct N1 |]; cbn; lia.
  - specialize (IH N2 D2). lia.
Qed.
Lemma NoDup_firstn {A} n (l : list A) : NoDup l -> NoDup (firstn n l).
Proof.
  revert l. induction n as [|n IH]; intros [|x l] D; cbn [firstn]; try constructor; inversion D as [|? ? D1 D2]; subst; auto.
  intros I. apply D1. rewrite <- (firstn_skipn n l). apply in_or_app. now left.
Qed.

Definition total_of (h : counts) : Z := sumK h.
Lemma total_held h : (forall k, 0 <= h k) -> total_of h = sumZ h (held h).
Proof.
  intros H. unfold total_of. rewrite (sum_split h h). rewrite (sumZ_zero _ h (absent h)); [lia|]. intros k I. unfold absent in I. apply filter_In in I as [_ I].
  apply negb_true_iff, Z.ltb_ge in I. specialize (H k). lia.
Qed.
Lemma held_pos h k : In k (held h) -> 0 < h k /\ legal_kind k.
Proof. unfold held. intros I. apply filter_In in I as [I1 I2]. apply Z.ltb_lt in I2. split; [exact I2|now apply KINDS_legal]. Qed.
Lemma absent_legal h k : In k (absent h) -> legal_kind k.
Proof. unfold absent. intros I. apply filter_In in I as [I1 _]. now apply KINDS_legal. Qed.
Lemma held_absent_nodup h : NoDup (held h ++ absent h).
Proof. eapply Permutation_NoDup; [symmetry; apply held_absent|apply KINDS_NoDup]. Qed.
Lemma NoDup_app_split {A} (a b : list A) : NoDup (a ++ b) -> NoDup a /\ NoDup b /\ forall x, In x a -> ~ In x b.
Proof.
  induction a as [|x a IH]; cbn [app]; intros D; [split; [constructor|split; [exact D|intros ? []]]|]. inversion D as [|? ? D1 D2]; subst. destruct (IH D2) as (A1 & A2 & A3).
  split; [constructor; auto; intros I; apply D1, in_or_app; now left|]. split; [exact A2|]. intros y [<-|I]; [intros I; apply D1, in_or_app; now right|auto].
Qed.
Lemma in_firstn {A} n (l : list A) x : In x (firstn n l) -> In x l.
Proof. intros I. rewrite <- (firstn_skipn n l). apply in_or_app. now left. Qed.
Lemma sum_const {A} (f : A -> Z) c l : (forall x, In x l -> f x <= c) -> sumZ f l <= c * Z.of_nat (length l).
Proof. induction l as [|x l IH]; intros H; cbn [sumZ length]; [lia|]. pose proof (H x (or_introl eq_refl)). specialize (IH (fun y I => H y (or_intror I))). lia. Qed.

Lemma trips_faces ks : map pair_face (map UTrip ks) = ks.
Proof. rewrite map_map. cbn [pair_face]. apply map_id. Qed.
Lemma pairs_faces ks : map pair_face (map UPair ks) = ks.
Proof. rewrite map_map. cbn [pair_face]. apply map_id. Qed.
Lemma forms_standard k0 ks m : Z.of_nat (length ks) = m -> Forall legal_kind (k0 :: ks) -> forms (Standard 1 m) (UPair k0 :: map UTrip ks).
Proof.
  intros L F. inversion F as [|? ? F1 F2]; subst. split; [constructor; [exact F1|]; rewrite Forall_map; exact F2|]. cbn [filter is_pair negb]. split.
  - replace (filter is_pair (map UTrip ks)) with (@nil munit); [reflexivity|]. induction ks as [|k ks IH]; [reflexivity|]. cbn [map filter is_pair]. inversion F2; subst. apply IH; auto.
  - f_equal. replace (filter (fun u => negb (is_pair u)) (map UTrip ks)) with (map UTrip ks); [apply map_length|]. clear. induction ks as [|k ks IH]; [reflexivity|]. cbn [map filter is_pair negb]. now rewrite <- IH.
Qed.

Lemma standard_layout h m : (forall k, 0 <= h k <= 4) -> 0 <= m <= 33 -> 3 * m + 1 <= total_of h ->
  exists us, forms (Standard 1 m) us /\ (forall k, uses us k <= 3) /\ defic h us <= 2 * m + 1.
Proof.
  intros H M T. assert (H0 : forall k, 0 <= h k) by (intros k; apply H). pose proof (split_length h) as SL. pose proof (NoDup_app_split _ _ (held_absent_nodup h)) as (Dh & Da & Dx).
  set (d := length (held h)) in *. destruct (le_lt_dec (Z.to_nat m + 1) d) as [Ge|Lt].
  - destruct (firstn (Z.to_nat m + 1) (held h)) as [|k0 ks] eqn:E; [apply (f_equal (@length kind)) in E; rewrite firstn_length in E; cbn [length] in E; lia|].
    assert (Lk : length (k0 :: ks) = (Z.to_nat m + 1)%nat) by (rewrite <- E, firstn_length; lia). cbn [length] in Lk.
    assert (Ik : forall k, In k (k0 :: ks) -> 0 < h k /\ legal_kind k) by (intros k I; apply held_pos; rewrite <- E in I; now apply in_firstn in I).
    assert (Dk : NoDup (k0 :: ks)) by (rewrite <- E; now apply NoDup_firstn).
    assert (Lg : Forall legal_kind (k0 :: ks)) by (apply Forall_forall; intros k I; apply Ik, I).
    assert (Fm : forms (Standard 1 m) (UPair k0 :: map UTrip ks)) by (apply forms_standard; [lia|exact Lg]).
    assert (Nr : Forall no_run (UPair k0 :: map UTrip ks)) by (constructor; [exact I|rewrite Forall_map; apply Forall_forall; intros; exact I]).
    assert (Df : NoDup (map pair_face (UPair k0 :: map UTrip ks))) by (cbn [map pair_face]; rewrite trips_faces; exact Dk).
    exists (UPair k0 :: map UTrip ks). split; [exact Fm|]. split; [intros k; now apply distinct_uses|].
    rewrite distinct_defic by (auto; apply Fm). cbn [sumZ usize pair_face]. rewrite sumZ_map. cbn [usize pair_face].
    assert (sumZ (fun k => Z.max 0 (3 - h k)) ks <= 2 * Z.of_nat (length ks)) by (apply sum_const; intros k Ik'; pose proof (proj1 (Ik k (or_intror Ik'))); lia).
    pose proof (proj1 (Ik k0 (or_introl eq_refl))). lia.
  - destruct (firstn (Z.to_nat m - d + 1) (absent h)) as [|r0 rs] eqn:E; [apply (f_equal (@length kind)) in E; rewrite firstn_length in E; cbn [length] in E; lia|].
    assert (Lk : length (r0 :: rs) = (Z.to_nat m - d + 1)%nat) by (rewrite <- E, firstn_length; lia). cbn [length] in Lk.
    assert (Ir : forall k, In k (r0 :: rs) -> In k (absent h)) by (intros k I; rewrite <- E in I; now apply in_firstn in I).
    assert (Dr : NoDup (r0 :: rs)) by (rewrite <- E; now apply NoDup_firstn). inversion Dr as [|? ? Dr1 Dr2]; subst.
    assert (Dk : NoDup (r0 :: held h ++ rs)).
    { constructor; [intros I; apply in_app_or in I as [I|I]; [apply (Dx r0 I), Ir; now left|auto]|]. clear - Dh Dr2 Dx Ir.
      assert (Q : forall x, In x (held h) -> ~ In x rs) by (intros x I1 I2; apply (Dx x I1), Ir; now right). clear - Dh Dr2 Q.
      induction (held h) as [|x l IH]; [exact Dr2|]. inversion Dh as [|? ? D1 D2]; subst. cbn [app]. constructor; [intros I; apply in_app_or in I as [I|I]; [auto|apply (Q x); [now left|exact I]]|]. apply IH; auto. intros y I; apply Q; now right. }
    assert (Lg : Forall legal_kind (r0 :: held h ++ rs)).
    { apply Forall_forall. intros k [<-|I]; [apply (absent_legal h), Ir; now left|]. apply in_app_or in I as [I|I]; [now apply (held_pos h)|apply (absent_legal h), Ir; now right]. }
    assert (Fm : forms (Standard 1 m) (UPair r0 :: map UTrip (held h ++ rs))) by (apply forms_standard; [rewrite app_length; fold d; lia|exact Lg]).
    assert (Nr : Forall no_run (UPair r0 :: map UTrip (held h ++ rs))) by (constructor; [exact I|rewrite Forall_map; apply Forall_forall; intros; exact I]).
    assert (Df : NoDup (map pair_face (UPair r0 :: map UTrip (held h ++ rs)))) by (cbn [map pair_face]; rewrite trips_faces; exact Dk).
    exists (UPair r0 :: map UTrip (held h ++ rs)). split; [exact Fm|]. split; [intros k; now apply distinct_uses|].
    rewrite distinct_defic by (auto; apply Fm). cbn [sumZ usize pair_face]. rewrite sumZ_map, sumZ_app. cbn [usize pair_face].
    assert (B1 : sumZ (fun k => Z.max 0 (3 - h k)) rs <= 3 * Z.of_nat (length rs)) by (apply sum_const; intros k _; specialize (H k); lia).
    assert (B2 : sumZ (fun k => Z.max 0 (3 - h k)) (held h) <= 4 * Z.of_nat d - sumZ h (held h)).
    { unfold d. clear - H. induction (held h) as [|k l IH]; cbn [sumZ length]; [lia|]. specialize (H k). lia. }
    rewrite (total_held h H0) in T. specialize (H r0). lia.
Qed.
Lemma pairs_layout h n : (forall k, 0 <= h k <= 4) -> 0 <= n <= 34 -> 2 * n - 1 <= total_of h ->
  exists us, forms (DistinctPairs n) us /\ (forall k, uses us k <= 3) /\ defic h us <= n.
Proof.
  intros H M T. assert (H0 : forall k, 0 <= h k) by (intros k; apply H). pose proof (split_length h) as SL. pose proof (NoDup_app_split _ _ (held_absent_nodup h)) as (Dh & Da & Dx).
  set (d := length (held h)) in *.
  assert (K : exists ks, length ks = Z.to_nat n /\ NoDup ks /\ Forall legal_kind ks /\ sumZ (fun k => Z.max 0 (2 - h k)) ks <= n).
  { destruct (le_lt_dec (Z.to_nat n) d) as [Ge|Lt].
    - exists (firstn (Z.to_nat n) (held h)). assert (Lk : length (firstn (Z.to_nat n) (held h)) = Z.to_nat n) by (rewrite firstn_length; lia). split; [exact Lk|].
      assert (Ik : forall k, In k (firstn (Z.to_nat n) (held h)) -> 0 < h k /\ legal_kind k) by (intros k I; apply held_pos; now apply in_firstn in I).
      split; [now apply NoDup_firstn|]. split; [apply Forall_forall; intros k I; apply Ik, I|].
      assert (sumZ (fun k => Z.max 0 (2 - h k)) (firstn (Z.to_nat n) (held h)) <= 1 * Z.of_nat (length (firstn (Z.to_nat n) (held h)))) by (apply sum_const; intros k I; pose proof (proj1 (Ik k I)); lia). lia.
    - set (rs := firstn (Z.to_nat n - d) (absent h)). assert (Lr : length rs = (Z.to_nat n - d)%nat) by (unfold rs; rewrite firstn_length; lia).
      exists (held h ++ rs). split; [rewrite app_length; fold d; lia|]. split.
      + assert (Q : forall x, In x (held h) -> ~ In x rs) by (intros x I1 I2; apply (Dx x I1); now apply in_firstn in I2). assert (Dr : NoDup rs) by now apply NoDup_firstn. clearbody rs. clear - Dh Dr Q.
        induction (held h) as [|x l IH]; [exact Dr|]. inversion Dh as [|? ? D1 D2]; subst. cbn [app]. constructor; [intros I; apply in_app_or in I as [I|I]; [auto|apply (Q x); [now left|exact I]]|]. apply IH; auto. intros y I; apply Q; now right.
      + split; [apply Forall_forall; intros k I; apply in_app_or in I as [I|I]; [now apply (held_pos h)|apply (absent_legal h); now apply in_firstn in I]|].
        rewrite sumZ_app. assert (B1 : sumZ (fun k => Z.max 0 (2 - h k)) rs <= 2 * Z.of_nat (length rs)) by (apply sum_const; intros k _; specialize (H k); lia).
        assert (B2 : 3 * sumZ (fun k => Z.max 0 (2 - h k)) (held h) <= 4 * Z.of_nat d - sumZ h (held h)).
        { assert (P : forall k, In k (held h) -> 0 < h k) by (intros k I; now apply held_pos). unfold d. clear - H P. induction (held h) as [|k l IH]; cbn [sumZ length]; [lia|].
          specialize (IH (fun y I => P y (or_intror I))). specialize (P k (or_introl eq_refl)). specialize (H k). lia. }
        assert (B3 : 0 <= sumZ (fun k => Z.max 0 (2 - h k)) (held h)) by (apply sumZ_nonneg; intros; lia). rewrite (total_held h H0) in T. lia. }
  destruct K as (ks & Lk & Dk & Lg & B). assert (Nr : Forall no_run (map UPair ks)) by (rewrite Forall_map; apply Forall_forall; intros; exact I).
  assert (Df : NoDup (map pair_face (map UPair ks))) by now rewrite pairs_faces.
  assert (Fm : forms (DistinctPairs n) (map UPair ks)).
  { split; [rewrite Forall_map; exact Lg|]. split; [rewrite Forall_map; apply Forall_forall; reflexivity|]. split; [exact Df|rewrite map_length; lia]. }
  exists (map UPair ks). split; [exact Fm|]. split; [intros k; now apply distinct_uses|]. rewrite distinct_defic by (auto; apply Fm). rewrite sumZ_map. cbn [usize pair_face]. exact B.
Qed.

(** ** C123. A hand that is at most one tile short of one pair and [m] melds is at most [2 m] steps from waiting;
    one at most one tile short of [n] different pairs at most [n - 1]. All searches answer within these bounds. *)
Definition most (s : shape) : Z := match s with Standard _ m => 2 * m | DistinctPairs n => n - 1 end.
Definition one_pair (s : shape) : Prop := match s with Standard p _ => p = 1 | DistinctPairs _ => True end.
Lemma within ig s h : (forall k, 0 <= h k <= 4) -> sane_shape s -> one_pair s -> shape_tiles s - 1 <= total_of h ->
  exists n, reach ig s h n /\ Z.of_nat n - 1 <= most s.
Proof.
  intros Hc Sn One Sz.
  assert (U : exists us, forms s us /\ (forall k, uses us k <= 3) /\ defic h us <= most s + 1).
  { destruct s as [p m|q]; cbn [one_pair sane_shape shape_tiles most] in *.
    - subst p. apply standard_layout; auto; lia.
    - destruct (pairs_layout h q Hc Sn) as (us & U1 & U2 & U3); [lia|]. exists us. split; [exact U1|]. split; [exact U2|lia]. }
  destruct U as (us & Fm & Us & De).
  assert (Ok : okh ig h) by (split; [intros k; apply Hc|intros _ k; apply Hc]).
  assert (Ad : adm ig us) by (intros _ k; specialize (Us k); lia).
  eexists. split; [exact (reach_of_units ig s h us Ok Fm Ad)|]. pose proof (defic_nonneg h us). lia.
Qed.
Theorem C123_distance : forall s hand ig n, hand_ok hand -> four_max hand -> usual_size s hand -> one_pair s ->
  distance ig s (face_count hand) n -> Z.of_nat n - 1 <= most s.
Proof.
  intros s hand ig n Ho F (Sn & _ & Sz) One [_ Mn].
  assert (Hc : forall k, 0 <= face_count hand k <= 4).
  { intros k. split; [|apply F]. rewrite <- hand_ok_fc by auto. destruct (hand_ok_good _ Ho) as (_ & _ & Nn). apply Nn. }
  assert (Tt : total_of (face_count hand) = hand_size hand).
  { destruct (hand_ok_good _ Ho) as (W & L & _). rewrite hand_size_total, total_sumK by auto. unfold total_of, sumK. apply sumZ_ext. intros k _. symmetry. now apply hand_ok_fc. }
  rewrite <- Tt in Sz. destruct (within ig s _ Hc Sn One Sz) as (m & R & B). specialize (Mn m R). lia.
Qed.
Theorem C123_answers : forall s hand ig, hand_ok hand -> four_max hand -> usual_size s hand -> one_pair s ->
  exists v, -1 <= v <= most s /\ h_step (pattern_of s) hand ig = Ok v /\ returns (fun fuel => pm_step fuel (pattern_of s) hand ig) v /\
    (ig = true -> returns (fun fuel => brute_step fuel (pattern_of s) hand ig) v).
Proof.
  intros s hand ig Ho F U One. destruct (h_step_min s hand ig Ho (fun _ => F) U) as (n & E & D). exists (Z.of_nat n - 1).
  split; [split; [lia|eapply C123_distance; eauto]|]. split; [exact E|]. split.
  - apply C18_pattern_match_minimum; auto. exists n. split; [exact D|lia].
  - intros ->. apply C17_brute_minimum; auto. exists n. split; [exact D|lia].
Qed.

Lemma counts_in hand t : In t hand -> 0 < hand_counts hand (face t).
Proof.
  unfold hand_counts. induction hand as [|x l IH]; [intros []|]. cbn [map]. change (face x :: map face l) with ([face x] ++ map face l). rewrite count_kind_app.
  pose proof (count_kind_nonneg (face t) (map face l)). pose proof (count_kind_nonneg (face t) [face x]).
  intros [->|It]; [|specialize (IH It); lia]. unfold count_kind at 1. cbn [sumZ]. rewrite same_kind_eqb, kind_eqb_refl. lia.
Qed.
Lemma sum_without h k : legal_kind k -> total_of h = total_of (without h k) + 1.
Proof.
  intros Lk. unfold total_of, sumK. rewrite (sumZ_ext _ h (fun j => without h k j + count_kind j [k])).
  - rewrite sumZ_plus. change (sumZ (fun j => count_kind j [k]) KINDS) with (sumK (fun j => count_kind j [k])). rewrite sumK_count by now constructor. reflexivity.
  - intros j _. unfold without, count_kind. cbn [sumZ]. destruct (same_kind k j); lia.
Qed.
(** The step that the report shows for the tile that the player discarded. With [melds] melds on the table it is at most
    twice the number of melds still to be made; a closed hand is never more than six steps away, since it may aim for seven pairs. *)
Definition most_shown (melds : Z) : Z := if melds =? 0 then 6 else 2 * (4 - melds).
Theorem C123_choice : forall e p hand players invisible melds t r, discards e p hand melds t -> NoDup invisible ->
  reported e p hand players invisible melds = Ok r -> 0 <= sh_step (rr_choice r) <= most_shown (table_melds melds).
Proof.
  intros e p hand players invisible melds t r T Ni E.
  destruct (proj1 (C63_choice _ _ _ _ _ _ _ _ T Ni E)) as (_ & (n & Bd & ->) & _). clear E.
  destruct T as (_ & (Nd & Va & Mb & Ln & It) & _). set (m := table_melds melds) in *. clearbody m. set (h := without (hand_counts hand) (face t)) in *.
  assert (Lf : Forall legal_kind (map face hand)) by (rewrite Forall_map; eapply Forall_impl; [|exact Va]; intros x Vx; now apply face_legal).
  assert (Pos : 0 < hand_counts hand (face t)) by (now apply counts_in).
  assert (Hc : forall k, 0 <= h k <= 4).
  { intros k. unfold h, without. pose proof (faces_le4 hand k Nd Va) as U. pose proof (count_kind_nonneg k (map face hand)) as L. fold (hand_counts hand k) in U, L.
    destruct (same_kind (face t) k) eqn:Q; [|lia]. rewrite same_kind_eqb in Q. apply kind_eqb_eq in Q. subst k. lia. }
  assert (Tt : total_of h = 13 - 3 * m).
  { assert (Q : total_of (hand_counts hand) = 14 - 3 * m) by (unfold total_of, hand_counts; rewrite sumK_count, map_length by exact Lf; lia).
    rewrite (sum_without (hand_counts hand) (face t)) in Q by (apply face_legal; rewrite Forall_forall in Va; auto). fold h in Q. lia. }
  assert (Hs : forall s, In s (shapes_for m) -> sane_shape s /\ one_pair s /\ shape_tiles s = 14 - 3 * m /\ tiles_of s = 14 - 3 * m).
  { unfold shapes_for. intros s [<-|Is]; [cbn [sane_shape one_pair shape_tiles tiles_of]; lia|]. destruct (Z.eqb_spec m 0) as [->|]; [|destruct Is]. destruct Is as [<-|[]]. cbn [sane_shape one_pair shape_tiles tiles_of]; lia. }
  assert (Up : forall s, In s (shapes_for m) -> Z.of_nat n - 1 <= most s).
  { intros s Is. destruct (Hs s Is) as (S1 & S2 & S3 & _). destruct (within true s h Hc S1 S2 ltac:(lia)) as (w & R & B).
    destruct (reach_distance true s h w) as (d & D); [split; [intros k; apply Hc|intros _ k; apply Hc]|exact R|].
    pose proof (proj2 Bd s d Is D). pose proof (proj2 D w R). lia. }
  split.
  - destruct Bd as [(s & Is & (add & La & _ & _ & W) & _) _]. destruct n as [|n]; [exfalso|lia]. destruct add; [|discriminate].
    apply wins_total in W. destruct (Hs s Is) as (_ & _ & _ & S4). rewrite S4 in W.
    assert (sumK (plus h []) = total_of h) by (unfold total_of, sumK; apply sumZ_ext; intros k _; apply plus_nil). lia.
  - unfold most_shown. destruct (Z.eqb_spec m 0) as [Z0|N0].
    + specialize (Up (DistinctPairs 7)). cbn [most] in Up. assert (In (DistinctPairs 7) (shapes_for m)) by (rewrite Z0; right; now left). specialize (Up H). lia.
    + apply (Up (Standard 1 (4 - m))). now left.
Qed.

(** The bounds are met: 147m147p147s1234z is 8 steps away by one pair and four melds, 6 by seven pairs. *)
Definition far : tset := tile_set_from_string (t_ "147m147p147s1234z").
Example C123_tight : hand_ok far /\ four_max far /\ usual_size (Standard 1 4) far /\ usual_size (DistinctPairs 7) far /\
  most (Standard 1 4) = 8 /\ h_step (NormalTypeWin 1 4) far true = Ok 8 /\ most (DistinctPairs 7) = 6 /\ h_step (UniquePairs 7 []) far true = Ok 6.
Proof.
  assert (Ho : hand_ok far). { split; [vm_compute; repeat constructor; cbn; intuition congruence|vm_compute; repeat constructor; cbn; discriminate]. }
  split; [exact Ho|]. split.
  - assert (Q : forallb (fun k => face_count far k <=? 4) KINDS = true) by (vm_compute; reflexivity).
    intros k. destruct (Z_le_gt_dec (face_count far k) 0) as [L|L]; [lia|].
    rewrite <- hand_ok_fc in L by auto. destruct (getk_nonzero_in far k) as (x & V & I0); [lia|].
    destruct (hand_ok_good _ Ho) as (_ & Lk & _). unfold legal_keys in Lk. rewrite Forall_forall in Lk.
    rewrite forallb_forall in Q. specialize (Q k). apply Z.leb_le, Q. apply KINDS_legal. rewrite <- V. apply Lk.
    apply in_map_iff. eexists. split; [|exact I0]. reflexivity.
  - split; [repeat split; vm_compute; congruence|]. split; [repeat split; vm_compute; congruence|]. repeat split; vm_compute; reflexivity.
Qed.
(** With three melds on the table and 1m 4m 7m 1p 4p in hand, discarding 4p leaves a hand that is two steps away. *)
Definition three_pons : list meld := [mkMeld CTriplet [108; 109] [110] 1; mkMeld CTriplet [112; 113] [114] 1; mkMeld CTriplet [116; 117] [118] 2].
Definition far_hand : list Z := [0; 12; 24; 36; 48].
Example C123_choice_case : discards (drop 48) 0 far_hand three_pons 48 /\ NoDup everything /\ most_shown (table_melds three_pons) = 2 /\
  exists r, reported (drop 48) 0 far_hand 4 everything three_pons = Ok r /\ sh_step (rr_choice r) = 2.
Proof.
  split; [apply discards_checked; vm_compute; reflexivity|]. split; [exact everything_nodup|]. split; [reflexivity|].
  eexists. split; [vm_compute; reflexivity|reflexivity].
Qed.
Print Assumptions C123_distance.
Print Assumptions C123_answers.
Print Assumptions C123_choice.
