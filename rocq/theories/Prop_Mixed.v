(** Property C52, exactly: the rows of the report about a hand with nothing on the table.
    Vocabulary in Spec_Checker.v and Spec_Mixed.v. *)
From Coq Require Import String.
From Verif Require Import Base Category Tile TileSet Spec_Tile TileSetFacts Win Spec_Win WinFacts WinProofs Waiting Spec_Waiting WaitingFacts WaitingPM WaitingBrute WaitingHeur WaitingHeurTop WaitingSize Spec_Hand WaitingTop.
From Verif Require Import Parse Text Tenhou TenhouProofs Spec_Meld MeldProofs Prop_Meld Event State Spec_Log StateProofs Checker Spec_Checker CheckerProofs CheckerHand CheckerRows CheckerReport Prop_Checker Prop_CheckerWitness Spec_Mixed.
From Coq Require Import List ZArith QArith Lia Bool Permutation.
Import ListNotations.
Open Scope list_scope.
Open Scope Z_scope.

(** A merged item: the tile of one analysis, the faces of one or both. *)
Record mixes (hand : list Z) (unseen : list inv) (n1 n2 : nat) (ks : kind * kind) (x : item) : Prop := mkMixes {
  mx_discard : view (ri_discard x) = fst ks;
  mx_object : object (ri_discard x);
  mx_step : ri_step x = Z.of_nat (Nat.min n1 n2) - 1;
  mx_nodup : NoDup (map view (ri_useful x));
  mx_useful : forall j, In j (map view (ri_useful x)) <-> mixed_advances hand n1 n2 ks j;
  mx_count : useful_count unseen (ri_useful x) = Ok (ri_count x);
  mx_objects : Forall object (ri_useful x);
  mx_held : Forall (held hand) (ri_useful x) }.
Lemma says_mixed hand unseen n1 n2 x y m : says standard hand unseen n1 x -> says seven_pairs hand unseen n2 y ->
  object (ri_discard x) -> reasoning_merge [x; y] unseen = Ok m ->
  mixes hand unseen n1 n2 (view (ri_discard x), view (ri_discard y)) m.
Proof.
  intros [D1 St1 N1 U1 C1 O1 P1] [D2 St2 N2 U2 C2 O2 P2] Ox M.
  destruct (merge_two unseen x y) as (c & Ec & E). rewrite E in M. apply Ok_inj in M. subst m.
  constructor; cbn [ri_discard ri_step ri_useful ri_count fst snd]; auto.
  - rewrite St1, St2. lia.
  - unfold merged_useful. destruct (ri_step y <? ri_step x); [exact N2|]. destruct (ri_step x =? ri_step y); [now apply set_update_nodup|exact N1].
  - intro j. unfold mixed_advances, merged_useful. cbn [fst snd].
    destruct (Z.ltb_spec (ri_step y) (ri_step x)) as [L|L]; [|destruct (Z.eqb_spec (ri_step x) (ri_step y)) as [Q|Q]].
    + rewrite U2. split; [intro A; right; split; [lia|exact A]|]. intros [[A _]|[_ A]]; [lia|exact A].
    + rewrite set_update_in, U1, U2. split.
      * intros [A|A]; [right|left]; (split; [lia|exact A]).
      * intros [[_ A]|[_ A]]; auto.
    + rewrite U1. split; [intro A; left; split; [lia|exact A]|]. intros [[_ A]|[A _]]; [exact A|lia].
  - unfold merged_useful. destruct (ri_step y <? ri_step x); [exact O2|]. destruct (ri_step x =? ri_step y); [now apply set_update_P|exact O1].
  - unfold merged_useful. destruct (ri_step y <? ri_step x); [exact P2|]. destruct (ri_step x =? ri_step y); [now apply set_update_P|exact P1].
Qed.
Lemma mixes_row hand unseen n1 n2 ks x : mixes hand unseen n1 n2 ks x ->
  mixed_row hand n1 n2 ks (sh_discard (norm x)) (sh_step (norm x)) (sh_useful (norm x)).
Proof.
  intros A. cbn [norm sh_discard sh_step sh_useful]. split; [|split].
  - eexists. split; [reflexivity|]. rewrite <- (mx_discard _ _ _ _ _ _ A). apply tile_names, A.
  - apply A.
  - destruct (sorted_tiles_spec _ (mx_nodup _ _ _ _ _ _ A)) as [K In']. exists (map view (sorted_tiles (ri_useful x))). split.
    + split; [now apply kinds_up_in_order|]. pose proof (mx_objects _ _ _ _ _ _ A) as Ob. rewrite Forall_forall in Ob.
      assert (Ob' : Forall object (sorted_tiles (ri_useful x))) by (apply Forall_forall; intros t T; apply Ob; now apply In').
      clear - Ob'. induction Ob' as [|t l Ot Ol IH]; cbn [map]; constructor; [now apply tile_names|exact IH].
    + intro j. rewrite <- (mx_useful _ _ _ _ _ _ A). rewrite !in_map_iff. split; intros (t & V & T); exists t; (split; [exact V|]); now apply In'.
Qed.
Lemma mixes_count hand unseen n1 n2 ks x : NoDup unseen -> reds_useless hand (mixed_advances hand n1 n2 ks) -> mixes hand unseen n1 n2 ks x ->
  mixed_count hand (fun t => In (ITile t) unseen) n1 n2 ks (ri_count x).
Proof.
  intros N nr A. exists (map view (ri_useful x)). split; [apply A|].
  apply useful_plain; [exact N|exact (held_plain _ _ _ (mx_held _ _ _ _ _ _ A) (mx_useful _ _ _ _ _ _ A) nr)| |apply A|apply A].
  apply Forall_forall. intros t T. destruct (proj1 (mx_useful _ _ _ _ _ _ A (view t)) (in_map view _ _ T)) as [(_ & L)|(_ & L)]; apply L.
Qed.

Lemma forall2_perm {A B} (R : A -> B -> Prop) (u v : list B) : Permutation u v ->
  forall ps, Forall2 R ps u -> exists qs, Permutation ps qs /\ Forall2 R qs v.
Proof.
  induction 1 as [|x u v Pm IH|x y u|u v w P1 IH1 P2 IH2]; intros ps X.
  - exists ps. auto.
  - inversion X as [|k ? ks ? HA HB]; subst. destruct (IH _ HB) as (q & Q1 & Q2). exists (k :: q). auto.
  - inversion X as [|k ? ks ? HA HB]; subst. inversion HB as [|k' ? ks' ? HA' HB']; subst. exists (k' :: k :: ks'). split; [constructor|auto].
  - destruct (IH1 _ X) as (q & Q1 & Q2). destruct (IH2 _ Q2) as (q' & Q3 & Q4). exists q'. split; [now transitivity q|exact Q4].
Qed.

(** ** C52 for a hand with nothing on the table. There are the discards that keep the
    distance to the standard shape and those that keep the distance to seven pairs, each
    in some order. The rows put the first discard of one together with the first of the
    other, and so on, as long as both have one: a row names the discard of the standard
    analysis; its faces are those of the nearer shape, or of both. *)
Theorem C52_closed_exactly : forall e p hand players invisible melds t r n1 n2, discards e p hand melds t -> NoDup invisible ->
  table_melds melds = 0 -> reported e p hand players invisible melds = Ok r ->
  distance true standard (hand_counts hand) n1 -> distance true seven_pairs (hand_counts hand) n2 ->
  exists ks1 ks2 pairs,
    NoDup ks1 /\ (forall k, In k ks1 <-> keeps_distance true standard (hand_counts hand) k) /\
    NoDup ks2 /\ (forall k, In k ks2 <-> keeps_distance true seven_pairs (hand_counts hand) k) /\
    Permutation (combine ks1 ks2) pairs /\
    Forall2 (fun ks row => mixed_row hand n1 n2 ks (sh_discard row) (sh_step row) (sh_useful row) /\
              (reds_useless hand (mixed_advances hand n1 n2 ks) -> mixed_count hand (hidden hand invisible) n1 n2 ks (sh_count row))) pairs (rr_merged r).
Proof.
  intros e p hand players invisible melds t r n1 n2 (HP & HD & HW & HM) Ni E0 E D1 D2.
  rewrite table_melds_eq in *. unfold reported in E.
  destruct (report_form e hand players p invisible melds t HD HP HW HM) as (H & tt & mt & HF & EH & _ & _ & _ & _ & _ & R). rewrite R in E.
  pose proof HD as (_ & _ & M & L & _).
  destruct (closed_rows hand H (meld_count melds) (inv_minus invisible hand) HF M L E0) as (m1 & rows1 & m2 & rows2 & l & R1 & R2 & F & Em). rewrite Em in E. cbn [bindr] in E.
  destruct (first_group (sort_items l)); [|discriminate]. cbn [bindr] in E. destruct (choice_row _ _ _ _); [|discriminate]. cbn [bindr] in E.
  destruct (py_nth _ 0); [|discriminate]. cbn [bindr] in E. destruct (wrong_rate _ _ _); [|discriminate]. cbn [bindr] in E. apply Ok_inj in E. subst r. cbn [rr_merged].
  destruct R1 as (D1' & _ & Nd1 & K1 & Sy1 & Ob1), R2 as (D2' & _ & Nd2 & K2 & Sy2 & _).
  assert (m1 = n1) by (eapply distance_unique; eassumption). assert (m2 = n2) by (eapply distance_unique; eassumption). subst m1 m2. clear D1 D2 D1' D2' Em R HW HM.
  set (face_of := fun x => view (ri_discard x)) in *.
  assert (X : Forall2 (mixes hand (inv_minus invisible hand) n1 n2) (combine (map face_of rows1) (map face_of rows2)) l).
  { clear - F Sy1 Sy2 Ob1. revert rows2 l F Sy2. induction Sy1 as [|x rows1 A1 B1 IH]; intros [|y rows2] l F Sy2; cbn [combine] in F; inversion F as [|? z ? l' M1 M2]; subst; cbn [map combine]; try constructor.
    - inversion Sy2; inversion Ob1; subst. cbn [fst snd] in M1. now apply says_mixed.
    - inversion Sy2; inversion Ob1; subst. now apply IH. }
  assert (Y : exists pairs, Permutation (combine (map face_of rows1) (map face_of rows2)) pairs /\ Forall2 (mixes hand (inv_minus invisible hand) n1 n2) pairs (sort_items l)).
  { exact (forall2_perm _ _ _ (sort_items_perm l) _ X). }
  destruct Y as (pairs & Y1 & Y2). exists (map face_of rows1), (map face_of rows2), pairs.
  split; [exact Nd1|]. split; [exact K1|]. split; [exact Nd2|]. split; [exact K2|]. split; [exact Y1|].
  clear - Y2 Ni. induction Y2 as [|k x ps xs A B IH]; cbn [map]; constructor; auto. split.
  - now apply (mixes_row _ (inv_minus invisible hand)).
  - intro nr. destruct (mixes_count _ _ _ _ _ _ (minus_nodup hand invisible Ni) nr A) as (js & C & D). exists js. split; [exact C|].
    eapply counts_ext; [|exact D]. apply hidden_iff.
Qed.
(** ** C54 for such a hand without useful red fives: the report is produced exactly if some of these
    rows has a face that is left among the tiles the player cannot see. *)
Theorem C54_closed_exactly : forall e p hand players invisible melds t n1 n2, discards e p hand melds t -> NoDup invisible ->
  table_melds melds = 0 -> reds_idle (shapes_for 0) hand ->
  distance true standard (hand_counts hand) n1 -> distance true seven_pairs (hand_counts hand) n2 ->
  exists ks1 ks2,
    NoDup ks1 /\ (forall k, In k ks1 <-> keeps_distance true standard (hand_counts hand) k) /\
    NoDup ks2 /\ (forall k, In k ks2 <-> keeps_distance true seven_pairs (hand_counts hand) k) /\
    ((exists r, reported e p hand players invisible melds = Ok r) <->
     exists ks u, In ks (combine ks1 ks2) /\ mixed_advances hand n1 n2 ks (face u) /\ hidden hand invisible u /\ valid_tile u).
Proof.
  intros e p hand players invisible melds t n1 n2 (HP & HD & HW & HM) Ni E0 nr D1 D2.
  rewrite table_melds_eq in *. unfold reported.
  destruct (report_outcome e hand players p invisible melds t HD HP HW HM) as (H & tt & ms & l & d & c & HF & _ & _ & _ & _ & _ & Em & _ & Nl & Fl & _ & _ & _ & R1 & R2).
  pose proof HD as (_ & _ & M & L & _).
  destruct (closed_rows hand H (meld_count melds) (inv_minus invisible hand) HF M L E0) as (m1 & rows1 & m2 & rows2 & l' & S1 & S2 & F & Em').
  rewrite Em in Em'. apply Ok_inj in Em'. unfold report in *.
  destruct S1 as (D1' & _ & Nd1 & K1 & Sy1 & Ob1), S2 as (D2' & _ & Nd2 & K2 & Sy2 & _).
  assert (m1 = n1) by (eapply distance_unique; eassumption). assert (m2 = n2) by (eapply distance_unique; eassumption). subst m1 m2.
  set (face_of := fun x => view (ri_discard x)) in *.
  assert (X : Forall2 (mixes hand (inv_minus invisible hand) n1 n2) (combine (map face_of rows1) (map face_of rows2)) l').
  { clear - F Sy1 Sy2 Ob1. revert rows2 l' F Sy2. induction Sy1 as [|x rows1 A1 B1 IH]; intros [|y rows2] l F Sy2; cbn [combine] in F; inversion F as [|? z ? l' M1 M2]; subst; cbn [map combine]; try constructor.
    - inversion Sy2; inversion Ob1; subst. cbn [fst snd] in M1. now apply says_mixed.
    - inversion Sy2; inversion Ob1; subst. now apply IH. }
  exists (map face_of rows1), (map face_of rows2). split; [exact Nd1|]. split; [exact K1|]. split; [exact Nd2|]. split; [exact K2|].
  assert (NR : forall ks, In ks (combine (map face_of rows1) (map face_of rows2)) -> reds_useless hand (mixed_advances hand n1 n2 ks)).
  { intros [a b] Iab u Iu Ru [[_ A]|[_ A]]; cbn [fst snd] in A.
    - apply (nr standard a (or_introl eq_refl) (proj1 (K1 a) (in_combine_l _ _ _ _ Iab)) u Iu Ru A).
    - apply (nr seven_pairs b (or_intror (or_introl eq_refl)) (proj1 (K2 b) (in_combine_r _ _ _ _ Iab)) u Iu Ru A). }
  assert (RC : forall ks x, In ks (combine (map face_of rows1) (map face_of rows2)) -> mixes hand (inv_minus invisible hand) n1 n2 ks x ->
    (ri_count x <> 0 <-> exists u, mixed_advances hand n1 n2 ks (face u) /\ hidden hand invisible u /\ valid_tile u)).
  { intros ks x Ik Mx. destruct (mixes_count _ _ _ _ _ _ (minus_nodup hand invisible Ni) (NR ks Ik) Mx) as (js & A & q & B & C & Q). rewrite <- Q. split.
    - intro N. destruct q as [|u q]; [now cbn in N|]. destruct (proj1 (C u) (or_introl eq_refl)) as (P & V & Fj). exists u. split; [now apply A|]. split; [now apply hidden_iff|exact V].
    - intros (u & A' & P & V). assert (Iq : In u q) by (apply C; split; [now apply hidden_iff|split; [exact V|now apply A]]). destruct q; [destruct Iq|cbn [length]; lia]. }
  assert (Perm : forall x, In x (sort_items l) <-> In x l').
  { intro x. rewrite <- Em'. split; intro Y; [eapply Permutation_in; [symmetry; apply sort_items_perm|exact Y]|eapply Permutation_in; [apply sort_items_perm|exact Y]]. }
  assert (Lk : forall x, In x l' -> exists ks, In ks (combine (map face_of rows1) (map face_of rows2)) /\ mixes hand (inv_minus invisible hand) n1 n2 ks x).
  { clear - X. induction X as [|k z ps zs A B IH]; intros x [].
    - subst z. exists k. split; [now left|exact A].
    - destruct (IH x H) as (ks & I1 & I2). exists ks. split; [now right|exact I2]. }
  assert (Rk : forall ks, In ks (combine (map face_of rows1) (map face_of rows2)) -> exists x, In x l' /\ mixes hand (inv_minus invisible hand) n1 n2 ks x).
  { clear - X. induction X as [|k z ps zs A B IH]; intros x [].
    - subst k. exists z. split; [now left|exact A].
    - destruct (IH x H) as (y & I1 & I2). exists y. split; [now right|exact I2]. }
  split.
  - intros (r & E). destruct (sort_items l) as [|b rest] eqn:El.
    + assert (l = []) by (apply Permutation_nil; rewrite <- El; symmetry; apply sort_items_perm). rewrite (R1 (proj1 Nl H0)) in E. discriminate.
    + destruct (R2 b rest eq_refl) as [Z0 _]. destruct (Z.eq_dec (ri_count b) 0) as [Z|Z]; [rewrite (Z0 Z) in E; discriminate|].
      destruct (Lk b) as (ks & I1 & I2); [apply Perm; now left|]. apply (RC _ _ I1 I2) in Z. destruct Z as (u & Z). exists ks, u. split; [exact I1|exact Z].
  - intros (ks & u & Ik & Z). destruct (Rk ks Ik) as (x & Ix & Mx).
    assert (Cx : ri_count x <> 0) by (apply (RC _ _ Ik Mx); now exists u). apply Perm in Ix.
    pose proof (sort_items_sorted l) as Sk. destruct (sort_items l) as [|b rest] eqn:El; [destruct Ix|].
    assert (Cb : ri_count b <> 0).
    { destruct Ix as [<-|Ix]; [exact Cx|]. inversion Sk as [|? ? Fk _]; subst. rewrite Forall_forall in Fk. specialize (Fk x Ix).
      rewrite Forall_forall in Fl. assert (Il : forall y, In y (b :: rest) -> In y l) by (intros y Y; eapply Permutation_in; [symmetry; apply sort_items_perm|]; rewrite El; exact Y).
      destruct (Fl b (Il b (or_introl eq_refl))) as [Sb Ub], (Fl x (Il x (or_intror Ix))) as [Sx Ux].
      destruct (useful_count_ok (inv_minus invisible hand) (ri_useful x)) as (cx & Ex & Px). rewrite Ux in Ex. apply Ok_inj in Ex. subst cx.
      unfold key_le, key_of in Fk. cbn [fst snd] in Fk. lia. }
    destruct (R2 b rest eq_refl) as [_ Z1]. destruct (Z1 Cb) as (g & _ & Er). eauto.
Qed.
(** ** C64 for every hand: the rate is never above 1; it is below 0 exactly if the discard made
    has more tiles than the expected row allows. *)
Lemma nothing_unseen u n : useful_count [] u = Ok n -> n = 0.
Proof.
  revert n. induction u as [|x u IH]; intros n E; [now apply Ok_inj in E|]. rewrite useful_count_cons in E. unfold copies in E.
  destruct (tile_to_tenhou_range x) as [q|]; [|discriminate]. cbn [bindr] in E. destruct (useful_count [] u) as [b|]; [|discriminate]. cbn [bindr] in E.
  apply Ok_inj in E. rewrite (IH b eq_refl) in E. subst n. induction (set_of q) as [|y l IHl]; [reflexivity|exact IHl].
Qed.
Theorem C64_range : forall e p hand players invisible melds t r, discards e p hand melds t ->
  reported e p hand players invisible melds = Ok r ->
  (rr_wrong_rate r <= 1)%Q /\
  exists best, In best (rr_expected r) /\
    ((rr_wrong_rate r < 0)%Q <->
     sh_count best * hidden_count hand invisible ^ (sh_step (rr_choice r) - sh_step best) < sh_count (rr_choice r)).
Proof.
  intros e p hand players invisible melds t r T E. pose proof (C64_formula e p hand players invisible melds t r T E) as (best & Ib & Pb & Ps & Q).
  destruct T as (HP & HD & HW & HM). rewrite table_melds_eq in *. unfold reported in E.
  destruct (report_outcome e hand players p invisible melds t HD HP HW HM) as (H & tt & ms & l & d & c & _ & _ & _ & _ & _ & _ & _ & _ & Nl & Fl & _ & Sc & St & R1 & R2).
  unfold report in *. destruct (sort_items l) as [|b rest] eqn:El.
  { assert (l = []) by (apply Permutation_nil; rewrite <- El; symmetry; apply sort_items_perm). rewrite (R1 (proj1 Nl H0)) in E. discriminate. }
  assert (Ibl : In b l) by (eapply Permutation_in; [symmetry; apply sort_items_perm|]; rewrite El; now left).
  rewrite Forall_forall in Fl. destruct (Fl b Ibl) as [Sb Ub].
  destruct (R2 b rest eq_refl) as [Z0 Z1]. destruct (Z.eq_dec (ri_count b) 0) as [Z|Z]; [rewrite (Z0 Z) in E; discriminate|].
  assert (Hc : 0 < hidden_count hand invisible).
  { unfold hidden_count. change (filter _ invisible) with (inv_minus invisible hand). destruct (inv_minus invisible hand) as [|i u]; [|cbn [length]; lia].
    apply nothing_unseen in Ub. contradiction. }
  assert (Pc : 0 <= sh_count (rr_choice r)).
  { destruct (Z1 Z) as (g & _ & Er). rewrite Er in E. apply Ok_inj in E. subst r. cbn [rr_choice norm sh_count].
    destruct (useful_count_ok (inv_minus invisible hand) (ri_useful c)) as (cc & Ecc & Pcc). rewrite (sa_count _ _ _ _ Sc) in Ecc. apply Ok_inj in Ecc. now subst cc. }
  set (D := sh_count best * hidden_count hand invisible ^ (sh_step (rr_choice r) - sh_step best)) in *.
  assert (PD : 0 < D) by (apply Z.mul_pos_pos; [exact Pb|apply Z.pow_pos_nonneg; lia]).
  assert (QD : (0 < inject_Z D)%Q) by (unfold Qlt; cbn; lia).
  set (a := sh_count (rr_choice r)) in *. split.
  - rewrite Q. assert (0 <= inject_Z a / inject_Z D)%Q by (apply Qle_shift_div_l; [exact QD|]; rewrite Qmult_0_l; unfold Qle; cbn; lia).
    apply (Qplus_le_l _ _ (inject_Z a / inject_Z D)). ring_simplify. rewrite <- (Qplus_0_l 1) at 1. now apply Qplus_le_l.
  - exists best. split; [exact Ib|]. fold D. rewrite Q. split.
    + intro N. destruct (Z_lt_le_dec D a) as [L|L]; [exact L|exfalso]. destruct (Qdiv_bounds a D (conj Pc L) PD) as [B _].
      exact (Qlt_irrefl _ (Qle_lt_trans _ _ _ B N)).
    + intro N. assert (1 < inject_Z a / inject_Z D)%Q by (apply Qlt_shift_div_l; [exact QD|]; rewrite Qmult_1_l, <- Zlt_Qlt; exact N).
      apply (Qplus_lt_l _ _ (inject_Z a / inject_Z D)). ring_simplify. exact H0.
Qed.
(** The six pairs of C52_refuted meet the hypotheses; there seven pairs is nearer, so every row
    names a discard of one analysis with the faces of the other. *)
Example C52_closed_exactly_case : discards (drop 108) 0 six_pairs [] 108 /\ NoDup everything /\ table_melds [] = 0 /\
  (exists r, reported (drop 108) 0 six_pairs 4 everything [] = Ok r /\ rr_merged r <> []) /\
  exists n1 n2, distance true standard (hand_counts six_pairs) n1 /\ distance true seven_pairs (hand_counts six_pairs) n2 /\ (n2 < n1)%nat.
Proof.
  assert (T : discards (drop 108) 0 six_pairs [] 108) by (apply discards_checked; vm_compute; reflexivity).
  split; [exact T|]. split; [exact everything_nodup|]. split; [reflexivity|]. split.
  - eexists. split; [vm_compute; reflexivity|]. discriminate.
  - destruct T as (_ & (N & V & M & L & _) & _). destruct (hand_tiles_facts six_pairs N V) as (H & EH & HF).
    destruct (h_both_spec (Standard 1 4) (re_sort H)) as (n1 & t1 & D1 & E1 & _); [apply (re_sort_facts _ _ HF)|apply (re_sort_facts _ _ HF)|apply (shapes_size six_pairs 0 _ _ (re_sort_facts _ _ HF)); [lia|exact L|now left]|].
    destruct (h_both_spec (DistinctPairs 7) (re_sort H)) as (n2 & t2 & D2 & E2 & _); [apply (re_sort_facts _ _ HF)|apply (re_sort_facts _ _ HF)|apply (shapes_size six_pairs 0 _ _ (re_sort_facts _ _ HF)); [lia|exact L|now right; left]|].
    exists n1, n2. split; [eapply distance_ext; [|exact D1]; apply (hf_count _ _ (re_sort_facts _ _ HF))|]. split; [eapply distance_ext; [|exact D2]; apply (hf_count _ _ (re_sort_facts _ _ HF))|].
    vm_compute in EH. apply Ok_inj in EH. subst H.
    assert (Q : match h_both (pattern_of (Standard 1 4)) (re_sort (match hand_tiles six_pairs with Ok h => h | Err _ => [] end)) true,
                      h_both (pattern_of (DistinctPairs 7)) (re_sort (match hand_tiles six_pairs with Ok h => h | Err _ => [] end)) true
                with Ok (w, _), Ok (v, _) => v <? w | _, _ => false end = true) by (vm_compute; reflexivity).
    match type of E1 with h_both _ ?hh _ = _ => change (re_sort (match hand_tiles six_pairs with Ok h => h | Err _ => [] end)) with hh in Q end.
    rewrite E1, E2 in Q. apply Z.ltb_lt in Q. lia.
Qed.
Print Assumptions C52_closed_exactly.
Print Assumptions C54_closed_exactly.
Print Assumptions C64_range.
