(** Property C21, exactly: what PatternMatchWaiting.waiting_and_useful_tiles answers for a hand
    that is already complete. Vocabulary in Spec_Complete.v. *)
From Verif Require Import Base Category Tile TileSet Spec_Tile TileSetFacts Win Spec_Win WinFacts WinProofs Waiting Spec_Waiting WaitingFacts WaitingPM Spec_Hand WaitingTop CheckerHand CheckerTexts Spec_Complete Prop_Waiting.
From Coq Require Import List ZArith Lia Bool Permutation.
Import ListNotations.
Open Scope list_scope.
Open Scope Z_scope.

Lemma in_count k l : In k l <-> 0 < count_kind k l.
Proof. rewrite count_kind_occ. rewrite (count_occ_In kind_eq_dec). lia. Qed.
Lemma missing_length h us l : Forall legal_unit us -> (forall k, 0 <= h k) -> (forall k, count_kind k l = Z.max 0 (uses us k - h k)) -> Z.of_nat (length l) = defic h us.
Proof.
  intros L N E. assert (F : Forall legal_kind l).
  { apply Forall_forall. intros k I. apply in_count in I. rewrite E in I. specialize (N k). apply (uses_legal us); [exact L|lia]. }
  rewrite <- sumK_count by exact F. unfold defic. apply sumZ_ext. intros k _. rewrite E. reflexivity.
Qed.
Section Hand.
Variables (s : shape) (hand : tset).
Hypothesis (H : hand_ok hand) (F : four_max hand).
Let h := face_count hand.
Lemma h_getk k : getk hand k = h k.
Proof. unfold h. now apply hand_ok_fc. Qed.
Lemma h_nonneg k : 0 <= h k.
Proof. rewrite <- h_getk. destruct (hand_ok_good _ H) as (_ & _ & N). apply N. Qed.
Lemma h_okh : okh true (getk hand).
Proof. apply okl_okh. split; auto. Qed.
Lemma defic_h us : defic (getk hand) us = defic h us.
Proof. unfold defic. apply sumZ_ext. intros k _. unfold miss. now rewrite h_getk. Qed.
Lemma lacks_of us : forms s us -> (forall k, uses us k <= 4) -> exists l, lacks s h l /\ Z.of_nat (length l) = defic h us /\ forall k, In k l <-> h k < uses us k.
Proof.
  intros Fm A. assert (L : Forall legal_unit us) by apply Fm. exists (missing_list h us).
  assert (E : forall k, count_kind k (missing_list h us) = Z.max 0 (uses us k - h k)) by (intros k; rewrite count_missing by (auto; apply h_nonneg); reflexivity).
  split; [exists us; auto|]. split; [apply missing_length; auto; apply h_nonneg|]. intros k. rewrite in_count, E. lia.
Qed.
Definition found (need : nat) : list tile := union_borrowed (pm_search (pattern_of s) hand (Z.of_nat need) true).
Lemma found_in need k : In k (faces (found need)) <-> exists l, lacks s h l /\ (length l <= need)%nat /\ In k l.
Proof.
  unfold found, faces. rewrite union_borrowed_in. split.
  - intros ([sel b] & I1 & K). cbn [snd] in K. destruct (pm_search_sound s hand _ true sel b (hand_ok_good _ H) h_okh I1) as (us & _ & B & C & D & E).
    rewrite defic_h in D. apply (bspec_key _ _ _ _ E) in K. rewrite h_getk in K. destruct (lacks_of us B (C eq_refl)) as (l & La & Le & Li).
    exists l. split; [exact La|]. split; [lia|]. now apply Li.
  - intros (l & (us & B & C & E) & Le & I1).
    assert (D : Z.of_nat (length l) = defic h us) by (apply missing_length; auto; [apply B|apply h_nonneg]).
    destruct (pm_search_complete s hand (Z.of_nat need) true us (hand_ok_good _ H) h_okh B (fun _ => C)) as (us' & b & P & I2); [rewrite defic_h; lia|].
    exists (map unit_ts us', b). split; [exact I2|]. cbn [snd].
    destruct (pm_search_sound s hand _ true _ b (hand_ok_good _ H) h_okh I2) as (us2 & E1 & _ & _ & _ & E2). apply map_unit_ts_inj in E1. subst us2.
    apply (bspec_key _ _ _ _ E2). rewrite <- (uses_perm _ _ k P), h_getk. apply in_count in I1. rewrite E in I1. lia.
Qed.
Lemma found_nil need : found need = [] <-> forall l, lacks s h l -> (length l <= need)%nat -> l = [].
Proof.
  split.
  - intros E l La Le. destruct l as [|k l]; [reflexivity|]. assert (X : In k (faces (found need))) by (apply found_in; exists (k :: l); split; [exact La|split; [exact Le|now left]]).
    rewrite E in X. destruct X.
  - intros E. destruct (found need) as [|t r] eqn:Q; [reflexivity|]. assert (X : In (view t) (faces (found need))) by (rewrite Q; now left).
    apply found_in in X. destruct X as (l & La & Le & I1). rewrite (E l La Le) in I1. destruct I1.
Qed.
Lemma loop_eq need f : pm_both_loop (S f) (pattern_of s) hand true need = match found need with t :: r => Ok (Z.of_nat need - 1, t :: r) | [] => pm_both_loop f (pattern_of s) hand true (S need) end.
Proof. reflexivity. Qed.
Lemma answers_nearest n : nearest_other s h n ->
  returns (fun fuel => pm_both fuel (pattern_of s) hand true) (Z.of_nat n - 1, found n) /\
  forall k, In k (faces (found n)) <-> exists l, lacks s h l /\ length l = n /\ In k l.
Proof.
  intros (N0 & (l0 & L0 & E0) & Mn). split.
  - exists (S n). intros fuel Hf. unfold pm_both.
    assert (G : forall fuel need, (need <= n)%nat -> (n < need + fuel)%nat -> pm_both_loop fuel (pattern_of s) hand true need = Ok (Z.of_nat n - 1, found n)).
    { induction fuel0 as [|f IH]; intros need A B; [lia|]. rewrite loop_eq. destruct (Nat.eq_dec need n) as [->|Q].
      - destruct (found n) as [|t r] eqn:E; [|reflexivity]. exfalso. assert (X : l0 = []) by (apply (proj1 (found_nil n) E); [exact L0|lia]). subst l0. cbn in E0. lia.
      - rewrite (proj2 (found_nil need)); [apply IH; lia|]. intros l La Le. destruct l as [|k l]; [reflexivity|]. exfalso. assert (n <= length (k :: l))%nat by (apply Mn; [exact La|discriminate]). lia. }
    apply G; lia.
  - intros k. rewrite found_in. split.
    + intros (l & La & Le & I1). exists l. split; [exact La|]. split; [|exact I1]. assert (n <= length l)%nat by (apply Mn; [exact La|intros ->; destruct I1]). lia.
    + intros (l & La & Le & I1). exists l. split; [exact La|]. split; [lia|exact I1].
Qed.
Lemma never : (forall l, lacks s h l -> l = []) -> diverges (fun fuel => pm_both fuel (pattern_of s) hand true).
Proof.
  intros E fuel. unfold pm_both. generalize 0%nat. induction fuel as [|f IH]; intros need; [reflexivity|]. rewrite loop_eq.
  rewrite (proj2 (found_nil need)); [apply IH|]. intros l La _. now apply E.
Qed.
(** Some face is not in the hand, and a pair of it can replace a pair. *)
Lemma free_face : hand_size hand < 34 -> exists f, legal_kind f /\ h f = 0.
Proof.
  intros S0. assert (T : sumK h = hand_size hand).
  { destruct (hand_ok_good _ H) as (W & L & _). transitivity (total hand); [rewrite total_sumK by auto; unfold sumK; apply sumZ_ext; intros k _; symmetry; apply h_getk|reflexivity]. }
  assert (G : forall l, sumZ h l < Z.of_nat (length l) -> exists f, In f l /\ h f = 0).
  { induction l as [|k l IH]; cbn [sumZ length]; intros Q; [lia|]. destruct (Z.eq_dec (h k) 0) as [Z0|Z0]; [exists k; split; [now left|exact Z0]|].
    pose proof (h_nonneg k). destruct IH as (f & A & B); [lia|]. exists f. split; [now right|exact B]. }
  destruct (G KINDS) as (f & A & B); [change (sumZ h KINDS) with (sumK h); rewrite T; change (Z.of_nat (length KINDS)) with 34; exact S0|]. exists f. split; [now apply KINDS_legal|exact B].
Qed.
Lemma split_pair us : forms s us -> has_pair s -> exists a k b, us = a ++ UPair k :: b.
Proof.
  intros [L Fm] P. assert (X : exists u, In u us /\ is_pair u = true).
  { destruct s as [p m|n]; cbn [has_pair] in P.
    - destruct Fm as [Fp _]. destruct (filter is_pair us) as [|u r] eqn:E; [cbn in Fp; lia|]. exists u. apply filter_In. rewrite E. now left.
    - destruct Fm as (A & _ & B). destruct us as [|u r]; [cbn in B; lia|]. exists u. split; [now left|]. now inversion A. }
  destruct X as (u & I1 & Pu). destruct u as [k| |]; try discriminate. apply in_split in I1. destruct I1 as (a & b & ->). eauto.
Qed.
Lemma uses_middle a u b k : uses (a ++ u :: b) k = uses a k + count_kind k (unit_kinds u) + uses b k.
Proof. unfold uses. rewrite flat_map_app. cbn [flat_map]. unfold count_kind. rewrite !sumZ_app. lia. Qed.
Lemma replaced a k b f : forms s (a ++ UPair k :: b) -> legal_kind f -> ~ In f (map pair_face (a ++ b)) -> forms s (a ++ UPair f :: b).
Proof.
  intros [L Fm] Lf Nf. split.
  - apply Forall_app in L. destruct L as [A B]. apply Forall_app. split; [exact A|]. inversion B; subst. now constructor.
  - destruct s as [p m|n].
    + rewrite !filter_app, !app_length in *. cbn [filter is_pair negb length] in *. exact Fm.
    + destruct Fm as (A & B & C). split; [|split].
      * apply Forall_app in A. destruct A as [A1 A2]. apply Forall_app. split; [exact A1|]. inversion A2; subst. now constructor.
      * rewrite map_app in *. cbn [map pair_face] in *. apply NoDup_remove in B. destruct B as [B _].
        apply NoDup_Add with (a := f) (l := map pair_face a ++ map pair_face b); [apply Add_app|]. split; [exact B|exact Nf].
      * rewrite !app_length in *. cbn [length] in *. exact C.
Qed.
End Hand.

(** ** C21 *)
Theorem C21_complete : forall s hand, hand_ok hand -> four_max hand ->
  (forall n, nearest_other s (face_count hand) n ->
     exists ts, returns (fun fuel => pm_both fuel (pattern_of s) hand true) (Z.of_nat n - 1, ts) /\
       forall k, In k (faces ts) <-> exists missing, lacks s (face_count hand) missing /\ length missing = n /\ In k missing) /\
  ((forall missing, lacks s (face_count hand) missing -> missing = []) -> diverges (fun fuel => pm_both fuel (pattern_of s) hand true)).
Proof.
  intros s hand H F. split; [|now apply never]. intros n N. exists (found s hand n). now apply answers_nearest.
Qed.
(** A complete hand of up to 33 tiles is taken for a ready hand, or for one that is one step from ready. *)
Theorem C21_complete_usual : forall s hand, hand_ok hand -> four_max hand -> wins s (face_count hand) -> has_pair s -> hand_size hand < 34 ->
  exists v, (v = 0 \/ v = 1)%nat /\ nearest_other s (face_count hand) (S v) /\
    exists ts, returns (fun fuel => pm_both fuel (pattern_of s) hand true) (Z.of_nat v, ts).
Proof.
  intros s hand H F (us & Fm & W) P S0.
  destruct (free_face hand H S0) as (f & Lf & Zf). destruct (split_pair s us Fm P) as (a & k & b & ->).
  assert (Uf : forall l, (forall u, In u l -> In u (a ++ UPair k :: b)) -> uses l f = 0).
  { intros l I1. apply uses_zero. intros u Iu. specialize (I1 u Iu). apply in_split in I1. destruct I1 as (x & y & E). specialize (W f). rewrite E in W.
    rewrite uses_middle in W. pose proof (uses_nonneg x f). pose proof (uses_nonneg y f). pose proof (use1_nonneg u f). unfold use1 in *. lia. }
  assert (Nf : ~ In f (map pair_face (a ++ b))).
  { intros I1. apply in_map_iff in I1. destruct I1 as (u & E & Iu). assert (U : use1 u f = 0).
    { pose proof (Uf [u]) as X. unfold uses, use1 in *. cbn [flat_map] in X. rewrite app_nil_r in X. apply X. intros x [<-|[]]. apply in_or_app. apply in_app_or in Iu. destruct Iu; [now left|right; now right]. }
    unfold use1 in U. assert (V : 0 < count_kind f (unit_kinds u)); [|lia]. apply in_count. destruct u as [q|c n|q]; cbn [pair_face unit_kinds] in *; subst; now left. }
  set (us' := a ++ UPair f :: b). assert (Fm' : forms s us') by now apply (replaced s a k b f).
  assert (Ua : uses a f = 0) by (apply Uf; intros; apply in_or_app; now left).
  assert (Ub : uses b f = 0) by (apply Uf; intros; apply in_or_app; right; now right).
  assert (Mid : forall j, uses us' j = uses a j + count_kind j [f; f] + uses b j) by (intros j; unfold us'; apply uses_middle).
  assert (Cf : forall j, count_kind j [f; f] = if kind_eqb f j then 2 else 0).
  { intros j. unfold count_kind. cbn [sumZ]. rewrite same_kind_eqb. destruct (kind_eqb f j); reflexivity. }
  assert (Lk : lacks s (face_count hand) [f; f]).
  { exists us'. split; [exact Fm'|]. split; intros j; rewrite ?Mid, Cf; pose proof (W j) as Wj; rewrite uses_middle in Wj; pose proof (F j) as Fj;
      pose proof (use1_nonneg (UPair k) j) as Uk; unfold use1 in Uk; destruct (kind_eqb f j) eqn:Q;
      [apply kind_eqb_eq in Q; subst j; rewrite Ua, Ub; lia|lia|apply kind_eqb_eq in Q; subst j; rewrite Ua, Ub, Zf; reflexivity|lia]. }
  assert (Nn : exists v, (v = 0 \/ v = 1)%nat /\ nearest_other s (face_count hand) (S v)).
  { destruct (found s hand 1) as [|t r] eqn:E.
    - exists 1%nat. split; [now right|]. split; [discriminate|]. split; [exists [f; f]; auto|]. intros l La Ne.
      destruct l as [|x [|y l]]; [congruence| |cbn [length]; lia]. exfalso. assert (X : [x] = []) by (apply (proj1 (found_nil s hand H F 1) E); [exact La|reflexivity]). discriminate.
    - exists 0%nat. split; [now left|]. split; [discriminate|]. split.
      + assert (I1 : In (view t) (faces (found s hand 1))) by (rewrite E; now left). apply (found_in s hand H F) in I1. destruct I1 as (l & La & Le & I1). exists l. split; [exact La|]. destruct l; [destruct I1|cbn [length] in *; lia].
      + intros l La Ne. destruct l; [congruence|cbn [length]; lia]. }
  destruct Nn as (v & V & Nn). exists v. split; [exact V|]. split; [exact Nn|]. destruct (C21_complete s hand H F) as [X _]. destruct (X _ Nn) as (ts & R & _). exists ts.
  replace (Z.of_nat v) with (Z.of_nat (S v) - 1) by lia. exact R.
Qed.
(** A complete hand for which the answer is 0 (ready), waiting for 4m or 1m. *)
Example C21_complete_case : exists ts, pm_both 3 (pattern_of (Standard 1 1)) [(Plain 1 Cz, 2); (Plain 1 Cm, 1); (Plain 2 Cm, 1); (Plain 3 Cm, 1)] true = Ok (0, ts) /\
  In (Plain 4 Cm) ts /\ ~ In (Plain 5 Cm) ts.
Proof. eexists. split; [vm_compute; reflexivity|]. split; [cbn; tauto|cbn; intuition discriminate]. Qed.
Print Assumptions C21_complete.
Print Assumptions C21_complete_usual.
