(** C11-C16: winning shapes. Final statements. *)
From Verif Require Import Base Tile TileSet Spec_Tile TileSetFacts Win Spec_Win WinFacts WinProofs WaitingFacts TileSetOps Distinct Spec_Distinct DistinctProofs Spec_Hand WaitingTop.
From Coq Require Import List ZArith Lia Bool Permutation Sorted.
Import ListNotations.
Open Scope Z_scope.

Lemma shows_unit : forall u, shows (unit_ts u) u.
Proof.
  intros u. split; [exact (unit_ts_wf u)|]. split; [exact (unit_ts_allpos u)|].
  intros k. rewrite face_count_getk by apply unit_ts_wf. apply unit_ts_getk.
Qed.
Lemma shows_inv : forall u v, shows (unit_ts u) v -> u = v.
Proof.
  intros u v (_ & _ & H). apply unit_eqb. apply ts_eqb_spec; auto using unit_ts_wf, unit_ts_allpos.
  intros k. rewrite <- face_count_getk by apply unit_ts_wf. rewrite H. symmetry. apply unit_ts_getk.
Qed.
Lemma represents_map : forall us, represents (map unit_ts us) us.
Proof. induction us as [|u us IH]; constructor; auto using shows_unit. Qed.
Lemma represents_inv : forall us vs, represents (map unit_ts us) vs -> us = vs.
Proof.
  induction us as [|u us IH]; intros vs H; cbn [map] in H; inversion H; subst; auto.
  f_equal; [now apply shows_inv|now apply IH].
Qed.
Lemma fits_fc : forall hand us, hand_ok hand -> (fits us (face_count hand) <-> fits us (getk hand)).
Proof. intros. unfold fits. split; intros F k; [rewrite hand_ok_fc|rewrite <- hand_ok_fc]; auto. Qed.

(** C11. [NormalTypeWin(pairs, melds).match(hand)]. *)
Theorem C11_standard_match : forall pairs melds hand, hand_ok hand ->
  (match_ (NormalTypeWin pairs melds) hand = true <-> wins (Standard pairs melds) (face_count hand)).
Proof.
  intros pairs melds hand H. rewrite match_iff by now apply hand_ok_good. unfold wins.
  split; intros (us & A & B); exists us.
  - split; [now apply (sh_forms (Standard pairs melds))|now apply fits_fc].
  - split; [now apply (sh_forms (Standard pairs melds)) in A|now apply fits_fc in B].
Qed.

(** 11m 234m 567p with a red five, 999s 77z: two pairs and three melds, or less. *)
Definition ex_hand : tset :=
  [(Plain 7 Cz, 2); (Aka Cp, 1); (Plain 6 Cp, 1); (Plain 7 Cp, 1); (Plain 1 Cm, 2); (Plain 2 Cm, 1);
   (Plain 3 Cm, 1); (Plain 4 Cm, 1); (Plain 9 Cs, 3); (Plain 5 Cs, 0)].
Example C11_example : hand_ok ex_hand /\ match_ (NormalTypeWin 2 3) ex_hand = true /\
  match_ (NormalTypeWin 1 3) ex_hand = true /\ match_ (NormalTypeWin 1 4) ex_hand = false.
Proof.
  split; [|repeat split; vm_compute; reflexivity].
  split; [repeat constructor; cbn; intuition congruence|].
  repeat constructor; cbn; lia.
Qed.

(** C12. [UniquePairs(n).match(hand)]. *)
Theorem C12_distinct_pairs_match : forall n hand, hand_ok hand ->
  (match_ (UniquePairs n []) hand = true <->
   exists ks, NoDup ks /\ Z.of_nat (length ks) = n /\ Forall (fun k => 2 <= face_count hand k) ks).
Proof.
  intros n hand H. rewrite match_iff by now apply hand_ok_good. split.
  - intros (us & S & F). apply (sh_forms (DistinctPairs n)) in S. destruct S as (L & Pr & N & Len).
    exists (map pair_face us). split; [auto|]. split; [now rewrite map_length|].
    apply Forall_map, Forall_forall. intros u I. rewrite Forall_forall in Pr. specialize (Pr u I).
    destruct u as [k| |]; try discriminate. cbn [pair_face]. rewrite <- hand_ok_fc by auto.
    eapply Z.le_trans; [|apply F]. eapply Z.le_trans; [|apply uses_in_le; exact I].
    unfold use1, count_kind. cbn [unit_kinds sumZ]. rewrite same_kind_eqb, kind_eqb_refl. lia.
  - intros (ks & N & Len & F). exists (map UPair ks). split.
    + apply (sh_forms (DistinctPairs n)). split; [|split; [|split]].
      * apply Forall_map. rewrite Forall_forall in *. intros k I. specialize (F k I). cbn [legal_unit].
        rewrite <- hand_ok_fc in F by auto. destruct (getk_nonzero_in hand k) as (t & V & J); [lia|].
        destruct H as [_ H]. rewrite Forall_forall in H. destruct (H _ J) as [H1 _]. cbn [fst] in H1. now rewrite V in H1.
      * apply Forall_map, Forall_forall. reflexivity.
      * rewrite map_map. cbn [pair_face]. now rewrite map_id.
      * now rewrite map_length.
    + intros k. destruct (in_dec kind_eq_dec k ks) as [I|I].
      * rewrite Forall_forall in F. specialize (F k I). rewrite <- hand_ok_fc in F by auto.
        assert (U : forall l, NoDup l -> uses (map UPair l) k <= 2).
        { induction l as [|x l IH]; intros Nl; cbn [map]; [rewrite uses_nil; lia|]. inversion Nl as [|? ? X Y]; subst.
          rewrite uses_cons. unfold use1, count_kind. cbn [unit_kinds sumZ]. rewrite same_kind_eqb.
          destruct (kind_eqb x k) eqn:E; [|specialize (IH Y); lia]. apply kind_eqb_eq in E. subst x.
          enough (uses (map UPair l) k = 0) by lia. clear - X. induction l as [|y l IH]; cbn [map]; [apply uses_nil|].
          rewrite uses_cons, IH by (intros Z; apply X; right; auto). unfold use1, count_kind. cbn [unit_kinds sumZ].
          rewrite same_kind_eqb. replace (kind_eqb y k) with false; [lia|]. symmetry. apply kind_eqb_neq. intros ->.
          apply X. left. auto. }
        specialize (U ks N). lia.
      * assert (Z0 : uses (map UPair ks) k = 0).
        { clear - I. induction ks as [|y l IH]; cbn [map]; [apply uses_nil|].
          rewrite uses_cons, IH by (intros Z; apply I; right; auto). unfold use1, count_kind. cbn [unit_kinds sumZ].
          rewrite same_kind_eqb. replace (kind_eqb y k) with false; [lia|]. symmetry. apply kind_eqb_neq. intros ->.
          apply I. left. auto. }
        rewrite Z0. apply (hand_ok_good _ H).
Qed.
Example C12_example : hand_ok ex_hand /\ match_ (UniquePairs 3 []) ex_hand = true /\ match_ (UniquePairs 4 []) ex_hand = false.
Proof. split; [apply C11_example|]. split; vm_compute; reflexivity. Qed.

(** C13. [win_selections(hand)] of both patterns ([pattern_of s] is NormalTypeWin(p, m) for
    [Standard p m] and UniquePairs(n) for [DistinctPairs n]). *)
Theorem C13_selections_sound : forall s hand sel, hand_ok hand ->
  In sel (win_selections (pattern_of s) hand) ->
  exists us, represents sel us /\ forms s us /\ fits us (face_count hand).
Proof.
  intros s hand sel H I. destruct (win_selections_sound _ hand sel (hand_ok_good _ H) I) as (us & -> & A & B).
  exists us. split; [apply represents_map|]. split; [now apply sh_forms|now apply fits_fc].
Qed.
Theorem C13_selections_complete : forall s hand us, hand_ok hand -> forms s us -> fits us (face_count hand) ->
  exists sel us', In sel (win_selections (pattern_of s) hand) /\ represents sel us' /\ Permutation us us'.
Proof.
  intros s hand us H A B. apply fits_fc in B; auto. apply sh_forms in A.
  destruct (win_selections_complete _ hand us (hand_ok_good _ H) A B) as (us' & P & I).
  exists (map unit_ts us'), us'. split; auto. split; auto using represents_map.
Qed.
Example C13_example : length (win_selections (NormalTypeWin 1 3) ex_hand) = 3%nat /\
  forms (Standard 1 3) [UPair (Cz, 7); URun Cp 5; URun Cm 1; UTrip (Cs, 9)] /\
  fits [UPair (Cz, 7); URun Cp 5; URun Cm 1; UTrip (Cs, 9)] (face_count ex_hand).
Proof.
  split; [vm_compute; reflexivity|]. split.
  - split; [repeat constructor; cbn; try lia; discriminate|]. split; reflexivity.
  - intros k. destruct (in_dec kind_eq_dec k KINDS) as [I|I].
    + apply Z.leb_le. revert k I. apply (proj1 (forallb_forall _ KINDS)). vm_compute. reflexivity.
    + assert (forall us, Forall legal_unit us -> uses us k = 0) as ->.
      { intros us L. destruct (Z.eq_dec (uses us k) 0) as [|N]; auto. exfalso. apply I, KINDS_legal.
        apply (uses_legal us); auto. pose proof (uses_nonneg us k). lia. }
      * rewrite <- hand_ok_fc by apply C11_example. apply hand_ok_good, C11_example.
      * repeat constructor; cbn; try lia; discriminate.
Qed.

(** C14. [unique_win_selections(hand)]: every selection is a sorted decomposition, and for
    every decomposition exactly one position of the output shows it (in some order). *)
Theorem C14_unique_sound : forall s hand sel, hand_ok hand ->
  In sel (unique_win_selections (pattern_of s) hand) ->
  (exists us, represents sel us /\ forms s us /\ fits us (face_count hand)) /\
  StronglySorted (fun a b => ts_ltb b a = false) sel.
Proof.
  intros s hand sel H I. destruct (unique_sound _ hand sel (hand_ok_good _ H) I) as (us & -> & A & B & C).
  split; auto. exists us. split; [apply represents_map|]. split; [now apply sh_forms|now apply fits_fc].
Qed.
Theorem C14_unique_exactly_once : forall s hand us, hand_ok hand -> forms s us -> fits us (face_count hand) ->
  exists i,
    (exists sel us', nth_error (unique_win_selections (pattern_of s) hand) i = Some sel /\
       represents sel us' /\ Permutation us us') /\
    forall j sel us', nth_error (unique_win_selections (pattern_of s) hand) j = Some sel ->
       represents sel us' -> Permutation us us' -> j = i.
Proof.
  intros s hand us H A B. apply fits_fc in B; auto. apply sh_forms in A.
  destruct (unique_complete _ hand us (hand_ok_good _ H) A B) as (vs & P & I).
  destruct (In_nth_error _ _ I) as (i & E). exists i. split.
  - exists (map unit_ts vs), vs. split; auto. split; auto using represents_map.
  - intros j sel us' E' R P'. destruct (unique_sound _ hand sel (hand_ok_good _ H) (nth_error_In _ _ E')) as (ws & -> & _).
    apply represents_inv in R. subst ws. eapply unique_once; eauto using hand_ok_good.
    rewrite <- P', <- P. reflexivity.
Qed.
(** 111222333m: three triplets or three runs, one selection each; win_selections alone lists more. *)
Definition ex_hand2 : tset := [(Plain 3 Cm, 3); (Plain 1 Cm, 3); (Plain 2 Cm, 3)].
Example C14_example : hand_ok ex_hand2 /\ length (unique_win_selections (NormalTypeWin 0 3) ex_hand2) = 2%nat.
Proof.
  split; [|vm_compute; reflexivity]. split; repeat constructor; cbn; intuition (try congruence; lia).
Qed.

(** C15. [distinct(xs)] for items whose comparisons form a total order (modulo [!=]). *)
Theorem C15_distinct_first_occurrences : forall A (P : A -> Prop) lt ne (d : A) xs,
  total_order P lt ne -> Forall P xs -> distinct lt ne d xs = first_occurrences ne [] xs.
Proof. intros. eapply distinct_spec; eauto. Qed.
(** The result has no two equal items and every item equals one in the result. *)
Theorem C15_distinct_no_duplicates : forall A (P : A -> Prop) lt ne (d : A) xs,
  total_order P lt ne -> Forall P xs ->
  ForallOrdPairs (fun x y => ne x y = true) (distinct lt ne d xs) /\
  (forall x, In x (distinct lt ne d xs) -> In x xs) /\
  (forall x, In x xs -> exists y, In y (distinct lt ne d xs) /\ ne y x = false).
Proof.
  intros A P lt ne d xs T F. rewrite (distinct_spec P lt ne d T xs F). split; [apply first_pairwise|]. split.
  - intros x. apply first_in.
  - intros x I. destruct (first_covers P lt ne T xs [] x F ltac:(constructor) I) as [(y & [] & _)|H]; auto.
Qed.
Lemma Z_total : total_order (fun _ => True) Z.ltb (fun a b => negb (a =? b)).
Proof.
  split; intros.
  - apply Z.ltb_irrefl.
  - apply Z.ltb_lt in H2, H3. apply Z.ltb_lt. lia.
  - rewrite negb_true_iff, Z.eqb_neq, !Z.ltb_lt. lia.
  - apply negb_false_iff, Z.eqb_eq in H2. subst. auto.
Qed.
Example C15_example : distinct Z.ltb (fun a b => negb (a =? b)) 0 [3; 1; 3; 2; 1; 7] = [3; 1; 2; 7].
Proof. rewrite (C15_distinct_first_occurrences Z (fun _ => True)); [reflexivity|apply Z_total|]. apply Forall_forall; auto. Qed.

(** C16. *)
Theorem C16_match_monotone : forall s a b, hand_ok a -> hand_ok b ->
  (forall k, face_count a k <= face_count b k) ->
  match_ (pattern_of s) a = true -> match_ (pattern_of s) b = true.
Proof.
  intros s a b A B L M. rewrite match_iff in * by now apply hand_ok_good. destruct M as (us & S & F). exists us.
  split; auto. intros k. specialize (F k). specialize (L k). rewrite (hand_ok_fc b B), (hand_ok_fc a A) in *. lia.
Qed.
Theorem C16_match_counts_only : forall s a b, hand_ok a -> hand_ok b ->
  (forall k, face_count a k = face_count b k) -> match_ (pattern_of s) a = match_ (pattern_of s) b.
Proof.
  intros s a b A B E.
  pose proof (C16_match_monotone s a b A B (fun k => Z.eq_le_incl _ _ (E k))) as X.
  pose proof (C16_match_monotone s b a B A (fun k => Z.eq_le_incl _ _ (eq_sym (E k)))) as Y.
  destruct (match_ (pattern_of s) a), (match_ (pattern_of s) b); auto; symmetry; auto.
Qed.
(** [match] sorts the hand object in place; its counts stay. *)
Theorem C16_match_keeps_counts : forall hand k, hand_ok hand ->
  face_count (win_selections_effect hand) k = face_count hand k.
Proof.
  intros hand k H. unfold win_selections_effect. pose proof (hand_ok_good _ H) as (W & _).
  rewrite !face_count_getk by auto using wf_re_sort. now apply getk_re_sort.
Qed.
Definition ex_hand3 : tset := (Plain 1 Cp, 4) :: ex_hand2.
Example C16_example : hand_ok ex_hand2 /\ hand_ok ex_hand3 /\ match_ (NormalTypeWin 0 3) ex_hand2 = true /\
  match_ (NormalTypeWin 0 3) ex_hand3 = true.
Proof.
  split; [apply C14_example|]. split; [|split; vm_compute; reflexivity].
  split; repeat constructor; cbn; intuition (try congruence; lia).
Qed.

Print Assumptions C11_standard_match.
Print Assumptions C12_distinct_pairs_match.
Print Assumptions C13_selections_sound.
Print Assumptions C13_selections_complete.
Print Assumptions C14_unique_sound.
Print Assumptions C14_unique_exactly_once.
Print Assumptions C15_distinct_first_occurrences.
Print Assumptions C15_distinct_no_duplicates.
Print Assumptions C16_match_monotone.
Print Assumptions C16_match_counts_only.
Print Assumptions C16_match_keeps_counts.
