(** The waiting theorems, phrased with the specification vocabulary only. *)
From Verif Require Import Base Tile TileSet Spec_Tile TileSetFacts Win Spec_Win WinFacts WinProofs Waiting Spec_Waiting WaitingFacts WaitingPM WaitingBrute WaitingHeur WaitingHeurTop WaitingSize Spec_Hand.
From Coq Require Import List ZArith Lia Bool Permutation Sorted.
Import ListNotations.
Open Scope Z_scope.

Lemma face_count_getk : forall s, wf s -> forall k, face_count s k = getk s k.
Proof.
  induction s as [|[t v] s IH]; intros W k; cbn [getk]; auto.
  unfold face_count in *. cbn [sumZ fst snd]. rewrite same_kind_eqb. inversion W as [|? ? W1 W2]; subst.
  rewrite (IH W2 k). destruct (kind_eqb (view t) k) eqn:E; [|lia].
  apply kind_eqb_eq in E; subst. rewrite getk_notin; [lia|]. exact W1.
Qed.
Lemma hand_ok_good : forall s, hand_ok s -> good_hand s.
Proof.
  intros s [N F]. split; [exact N|]. split.
  - unfold legal_keys, kinds_of. apply Forall_map. eapply Forall_impl; [|exact F]. intros e [A _]. exact A.
  - intros k. destruct (Z.eq_dec (getk s k) 0) as [->|E]; [lia|].
    destruct (getk_nonzero_in _ _ E) as (t & _ & I). rewrite Forall_forall in F. apply (F _ I).
Qed.
Lemma hand_ok_fc : forall s, hand_ok s -> forall k, getk s k = face_count s k.
Proof. intros s H k. symmetry. apply face_count_getk. apply (hand_ok_good s H). Qed.

Lemma plus_ext : forall h h' l, (forall k, h k = h' k) -> forall k, plus h l k = plus h' l k.
Proof. intros. unfold plus. now rewrite H. Qed.
Lemma reach_ext : forall lim s h h' n, (forall k, h k = h' k) -> reach lim s h n -> reach lim s h' n.
Proof.
  intros lim s h h' n E (add & A & B & C & D). exists add. split; [auto|split; [auto|split]].
  - intros Hl k. rewrite <- (plus_ext h h' add E). auto.
  - eapply wins_ext; [|exact D]. intros. now apply plus_ext.
Qed.
Lemma distance_ext : forall lim s h h' n, (forall k, h k = h' k) -> distance lim s h n -> distance lim s h' n.
Proof.
  intros lim s h h' n E [A B]. split; [eapply reach_ext; eauto|]. intros m R. apply B.
  eapply reach_ext; [|exact R]. auto.
Qed.
Lemma advances_ext : forall lim s h h' k, (forall k, h k = h' k) -> advances lim s h k -> advances lim s h' k.
Proof.
  intros lim s h h' k E (A & B & n & C & D). split; [auto|]. split; [intros Hl; rewrite <- E; auto|].
  exists n. split; [eapply distance_ext; eauto|]. eapply distance_ext; [|exact D]. intros. now apply plus_ext.
Qed.
Lemma distance_unique : forall lim s h a b, distance lim s h a -> distance lim s h b -> a = b.
Proof. intros lim s h a b [A1 A2] [B1 B2]. specialize (A2 b B1). specialize (B2 a A1). lia. Qed.

Lemma returns_unique : forall A (c : nat -> res A) v w, returns c v -> returns c w -> v = w.
Proof.
  intros A c v w [f H] [g K]. specialize (H (f + g)%nat ltac:(lia)). specialize (K (f + g)%nat ltac:(lia)). congruence.
Qed.

Definition okl (lim : bool) (hand : tset) : Prop := hand_ok hand /\ (lim = true -> four_max hand).
Lemma okl_okh : forall lim hand, okl lim hand -> okh lim (getk hand).
Proof.
  intros lim hand [H F]. split; [apply (hand_ok_good _ H)|]. intros Hl k. rewrite hand_ok_fc by auto. now apply F.
Qed.
Lemma dist_fc : forall lim s hand n, hand_ok hand ->
  (distance lim s (face_count hand) n <-> distance lim s (getk hand) n).
Proof. intros. split; apply distance_ext; intros; [symmetry|]; now rewrite hand_ok_fc. Qed.
Lemma adv_fc : forall lim s hand k, hand_ok hand ->
  (advances lim s (face_count hand) k <-> advances lim s (getk hand) k).
Proof. intros. split; apply advances_ext; intros; [symmetry|]; now rewrite hand_ok_fc. Qed.
Lemma mind_fc : forall lim s hand n, okl lim hand ->
  (distance lim s (face_count hand) n <-> mindef lim s (getk hand) (Z.of_nat n)).
Proof. intros. rewrite dist_fc by apply H. apply distance_mindef. now apply okl_okh. Qed.

Lemma reach_distance : forall lim s h n, okh lim h -> reach lim s h n -> exists m, distance lim s h m.
Proof.
  intros lim s h n O R. destruct (units_of_reach _ _ _ _ R) as (us & F & A & _).
  destruct (mindef_exists lim s h us O F A) as (m & M & _). exists m. now apply distance_mindef.
Qed.

(** ** C17 *)
Lemma brute_returns : forall s hand n, hand_ok hand -> four_max hand -> distance true s (face_count hand) n ->
  returns (fun f => brute_step f (pattern_of s) hand true) (Z.of_nat n - 1).
Proof.
  intros s hand n H F D. exists n. intros fuel Hf. apply brute_step_correct; auto.
  - now apply hand_ok_good.
  - apply okl_okh. split; auto.
  - now apply dist_fc.
Qed.
Lemma brute_ok_reach : forall s hand fuel v, hand_ok hand -> four_max hand ->
  brute_step fuel (pattern_of s) hand true = Ok v -> exists n, reach true s (getk hand) n.
Proof.
  intros s hand fuel v H F E. pose proof (hand_ok_good _ H) as G. unfold brute_step in E.
  destruct (match_ (pattern_of s) hand) eqn:Q.
  - exists 0%nat. apply reach0_match; auto. apply okl_okh. split; auto.
  - revert E. generalize 1%nat. induction fuel as [|f IH]; intros need E; cbn [brute_loop] in E; [discriminate|].
    destruct (existsb (brute_test (pattern_of s) hand true) (product need)) eqn:X; [|eapply IH; eauto].
    exists need. now apply brute_exists.
Qed.
Theorem brute_step_iff : forall s hand v, hand_ok hand -> four_max hand ->
  (returns (fun f => brute_step f (pattern_of s) hand true) v <->
   exists n, v = Z.of_nat n - 1 /\ distance true s (face_count hand) n).
Proof.
  intros s hand v H F. split.
  - intros R. pose proof R as [f0 Q]. specialize (Q f0 (le_n _)).
    destruct (brute_ok_reach s hand f0 v H F Q) as (m & Rm).
    destruct (reach_distance true s (getk hand) m) as (n & D); auto. { apply okl_okh. split; auto. }
    apply dist_fc in D; auto. exists n. split; auto. eapply returns_unique; [exact R|]. now apply brute_returns.
  - intros (n & -> & D). now apply brute_returns.
Qed.

(** ** C18 *)
Lemma pm_returns : forall s hand ig n, okl ig hand -> distance ig s (face_count hand) n ->
  returns (fun f => pm_step f (pattern_of s) hand ig) (Z.of_nat n - 1).
Proof.
  intros s hand ig n H D. exists (S n). intros fuel Hf. apply pm_step_correct; auto.
  - apply hand_ok_good, H.
  - now apply okl_okh.
  - now apply mind_fc.
Qed.
Theorem pm_step_iff : forall s hand ig v, hand_ok hand -> (ig = true -> four_max hand) ->
  (returns (fun f => pm_step f (pattern_of s) hand ig) v <->
   exists n, v = Z.of_nat n - 1 /\ distance ig s (face_count hand) n).
Proof.
  intros s hand ig v H F. assert (O : okl ig hand) by (split; auto). split.
  - intros R. pose proof R as [f0 Q]. specialize (Q f0 (le_n _)).
    assert (X : exists us, forms s us /\ adm ig us).
    { clear R. unfold pm_step in Q. revert Q. generalize 0%nat. induction f0 as [|f IH]; intros need Q; cbn [pm_step_loop] in Q; [discriminate|].
      destruct (pm_search (pattern_of s) hand (Z.of_nat need) ig) as [|x r] eqn:E; [eapply IH; eauto|].
      assert (N : pm_search (pattern_of s) hand (Z.of_nat need) ig <> []) by congruence.
      apply pm_search_nonempty in N; [|apply hand_ok_good; auto|now apply okl_okh].
      destruct N as (us & A & B & _). eauto. }
    destruct X as (us & A & B). destruct (mindef_exists ig s (getk hand) us (okl_okh _ _ O) A B) as (n & M & _).
    apply mind_fc in M; auto. exists n. split; auto. eapply returns_unique; [exact R|]. now apply pm_returns.
  - intros (n & -> & D). now apply pm_returns.
Qed.

(** ** C19 *)
Lemma hand_size_total : forall s, hand_size s = total s.
Proof. reflexivity. Qed.
Theorem h_step_iff : forall s hand ig v, hand_ok hand -> (ig = true -> four_max hand) ->
  (h_step (pattern_of s) hand ig = Ok v <->
   exists n, v = Z.of_nat n - 1 /\ distance ig s (face_count hand) n /\ Z.of_nat n <= hand_size hand).
Proof.
  intros s hand ig v H F. assert (O : okl ig hand) by (split; auto). pose proof (hand_ok_good _ H) as G.
  pose proof (okl_okh _ _ O) as O'. split.
  - intros E.
    assert (X : exists us, forms s us /\ adm ig us).
    { unfold h_step in E. cbv zeta in E. fold (root s hand ig 1 (total hand)) in E.
      assert (Hm : 0 <= total hand) by (rewrite total_sumK by apply G; apply sumZ_nonneg; intros; apply G).
      destruct (fst (root s hand ig 1 (total hand))) as [|r l] eqn:Q; [discriminate|].
      destruct (root_sound s hand ig 1 (total hand) r G O' ltac:(lia) Hm) as (us & _ & A & B & _); [rewrite Q; left; auto|]. eauto. }
    destruct X as (us & A & B). destruct (mindef_exists ig s (getk hand) us O' A B) as (n & M & _).
    rewrite (h_step_correct s hand ig _ G O' M) in E. destruct (Z.of_nat n <=? total hand) eqn:Q; [|discriminate].
    apply Z.leb_le in Q. inversion E; subst. exists n. split; [auto|split; [now apply mind_fc|auto]].
  - intros (n & -> & D & Q). rewrite (h_step_correct s hand ig (Z.of_nat n) G O') by now apply mind_fc.
    replace (Z.of_nat n <=? total hand) with true by (symmetry; apply Z.leb_le; auto). reflexivity.
Qed.

Lemma usual_size_facts : forall s hand, usual_size s hand ->
  shape_ok s /\ units_of s <= 34 /\ 0 < hand_size hand /\ tiles_of s - 1 <= hand_size hand.
Proof.
  intros s hand (A & B & C). split; [|split; [|split; [exact B|]]]; destruct s; cbn in *; lia.
Qed.
Theorem h_step_min : forall s hand ig, hand_ok hand -> (ig = true -> four_max hand) -> usual_size s hand ->
  exists n, h_step (pattern_of s) hand ig = Ok (Z.of_nat n - 1) /\ distance ig s (face_count hand) n.
Proof.
  intros s hand ig H F US; apply usual_size_facts in US; destruct US as (S1 & S2 & S3 & S4). assert (O : okl ig hand) by (split; auto).
  destruct (distance_exists ig s (getk hand) (okl_okh _ _ O) S1 S2) as (n & D). exists n.
  pose proof (distance_le_total ig s hand n (hand_ok_good _ H) (okl_okh _ _ O) S1 S2 S3 S4 D) as L.
  apply dist_fc in D; auto. split; auto. apply h_step_iff; auto. exists n. auto.
Qed.

(** ** C20 *)
Theorem brute_useful_spec : forall s hand n, hand_ok hand -> four_max hand -> distance true s (face_count hand) n ->
  exists ts, returns (fun f => brute_useful f (pattern_of s) hand true) ts /\ NoDup (faces ts) /\
    forall k, In k (faces ts) <-> advances true s (face_count hand) k.
Proof.
  intros s hand n H F D. assert (O : okl true hand) by (split; auto).
  pose proof (brute_useful_correct s hand n) as Q.
  destruct (Q n (hand_ok_good _ H) (okl_okh _ _ O) (proj1 (mind_fc _ _ _ _ O) D) (le_n _)) as (ts & E & N & S).
  exists ts. split; [|split; [auto|]].
  - exists n. intros fuel Hf.
    destruct (Q fuel (hand_ok_good _ H) (okl_okh _ _ O) (proj1 (mind_fc _ _ _ _ O) D) Hf) as (ts' & E' & N' & S').
    rewrite E'. f_equal.
    (* both lists are the same filter of ALL_TILES *)
    clear - E E' Hf H F D O Q. unfold brute_useful in E, E'.
    rewrite (brute_step_correct s hand n n) in E by (auto using hand_ok_good, okl_okh; now apply dist_fc).
    rewrite (brute_step_correct s hand n fuel) in E' by (auto using hand_ok_good, okl_okh; now apply dist_fc).
    cbn [bindr] in *.
    assert (Aux : forall l a b, incl l ALL_TILES -> brute_filter n (pattern_of s) hand true (Z.of_nat n - 1) l = Ok a ->
       brute_filter fuel (pattern_of s) hand true (Z.of_nat n - 1) l = Ok b -> b = a).
    { induction l as [|t l IH]; intros a b I A B; cbn [brute_filter] in A, B; [congruence|].
      assert (I' : incl l ALL_TILES) by (intros x Hx; apply I; right; auto).
      assert (Lt : legal_kind (view t)) by (apply ALL_TILES_legal, I; left; auto).
      destruct (true && (get hand t <? 4)) eqn:E4; [|eapply IH; eauto]. cbn [andb] in E4. apply Z.ltb_lt in E4.
      unfold get in E4. pose proof (hand_ok_good _ H) as G.
      destruct (add_tiles_facts hand [t] G) as [G' Eg]; [auto|]. cbn [map] in Eg.
      assert (O' : okh true (plus (getk hand) [view t])) by (apply okh_plus; auto using okl_okh).
      destruct (mindef_plus_exists true s (getk hand) (view t) (Z.of_nat n) O' (proj1 (mind_fc _ _ _ _ O) D)) as (n' & M').
      pose proof (mindef_plus _ _ _ _ _ _ Lt (proj1 (mind_fc _ _ _ _ O) D) M') as Hn.
      assert (OO : okh true (getk (ts_add hand (of_tiles [t])))) by (eapply okh_ext; [|exact O']; auto).
      assert (DD : distance true s (getk (ts_add hand (of_tiles [t]))) n').
      { apply distance_mindef; auto. eapply mindef_ext; [|exact M']. auto. }
      rewrite (brute_step_correct s _ n' n G' OO DD) in A by lia.
      rewrite (brute_step_correct s _ n' fuel G' OO DD) in B by lia. cbn [bindr] in *.
      destruct (brute_filter n (pattern_of s) hand true (Z.of_nat n - 1) l) as [a'|] eqn:A'; [|discriminate].
      destruct (brute_filter fuel (pattern_of s) hand true (Z.of_nat n - 1) l) as [b'|] eqn:B'; [|discriminate].
      cbn [bindr] in *. rewrite (IH a' b' I' eq_refl eq_refl) in B. congruence. }
    eapply Aux; eauto. apply incl_refl.
  - intros k. rewrite adv_fc by auto. apply S.
Qed.

Lemma pm_both_stable : forall p hand ig fuel need v, pm_both_loop fuel p hand ig need = Ok v ->
  forall fuel', (fuel <= fuel')%nat -> pm_both_loop fuel' p hand ig need = Ok v.
Proof.
  induction fuel as [|f IH]; intros need v E fuel' L; cbn [pm_both_loop] in E; [discriminate|].
  destruct fuel' as [|f']; [lia|]. cbn [pm_both_loop].
  destruct (union_borrowed (pm_search p hand (Z.of_nat need) ig)); [apply IH; auto; lia|auto].
Qed.
Theorem pm_both_spec : forall s hand ig n, hand_ok hand -> (ig = true -> four_max hand) ->
  distance ig s (face_count hand) (S n) ->
  exists ts, returns (fun f => pm_both f (pattern_of s) hand ig) (Z.of_nat n, ts) /\ NoDup (faces ts) /\
    forall k, In k (faces ts) <-> advances ig s (face_count hand) k.
Proof.
  intros s hand ig n H F D. assert (O : okl ig hand) by (split; auto).
  pose proof (proj1 (mind_fc _ _ _ _ O) D) as M.
  destruct (pm_both_correct s hand ig n (S (S n)) (hand_ok_good _ H) (okl_okh _ _ O) M ltac:(lia)) as (ts & E & N & S).
  exists ts. split; [|split; [auto|]].
  - exists (Datatypes.S (Datatypes.S n)). intros fuel Hf. unfold pm_both in *. eapply pm_both_stable; eauto.
  - intros k. rewrite adv_fc by auto. rewrite <- (useful_advances _ _ _ n) by (auto using okl_okh). apply S.
Qed.

Lemma useful_none : forall lim s h k, okh lim h -> mindef lim s h 0 -> ~ useful_spec lim s h k.
Proof.
  intros lim s h k [O _] M (us & F & A & M' & Hk). pose proof (mindef_unique _ _ _ _ _ M M') as E.
  assert (X : forall j, In j KINDS -> 0 = miss h us j).
  { intros j Hj. apply (sumZ_eq_le _ (fun _ => 0) (miss h us) KINDS); auto.
    intros; unfold miss; lia. }
  assert (L : legal_kind k). { apply uses_legal with us; [apply F|]. specialize (O k). lia. }
  specialize (X k (proj2 (KINDS_legal k) L)). unfold miss in X. lia.
Qed.
Lemma useful_adv : forall lim s h n k, okh lim h -> mindef lim s h (Z.of_nat n) ->
  (useful_spec lim s h k <-> advances lim s h k).
Proof.
  intros lim s h [|n] k O M; [|now apply useful_advances with n]. split.
  - intros U. exfalso. eapply useful_none; eauto.
  - intros (_ & _ & m & D & _). apply distance_mindef in D; auto. pose proof (mindef_unique _ _ _ _ _ M D). lia.
Qed.

Theorem h_both_spec : forall s hand, hand_ok hand -> four_max hand -> usual_size s hand ->
  exists n ts, distance true s (face_count hand) n /\
    h_both (pattern_of s) hand true = Ok (Z.of_nat n - 1, ts) /\ NoDup (faces ts) /\
    forall k, In k (faces ts) <-> advances true s (face_count hand) k.
Proof.
  intros s hand H F US; apply usual_size_facts in US; destruct US as (S1 & S2 & S3 & S4). assert (O : okl true hand) by (split; auto).
  destruct (distance_exists true s (getk hand) (okl_okh _ _ O) S1 S2) as (n & D).
  pose proof (distance_le_total true s hand n (hand_ok_good _ H) (okl_okh _ _ O) S1 S2 S3 S4 D) as L.
  apply distance_mindef in D as M; [|now apply okl_okh].
  destruct (h_both_correct s hand (Z.of_nat n) (hand_ok_good _ H) (okl_okh _ _ O) M L) as (ts & E & N & S).
  exists n, ts. split; [now apply dist_fc|]. split; [auto|]. split; [auto|].
  intros k. rewrite adv_fc by auto. rewrite <- (useful_adv _ _ _ n) by (auto using okl_okh). apply S.
Qed.

(** ** C21 *)
Lemma brute_both_spec : forall s hand n, hand_ok hand -> four_max hand -> distance true s (face_count hand) n ->
  exists ts, returns (fun f => brute_both f (pattern_of s) hand true) (Z.of_nat n - 1, ts) /\ NoDup (faces ts) /\
    forall k, In k (faces ts) <-> advances true s (face_count hand) k.
Proof.
  intros s hand n H F D. destruct (brute_useful_spec s hand n H F D) as (ts & [f1 R] & N & S).
  destruct (brute_returns s hand n H F D) as [f2 R2]. exists ts. split; [|split; auto].
  exists (f1 + f2)%nat. intros fuel Hf. unfold brute_both. rewrite R2, R by lia. reflexivity.
Qed.

(** on complete hands PatternMatchWaiting.waiting_and_useful_tiles never answers -1 *)
Theorem pm_both_complete_hand : forall s hand ig v ts fuel, hand_ok hand -> (ig = true -> four_max hand) ->
  distance ig s (face_count hand) 0 ->
  pm_both fuel (pattern_of s) hand ig = Ok (v, ts) -> 0 <= v /\ ts <> [].
Proof.
  intros s hand ig v ts fuel H F D E. assert (O : okl ig hand) by (split; auto).
  pose proof (proj1 (mind_fc _ _ _ _ O) D) as M. unfold pm_both in E.
  assert (E0 : union_borrowed (pm_search (pattern_of s) hand (Z.of_nat 0) ig) = []).
  { destruct (union_borrowed (pm_search (pattern_of s) hand (Z.of_nat 0) ig)) as [|t r] eqn:Q; auto. exfalso.
    assert (I : In (view t) (map view (union_borrowed (pm_search (pattern_of s) hand (Z.of_nat 0) ig)))) by (rewrite Q; left; auto).
    apply union_borrowed_in in I. destruct I as ([sel b] & I & K). cbn [snd] in K.
    destruct (pm_search_sound s hand _ ig sel b (hand_ok_good _ H) (okl_okh _ _ O) I) as (us & _ & A & B & C & Bs).
    apply (bspec_key _ _ _ _ Bs) in K.
    apply (useful_none ig s (getk hand) (view t)); auto using okl_okh. exists us. split; [auto|split; [auto|split; [|auto]]].
    pose proof (defic_nonneg (getk hand) us). replace (defic (getk hand) us) with 0 by lia. exact M. }
  destruct fuel as [|f]; cbn [pm_both_loop] in E; [discriminate|]. rewrite E0 in E.
  assert (G : forall f need, (1 <= need)%nat -> pm_both_loop f (pattern_of s) hand ig need = Ok (v, ts) -> 0 <= v /\ ts <> []).
  { clear. induction f as [|f IH]; intros need Hn E; cbn [pm_both_loop] in E; [discriminate|].
    destruct (union_borrowed (pm_search (pattern_of s) hand (Z.of_nat need) ig)) as [|t r]; [eapply IH; [|exact E]; lia|].
    inversion E; subst. split; [lia|discriminate]. }
  eapply G; eauto.
Qed.

(** ** C22 *)
Lemma without_fc : forall hand k j, hand_ok hand -> without (getk hand) k j = without (face_count hand) k j.
Proof. intros. unfold without. rewrite hand_ok_fc by auto. reflexivity. Qed.

Theorem h_batch_spec : forall s hand, hand_ok hand -> four_max hand -> usual_size s hand ->
  exists n rows, distance true s (face_count hand) n /\
    h_batch (pattern_of s) hand true = Ok rows /\
    NoDup (map (fun r => view (fst (fst r))) rows) /\
    (forall k, In k (map (fun r => view (fst (fst r))) rows) <-> keeps_distance true s (face_count hand) k) /\
    (forall t w u, In (t, w, u) rows -> w = Z.of_nat n - 1 /\
       forall j, In j (faces u) <-> advances true s (without (face_count hand) (view t)) j).
Proof.
  intros s hand H F US; apply usual_size_facts in US; destruct US as (S1 & S2 & S3 & S4). assert (O : okl true hand) by (split; auto).
  pose proof (okl_okh _ _ O) as O'.
  destruct (distance_exists true s (getk hand) O' S1 S2) as (n & D).
  pose proof (distance_le_total true s hand n (hand_ok_good _ H) O' S1 S2 S3 S4 D) as L.
  apply distance_mindef in D as M; auto.
  destruct (h_batch_correct s hand (Z.of_nat n) (hand_ok_good _ H) O' M L) as (rows & E & N & K & R).
  assert (Wd : forall k m, 0 < getk hand k -> (distance true s (without (face_count hand) k) m <-> mindef true s (without (getk hand) k) (Z.of_nat m))).
  { intros k m P. rewrite <- distance_mindef by now apply okh_without.
    split; apply distance_ext; intros; [symmetry|]; now apply without_fc. }
  exists n, rows. split; [now apply dist_fc|]. split; [auto|]. split; [auto|]. split.
  - intros k. rewrite in_map_iff. unfold keeps_distance. split.
    + intros (r & V & I). destruct (proj1 (K k)) as [P Q]; [eauto|]. split; [rewrite <- hand_ok_fc by auto; auto|].
      exists n. split; [now apply dist_fc|]. now apply Wd.
    + intros (P & m & D1 & D2). rewrite <- hand_ok_fc in P by auto. apply dist_fc in D1; auto.
      rewrite (distance_unique _ _ _ _ _ D1 D) in D2. apply Wd in D2; auto.
      destruct (proj2 (K k)) as (r & I & V); [auto|]. exists r. auto.
  - intros t w u I. destruct (R t w u I) as [-> U]. split; auto. intros j. unfold faces. rewrite U.
    destruct (proj1 (K (view t))) as [P Q]. { exists (t, Z.of_nat n - 1, u). auto. }
    rewrite (useful_adv true s (without (getk hand) (view t)) n j) by (auto using okh_without).
    split; apply advances_ext; intros; [|symmetry]; now apply without_fc.
Qed.

(** ** C24 *)
Lemma good_hand_ok : forall s, good_hand s -> hand_ok s.
Proof.
  intros s (W & L & N). split; [exact W|]. apply Forall_forall. intros [t v] I. cbn [fst snd]. split.
  - unfold legal_keys in L. rewrite Forall_forall in L. apply L. apply in_map_iff. exists (t, v). auto.
  - rewrite <- (getk_in s t v W I). apply N.
Qed.
Lemma add_tile_fc : forall hand t, hand_ok hand -> legal_kind (view t) ->
  hand_ok (ts_add hand (of_tiles [t])) /\ (forall k, face_count (ts_add hand (of_tiles [t])) k = plus (face_count hand) [view t] k).
Proof.
  intros hand t H L. pose proof (hand_ok_good _ H) as G.
  destruct (add_tiles_facts hand [t] G) as [G' E]; [auto|]. split; [now apply good_hand_ok|].
  intros k. rewrite <- hand_ok_fc by now apply good_hand_ok. rewrite E. cbn [map]. unfold plus. now rewrite hand_ok_fc.
Qed.
Lemma remove_tile_fc : forall hand t, hand_ok hand -> 0 < face_count hand (view t) ->
  hand_ok (ts_sub hand (of_tiles [t])) /\ (forall k, face_count (ts_sub hand (of_tiles [t])) k = without (face_count hand) (view t) k).
Proof.
  intros hand t H P. pose proof (hand_ok_good _ H) as (W & L & N). rewrite <- hand_ok_fc in P by auto.
  assert (Lt : legal_kind (view t)).
  { destruct (getk_nonzero_in hand (view t)) as (x & V & I); [lia|]. unfold legal_keys in L. rewrite Forall_forall in L.
    apply L. apply in_map_iff. eexists. split; [|exact I]. exact V. }
  assert (G : good_hand (ts_sub hand (of_tiles [t]))).
  { split; [now apply wf_ts_sub|]. split; [apply legal_ts_sub; auto; apply legal_of_tiles; auto|].
    apply nonneg_ts_sub; auto using wf_of_tiles. }
  split; [now apply good_hand_ok|]. intros k. rewrite <- hand_ok_fc by now apply good_hand_ok.
  rewrite getk_ts_sub by auto using wf_of_tiles. rewrite getk_of_tiles. unfold occ, without. cbn [sumZ].
  rewrite same_kind_eqb, hand_ok_fc by auto. destruct (kind_eqb (view t) k) eqn:E.
  - apply kind_eqb_eq in E. subst k. rewrite hand_ok_fc in P by auto. lia.
  - rewrite Z.add_0_r, Z.sub_0_r. specialize (N k). rewrite hand_ok_fc in N by auto. lia.
Qed.
Lemma hand_size_add : forall hand t, hand_ok hand -> legal_kind (view t) ->
  hand_size (ts_add hand (of_tiles [t])) = hand_size hand + 1.
Proof.
  intros hand t H L. destruct (add_tile_fc hand t H L) as [H' E].
  pose proof (hand_ok_good _ H) as (W & Lk & _). pose proof (hand_ok_good _ H') as (W' & Lk' & _).
  change (total (ts_add hand (of_tiles [t])) = total hand + 1). rewrite !total_sumK by auto. unfold sumK.
  rewrite (sumZ_ext _ (getk (ts_add hand (of_tiles [t]))) (fun k => getk hand k + (if kind_eqb (view t) k then 1 else 0))).
  - rewrite sumZ_plus. f_equal. now apply sumK_indicator.
  - intros k _. rewrite hand_ok_fc, E by auto. rewrite plus_one. now rewrite hand_ok_fc.
Qed.
Lemma hand_size_remove : forall hand t, hand_ok hand -> 0 < face_count hand (view t) ->
  hand_size (ts_sub hand (of_tiles [t])) = hand_size hand - 1.
Proof.
  intros hand t H P. destruct (remove_tile_fc hand t H P) as [H' E].
  pose proof (hand_ok_good _ H) as (W & Lk & _). pose proof (hand_ok_good _ H') as (W' & Lk' & _).
  assert (Lt : legal_kind (view t)).
  { rewrite <- hand_ok_fc in P by auto. destruct (getk_nonzero_in hand (view t)) as (x & V & I); [lia|]. unfold legal_keys in Lk. rewrite Forall_forall in Lk.
    apply Lk. apply in_map_iff. eexists. split; [|exact I]. exact V. }
  change (total (ts_sub hand (of_tiles [t])) = total hand - 1). rewrite !total_sumK by auto. unfold sumK.
  rewrite (sumZ_ext _ (getk (ts_sub hand (of_tiles [t]))) (fun k => getk hand k + - (if kind_eqb (view t) k then 1 else 0))).
  - rewrite sumZ_plus, sumZ_opp. pose proof (sumK_indicator (view t) Lt) as Q. unfold sumK in Q. lia.
  - intros k _. rewrite hand_ok_fc, E by auto. rewrite without_eq. rewrite hand_ok_fc by auto. lia.
Qed.

Theorem distance_add : forall lim s hand t n, hand_ok hand -> (lim = true -> four_max hand) ->
  legal_kind (view t) -> (lim = true -> face_count hand (view t) < 4) ->
  distance lim s (face_count hand) n ->
  exists n', distance lim s (face_count (ts_add hand (of_tiles [t]))) n' /\
    (n = n' \/ n = S n') /\ (n = S n' <-> advances lim s (face_count hand) (view t)).
Proof.
  intros lim s hand t n H F L C D. destruct (add_tile_fc hand t H L) as [H' E].
  assert (O : okl lim hand) by (split; auto). pose proof (okl_okh _ _ O) as O1.
  pose proof (proj1 (mind_fc _ _ _ _ O) D) as M.
  assert (O2 : okh lim (plus (getk hand) [view t])).
  { apply okh_plus; auto. intros Hl. rewrite hand_ok_fc; auto. }
  destruct (mindef_plus_exists lim s (getk hand) (view t) (Z.of_nat n) O2 M) as (n' & M').
  pose proof (mindef_plus _ _ _ _ _ _ L M M') as Hn.
  assert (D0 : distance lim s (plus (face_count hand) [view t]) n').
  { apply (distance_ext lim s (plus (getk hand) [view t])); [|now apply distance_mindef].
    apply plus_ext. intros. now apply hand_ok_fc. }
  exists n'. split; [eapply distance_ext; [|exact D0]; intros; now rewrite E|].
  split; [lia|]. split.
  - intros ->. split; [auto|]. split; [auto|]. exists n'. auto.
  - intros (_ & _ & m & D1 & D2). rewrite (distance_unique _ _ _ _ _ D D1). f_equal.
    eapply distance_unique; eauto.
Qed.
Theorem distance_remove : forall lim s hand t n, hand_ok hand -> (lim = true -> four_max hand) ->
  0 < face_count hand (view t) ->
  distance lim s (face_count hand) n ->
  exists n', distance lim s (face_count (ts_sub hand (of_tiles [t]))) n' /\ (n' = n \/ n' = S n).
Proof.
  intros lim s hand t n H F P D. destruct (remove_tile_fc hand t H P) as [H' E].
  assert (O : okl lim hand) by (split; auto). pose proof (okl_okh _ _ O) as O1.
  pose proof (proj1 (mind_fc _ _ _ _ O) D) as M. pose proof P as P'. rewrite <- hand_ok_fc in P' by auto.
  assert (L : legal_kind (view t)).
  { destruct (hand_ok_good _ H) as (_ & Lk & _).
    destruct (getk_nonzero_in hand (view t)) as (x & V & I); [lia|]. unfold legal_keys in Lk. rewrite Forall_forall in Lk.
    apply Lk. apply in_map_iff. eexists. split; [|exact I]. exact V. }
  assert (O2 : okh lim (without (getk hand) (view t))) by now apply okh_without.
  destruct M as [(us & Fu & Au & Eu) Mu].
  destruct (mindef_exists lim s (without (getk hand) (view t)) us O2 Fu Au) as (n' & M' & _).
  assert (Q : n' = n \/ n' = S n).
  { destruct (mindef_plus lim s (without (getk hand) (view t)) (view t) (Z.of_nat n') (Z.of_nat n) L M') as [X|X]; try lia.
    apply (mindef_ext lim s (getk hand)); [intros; symmetry; apply plus_without|]. now apply mind_fc. }
  exists n'. split; auto. apply distance_mindef in M'; auto. eapply distance_ext; [|exact M'].
  intros k. rewrite E. now apply without_fc.
Qed.
