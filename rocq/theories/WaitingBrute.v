(** Useful tiles as advancing tiles; BruteForceWaiting. *)
From Verif Require Import Base Tile TileSet Spec_Tile TileSetFacts Win Spec_Win WinFacts WinProofs Waiting Spec_Waiting WaitingFacts WaitingPM.
From Coq Require Import List ZArith Lia Bool Permutation Sorted.
Import ListNotations.
Open Scope Z_scope.

Lemma plus_nil : forall h k, plus h [] k = h k.
Proof. intros. unfold plus, count_kind; cbn. lia. Qed.
Lemma plus_one : forall h k j, plus h [k] j = h j + (if kind_eqb k j then 1 else 0).
Proof. intros. unfold plus, count_kind; cbn [sumZ]. rewrite same_kind_eqb. lia. Qed.

Lemma defic_plus : forall h k us, legal_kind k ->
  defic (plus h [k]) us = defic h us - (if h k <? uses us k then 1 else 0).
Proof.
  intros h k us L. unfold defic, sumK.
  rewrite (sumZ_change_one KINDS (miss (plus h [k]) us) (miss h us) k).
  - unfold miss. rewrite plus_one, kind_eqb_refl. destruct (h k <? uses us k) eqn:E.
    + apply Z.ltb_lt in E. lia.
    + apply Z.ltb_ge in E. lia.
  - apply KINDS_NoDup.
  - now apply KINDS_legal.
  - intros x _ N. unfold miss. rewrite plus_one. replace (kind_eqb k x) with false; [f_equal; lia|].
    symmetry. apply kind_eqb_neq. congruence.
Qed.

Lemma okh_plus : forall lim h k, okh lim h -> (lim = true -> h k < 4) -> okh lim (plus h [k]).
Proof.
  intros lim h k [A B] C. split.
  - intros j. rewrite plus_one. specialize (A j). destruct (kind_eqb k j); lia.
  - intros Hl j. rewrite plus_one. specialize (B Hl j). specialize (C Hl).
    destruct (kind_eqb k j) eqn:E; [apply kind_eqb_eq in E; subst; lia|lia].
Qed.

Theorem useful_advances : forall lim s h n k, okh lim h -> mindef lim s h (Z.of_nat (S n)) ->
  (useful_spec lim s h k <-> advances lim s h k).
Proof.
  intros lim s h n k O M. split.
  - intros (us & F & A & M' & Hk). assert (E := mindef_unique _ _ _ _ _ M M').
    assert (L : legal_kind k).
    { apply uses_legal with us; [apply F|]. destruct O as [O _]. specialize (O k). lia. }
    assert (H4 : lim = true -> h k < 4). { intros Hl. specialize (A Hl k). lia. }
    split; [auto|]. split; [auto|]. exists n. split.
    + apply distance_mindef; auto.
    + apply distance_mindef; [now apply okh_plus|]. split.
      * exists us. split; [auto|split; [auto|]]. rewrite defic_plus by auto.
        replace (h k <? uses us k) with true by (symmetry; apply Z.ltb_lt; auto). lia.
      * intros us' F' A'. rewrite defic_plus by auto. destruct M as [_ M]. specialize (M us' F' A').
        destruct (h k <? uses us' k); lia.
  - intros (L & H4 & m & D1 & D2). apply distance_mindef in D1; auto.
    apply distance_mindef in D2; [|now apply okh_plus].
    destruct D2 as [(us & F & A & E) _]. exists us. split; [auto|split; [auto|]].
    rewrite defic_plus in E by auto. destruct D1 as [D1 D1']. pose proof (D1' us F A).
    destruct (h k <? uses us k) eqn:Q.
    + apply Z.ltb_lt in Q. split; auto. replace (defic h us) with (Z.of_nat (S m)) by lia. split; auto.
    + lia.
Qed.

(** ** product *)
Lemma product_in : forall n ts, In ts (product n) <-> length ts = n /\ Forall (fun t => In t ALL_TILES) ts.
Proof.
  induction n as [|n IH]; intros ts; cbn [product].
  - split.
    + intros [<-|[]]. split; auto.
    + intros [H _]. destruct ts; [left; auto|discriminate].
  - rewrite in_flat_map. split.
    + intros (t & A & B). apply in_map_iff in B. destruct B as (r & <- & B). apply IH in B. destruct B as [B1 B2].
      cbn. split; [lia|]. constructor; auto.
    + intros [H F]. destruct ts as [|t ts]; [discriminate|]. inversion F; subst. exists t. split; auto.
      apply in_map. apply IH. split; auto.
Qed.
Lemma ALL_TILES_kind : forall k, legal_kind k -> exists t, In t ALL_TILES /\ view t = k.
Proof.
  intros k L. apply KINDS_legal in L. rewrite <- ALL_TILES_view in L. apply in_map_iff in L.
  destruct L as (t & A & B). eauto.
Qed.
Lemma ALL_TILES_legal : forall t, In t ALL_TILES -> legal_kind (view t).
Proof. intros t H. apply KINDS_legal. rewrite <- ALL_TILES_view. now apply in_map. Qed.

Lemma occ_count : forall k ts, occ k ts = count_kind k (map view ts).
Proof.
  intros k ts. unfold occ, count_kind. rewrite sumZ_map. apply sumZ_ext. intros. now rewrite same_kind_eqb.
Qed.

(** ** hand + TileSet(tiles) *)
Lemma add_tiles_facts : forall hand ts, good_hand hand -> Forall (fun t => legal_kind (view t)) ts ->
  good_hand (ts_add hand (of_tiles ts)) /\
  forall k, getk (ts_add hand (of_tiles ts)) k = plus (getk hand) (map view ts) k.
Proof.
  intros hand ts (W & L & N) F.
  assert (W1 : wf (add_into hand (of_tiles ts))) by now apply wf_add_into.
  assert (W2 : wf (keep_positive (add_into hand (of_tiles ts)))) by now apply wf_filter.
  assert (G : forall k, getk (ts_add hand (of_tiles ts)) k = plus (getk hand) (map view ts) k).
  { intros k. unfold ts_add. rewrite getk_re_sort, getk_keep_positive, getk_add_into, getk_of_tiles, occ_count by (auto using wf_of_tiles).
    unfold plus. pose proof (N k). pose proof (count_kind_nonneg k (map view ts)). lia. }
  split; [|exact G]. unfold ts_add. split; [now apply wf_re_sort|]. split.
  - apply legal_re_sort, legal_filter, legal_add_into; auto. now apply legal_of_tiles.
  - intros k. fold (ts_add hand (of_tiles ts)). rewrite G. unfold plus.
    pose proof (N k). pose proof (count_kind_nonneg k (map view ts)). lia.
Qed.

Lemma match_wins : forall s hand, good_hand hand -> (match_ (pattern_of s) hand = true <-> wins s (getk hand)).
Proof.
  intros s hand G. rewrite match_iff by auto. unfold wins. split; intros (us & A & B); exists us; split; auto; now apply sh_forms.
Qed.
Lemma wins_ext : forall s h h', (forall k, h k = h' k) -> wins s h -> wins s h'.
Proof. intros s h h' E (us & F & W). exists us. split; auto. intros k. rewrite <- E. apply W. Qed.

Lemma all_le4 : forall s, wf s -> nonneg s -> (forallb (fun e => snd e <=? 4) s = true <-> forall k, getk s k <= 4).
Proof.
  intros s W N. rewrite forallb_forall. split.
  - intros H k. destruct (Z.eq_dec (getk s k) 0) as [->|E]; [lia|].
    destruct (getk_nonzero_in _ _ E) as (t & _ & I). specialize (H _ I). apply Z.leb_le in H. exact H.
  - intros H [t v] I. apply Z.leb_le. cbn. rewrite <- (getk_in _ _ _ W I). auto.
Qed.

Lemma brute_test_spec : forall s hand ts, good_hand hand -> Forall (fun t => legal_kind (view t)) ts ->
  (brute_test (pattern_of s) hand true ts = true <->
   (forall k, plus (getk hand) (map view ts) k <= 4) /\ wins s (plus (getk hand) (map view ts))).
Proof.
  intros s hand ts G F. destruct (add_tiles_facts hand ts G F) as [G' E]. unfold brute_test. cbv zeta.
  cbn [andb]. rewrite andb_true_iff, all_le4, match_wins by (auto; apply G'). split.
  - intros [A B]. split; [intros k; rewrite <- E; auto|]. eapply wins_ext; [|exact B]. auto.
  - intros [A B]. split; [intros k; rewrite E; auto|]. eapply wins_ext; [|exact B]. auto.
Qed.

Lemma brute_exists : forall s hand n, good_hand hand ->
  (existsb (brute_test (pattern_of s) hand true) (product n) = true <-> reach true s (getk hand) n).
Proof.
  intros s hand n G. rewrite existsb_exists. split.
  - intros (ts & I & T). apply product_in in I. destruct I as [Ln F].
    assert (Lt : Forall (fun t => legal_kind (view t)) ts).
    { rewrite Forall_forall in *. intros t H. apply ALL_TILES_legal; auto. }
    apply brute_test_spec in T; auto. destruct T as [T1 T2]. exists (map view ts).
    split; [now rewrite map_length|]. split; [|split; auto].
    rewrite Forall_forall in *. intros k H. apply in_map_iff in H. destruct H as (t & <- & H). auto.
  - intros (add & Ln & Lg & Lm & Wn).
    assert (X : exists ts, map view ts = add /\ Forall (fun t => In t ALL_TILES) ts).
    { clear - Lg. induction Lg as [|k add Hk Lg IH]; [exists []; auto|].
      destruct IH as (ts & A & B). destruct (ALL_TILES_kind k Hk) as (t & C & D).
      exists (t :: ts). cbn. rewrite A, D. auto. }
    destruct X as (ts & E & F). exists ts. split.
    + apply product_in. split; auto. rewrite <- Ln, <- E. now rewrite map_length.
    + apply brute_test_spec; auto.
      * rewrite Forall_forall in *. intros t H. apply ALL_TILES_legal; auto.
      * rewrite E. auto.
Qed.

Lemma reach0_match : forall lim s hand, good_hand hand -> okh lim (getk hand) ->
  (match_ (pattern_of s) hand = true <-> reach lim s (getk hand) 0).
Proof.
  intros lim s hand G [_ O]. rewrite match_wins by auto. split.
  - intros H. exists []. split; [auto|]. split; [auto|]. split.
    + intros Hl k. rewrite plus_nil. auto.
    + eapply wins_ext; [|exact H]. intros k. now rewrite plus_nil.
  - intros (add & Ln & _ & _ & H). destruct add; [|discriminate]. eapply wins_ext; [|exact H]. intros; apply plus_nil.
Qed.

Theorem brute_step_correct : forall s hand n fuel, good_hand hand -> okh true (getk hand) ->
  distance true s (getk hand) n -> (n <= fuel)%nat ->
  brute_step fuel (pattern_of s) hand true = Ok (Z.of_nat n - 1).
Proof.
  intros s hand n fuel G O [R M] Hf. unfold brute_step.
  destruct (match_ (pattern_of s) hand) eqn:E.
  - apply (reach0_match true s hand G O) in E. specialize (M _ E). f_equal. lia.
  - assert (n <> 0%nat). { intros ->. apply (reach0_match true s hand G O) in R. congruence. }
    assert (H1 : forall fuel need, (need <= n)%nat -> (n < need + fuel)%nat ->
      brute_loop fuel (pattern_of s) hand true need = Ok (Z.of_nat n - 1)).
    { induction fuel0 as [|f IH]; intros need H1 H2; [lia|]. cbn [brute_loop].
      destruct (existsb (brute_test (pattern_of s) hand true) (product need)) eqn:Q.
      - apply brute_exists in Q; auto. specialize (M _ Q). f_equal. lia.
      - apply IH; [|lia]. destruct (Nat.eq_dec need n) as [->|]; [|lia]. apply brute_exists in R; auto. congruence. }
    apply H1; lia.
Qed.

(** with the flag off the loop never ends on a hand that does not match *)
Theorem brute_step_diverges : forall p hand fuel, match_ p hand = false -> brute_step fuel p hand false = Err OutOfFuel.
Proof.
  intros p hand fuel H. unfold brute_step. rewrite H. generalize 1%nat. induction fuel as [|f IH]; intros need; auto.
  cbn [brute_loop]. replace (existsb (brute_test p hand false) (product need)) with false; auto.
  symmetry. destruct (existsb _ _) eqn:E; auto. apply existsb_exists in E. destruct E as (x & _ & E). discriminate.
Qed.

(** ** distances exist and move by at most one *)
Lemma mindef_of_bound : forall lim s h n us, forms s us -> adm lim us -> defic h us = Z.of_nat n ->
  (forall m, ~ (exists us', forms s us' /\ adm lim us' /\ defic h us' < m) \/
             (exists us', forms s us' /\ adm lim us' /\ defic h us' < m)) ->
  exists m, mindef lim s h (Z.of_nat m) /\ (m <= n)%nat.
Proof.
  intros lim s h n. induction n as [n IH] using lt_wf_ind. intros us F A D Dec.
  destruct (Dec (Z.of_nat n)) as [N|(us' & F' & A' & D')].
  - exists n. split; [|lia]. split; [eauto|]. intros us' F' A'.
    destruct (Z_lt_dec (defic h us') (Z.of_nat n)); [|lia]. exfalso. apply N. eauto.
  - pose proof (defic_nonneg h us'). destruct (IH (Z.to_nat (defic h us'))) with (us := us') as (m & M & Hm); auto; try lia.
    exists m. split; auto. lia.
Qed.

(** a hand object with given counts *)
Definition hand_of (h : counts) : tset := map (fun t => (t, h (view t))) ALL_TILES.
Lemma kinds_hand_of : forall h, kinds_of (hand_of h) = KINDS.
Proof. intros h. unfold kinds_of, hand_of. rewrite map_map. rewrite <- ALL_TILES_view. apply map_ext. auto. Qed.
Lemma wf_hand_of : forall h, wf (hand_of h).
Proof. intros. unfold wf. rewrite kinds_hand_of. apply KINDS_NoDup. Qed.
Lemma getk_hand_of : forall h k, getk (hand_of h) k = if in_dec kind_eq_dec k KINDS then h k else 0.
Proof.
  intros h k. destruct (in_dec kind_eq_dec k KINDS) as [I|I].
  - rewrite <- ALL_TILES_view in I. apply in_map_iff in I. destruct I as (t & <- & I).
    apply getk_in; [apply wf_hand_of|]. unfold hand_of. apply in_map_iff. eauto.
  - apply getk_notin. now rewrite kinds_hand_of.
Qed.
Lemma good_hand_of : forall h, (forall k, 0 <= h k) -> good_hand (hand_of h).
Proof.
  intros h H. split; [apply wf_hand_of|]. split.
  - unfold legal_keys. rewrite kinds_hand_of. apply Forall_forall. intros. now apply KINDS_legal.
  - intros k. rewrite getk_hand_of. destruct (in_dec kind_eq_dec k KINDS); auto. lia.
Qed.
Lemma okh_hand_of : forall lim h, okh lim h -> okh lim (getk (hand_of h)).
Proof.
  intros lim h [A B]. split; intros; rewrite getk_hand_of; destruct (in_dec kind_eq_dec k KINDS); auto; lia.
Qed.
Lemma defic_hand_of : forall h us, defic (getk (hand_of h)) us = defic h us.
Proof.
  intros h us. apply sumZ_ext. intros k Hk. unfold miss. rewrite getk_hand_of.
  destruct (in_dec kind_eq_dec k KINDS); [auto|tauto].
Qed.

Theorem mindef_exists : forall lim s h us, okh lim h -> forms s us -> adm lim us ->
  exists m, mindef lim s h (Z.of_nat m) /\ Z.of_nat m <= defic h us.
Proof.
  intros lim s h us O F A. pose proof (defic_nonneg h us).
  destruct (mindef_of_bound lim s h (Z.to_nat (defic h us)) us F A) as (m & M & Hm); [lia| |].
  - intros m. assert (G : good_hand (hand_of h)) by (apply good_hand_of; apply O).
    pose proof (pm_search_nonempty s (hand_of h) (m - 1) lim G (okh_hand_of _ _ O)) as P.
    destruct (pm_search (pattern_of s) (hand_of h) (m - 1) lim) as [|x r].
    + left. intros (us' & F' & A' & D'). apply (proj2 P); auto. exists us'. split; [auto|split; [auto|]].
      rewrite defic_hand_of. lia.
    + right. destruct (proj1 P) as (us' & F' & A' & D'); [discriminate|]. exists us'. split; [auto|split; [auto|]].
      rewrite defic_hand_of in D'. lia.
  - exists m. split; auto. lia.
Qed.

Lemma mindef_plus : forall lim s h k n n', legal_kind k -> mindef lim s h n -> mindef lim s (plus h [k]) n' ->
  n' = n \/ n' = n - 1.
Proof.
  intros lim s h k n n' L [(u & F & A & E) M] [(u' & F' & A' & E') M'].
  specialize (M u' F' A'). specialize (M' u F A). rewrite defic_plus in E', M' by auto.
  destruct (h k <? uses u' k), (h k <? uses u k); lia.
Qed.
Lemma mindef_plus_exists : forall lim s h k n, okh lim (plus h [k]) -> mindef lim s h n ->
  exists n', mindef lim s (plus h [k]) (Z.of_nat n').
Proof.
  intros lim s h k n O [(u & F & A & E) M]. destruct (mindef_exists lim s (plus h [k]) u O F A) as (m & Hm & _). eauto.
Qed.

Lemma okh_ext : forall lim h h', (forall k, h k = h' k) -> okh lim h -> okh lim h'.
Proof. intros lim h h' E [A B]. split; intros; rewrite <- E; auto. Qed.

Theorem brute_useful_correct : forall s hand n fuel, good_hand hand -> okh true (getk hand) ->
  mindef true s (getk hand) (Z.of_nat n) -> (n <= fuel)%nat ->
  exists ts, brute_useful fuel (pattern_of s) hand true = Ok ts /\ NoDup (map view ts) /\
    forall k, In k (map view ts) <-> advances true s (getk hand) k.
Proof.
  intros s hand n fuel G O M Hf. unfold brute_useful.
  rewrite (brute_step_correct s hand n fuel G O) by (auto; now apply distance_mindef). cbn [bindr].
  assert (H : forall l, incl l ALL_TILES -> NoDup (map view l) ->
    exists ts, brute_filter fuel (pattern_of s) hand true (Z.of_nat n - 1) l = Ok ts /\ NoDup (map view ts) /\
      forall k, In k (map view ts) <-> In k (map view l) /\ advances true s (getk hand) k).
  { induction l as [|t l IH]; intros I N; cbn [brute_filter].
    - exists []. split; [auto|split; [constructor|]]. cbn. tauto.
    - inversion N as [|? ? N1 N2]; subst. destruct IH as (ts & E & Nd & Sp); auto. { intros x Hx; apply I; right; auto. }
      assert (Lt : legal_kind (view t)) by (apply ALL_TILES_legal, I; left; auto).
      cbn [andb]. destruct (get hand t <? 4) eqn:E4.
      + apply Z.ltb_lt in E4. unfold get in E4.
        destruct (add_tiles_facts hand [t] G) as [G' E']; [auto|]. cbn [map] in E'.
        assert (O' : okh true (plus (getk hand) [view t])) by (apply okh_plus; auto).
        destruct (mindef_plus_exists true s (getk hand) (view t) (Z.of_nat n) O' M) as (n' & M').
        pose proof (mindef_plus _ _ _ _ _ _ Lt M M') as Hn.
        rewrite (brute_step_correct s (ts_add hand (of_tiles [t])) n' fuel G'); [| | |lia].
        2:{ eapply okh_ext; [|exact O']. auto. }
        2:{ apply distance_mindef; [eapply okh_ext; [|exact O']; auto|]. eapply mindef_ext; [|exact M']. auto. }
        cbn [bindr]. rewrite E. cbn [bindr]. eexists. split; [reflexivity|].
        assert (AD : advances true s (getk hand) (view t) <-> Z.of_nat n' - 1 < Z.of_nat n - 1).
        { split.
          - intros (_ & _ & m & D1 & D2). apply distance_mindef in D1; auto. apply distance_mindef in D2; auto.
            pose proof (mindef_unique _ _ _ _ _ M D1). pose proof (mindef_unique _ _ _ _ _ M' D2). lia.
          - intros Q. split; [auto|split; [auto|]]. exists n'. split; apply distance_mindef; auto.
            replace (Z.of_nat (S n')) with (Z.of_nat n) by lia. auto. }
        destruct (Z.of_nat n' - 1 <? Z.of_nat n - 1) eqn:Q.
        * apply Z.ltb_lt in Q. apply AD in Q. cbn [map]. split.
          { constructor; auto. intros C. apply Sp in C. tauto. }
          intros k. cbn [In]. rewrite Sp. split; [intros [<-|[? ?]]; auto|]. intros [[<-|?] ?]; auto.
        * apply Z.ltb_ge in Q. split; auto. intros k. cbn [map In]. rewrite Sp. split; [tauto|].
          intros [[<-|?] B]; auto. apply AD in B. lia.
      + apply Z.ltb_ge in E4. exists ts. split; [auto|split; [auto|]]. intros k. cbn [map In]. rewrite Sp. split; [tauto|].
        intros [[<-|?] B]; auto. destruct B as (_ & B & _). specialize (B eq_refl). unfold get in E4. lia. }
  destruct (H ALL_TILES) as (ts & E & Nd & Sp).
  - apply incl_refl.
  - rewrite ALL_TILES_view. apply KINDS_NoDup.
  - exists ts. split; [auto|split; [auto|]]. intros k. rewrite Sp, ALL_TILES_view, KINDS_legal. split; [tauto|].
    intros A. split; auto. apply A.
Qed.
