(** PatternMatchWaiting: its search finds exactly the layouts within the budget. *)
From Verif Require Import Base Tile TileSet Spec_Tile TileSetFacts Win Spec_Win WinFacts WinProofs Waiting Spec_Waiting WaitingFacts.
From Coq Require Import List ZArith Lia Bool Permutation Sorted.
Import ListNotations.
Open Scope Z_scope.

(** the working hand after choosing [pre] and finishing the tiles not in [live] *)
Definition pminv (h : counts) (hc : tset) (pre : list munit) (live : list kind) : Prop :=
  wf hc /\ legal_keys hc /\
  forall k, getk hc k = h k - uses pre k \/
            (~ In k live /\ ~ In k (kinds_of hc) /\ 0 <= h k - uses pre k).

Lemma pminv_getk : forall h hc pre live k, pminv h hc pre live ->
  Z.max 0 (- getk hc k) = miss h pre k.
Proof.
  intros h hc pre live k (W & L & I). unfold miss. destruct (I k) as [->|(A & B & C)]; [lia|].
  rewrite (getk_notin _ _ B). lia.
Qed.
Lemma pminv_total_neg : forall h hc pre live, pminv h hc pre live -> total (neg hc) = defic h pre.
Proof.
  intros h hc pre live I. rewrite total_neg by apply I. apply sumZ_ext. intros. eapply pminv_getk; eauto.
Qed.
Lemma pminv_bspec : forall h hc pre live, pminv h hc pre live -> bspec h (neg hc) pre.
Proof.
  intros h hc pre live I. split; [apply wf_neg, I|]. split; [apply allpos_neg|].
  intros k. rewrite getk_neg by apply I. eapply pminv_getk; eauto.
Qed.
Lemma pminv_limits : forall h hc pre live limits ig, pminv h hc pre live -> okh ig h ->
  Forall legal_unit pre ->
  (forall k, legal_kind k -> getk limits k = h k - 4) ->
  (ig && negb (within_limits limits hc) = false <-> adm ig pre).
Proof.
  intros h hc pre live limits ig (W & L & I) [O1 O2] Lp Lim. unfold adm. destruct ig; cbn [andb]; [|split; auto; discriminate].
  rewrite negb_false_iff, within_limits_spec by auto. split.
  - intros H _ k. specialize (O2 eq_refl k). destruct (in_dec kind_eq_dec k (kinds_of hc)) as [J|J].
    + specialize (H k J). rewrite Lim in H by (unfold legal_keys in L; rewrite Forall_forall in L; auto).
      destruct (I k) as [E|(A & B & C)]; [lia|tauto].
    + pose proof (getk_notin _ _ J). destruct (I k) as [E|(A & B & C)]; lia.
  - intros H k J. rewrite Lim by (unfold legal_keys in L; rewrite Forall_forall in L; auto).
    specialize (H eq_refl k). destruct (I k) as [E|(A & B & C)]; [lia|tauto].
Qed.

Lemma pminv_step : forall h hc pre live u, pminv h hc pre live -> upper live -> legal_unit u -> In (start u) live ->
  pminv h (subtract hc (unit_ts u)) (pre ++ [u]) live.
Proof.
  intros h hc pre live u (W & L & I) U Lu St. unfold subtract. split; [now apply wf_sub_into|]. split.
  { apply legal_sub_into; auto. now apply unit_ts_legal. }
  intros k. rewrite getk_sub_into, unit_ts_getk by apply unit_ts_wf.
  rewrite uses_app, uses_cons, uses_nil.
  destruct (I k) as [E|(A & B & C)]; [left; lia|].
  assert (Z0 : use1 u k = 0).
  { pose proof (use1_nonneg u k). destruct (Z.eq_dec (use1 u k) 0); auto. exfalso. apply A. eapply upper_unit; eauto. lia. }
  right. split; [auto|]. split; [|lia]. rewrite kinds_sub_into, kinds_unit_ts. rewrite Z0. intros [|]; [tauto|lia].
Qed.
Lemma pminv_next : forall h hc pre t live, pminv h hc pre (view t :: live) -> upper (view t :: live) ->
  pminv h (if 0 <=? get hc t then del hc t else hc) pre live.
Proof.
  intros h hc pre t live (W & L & I) (S & _ & _). inversion S as [|? ? S1 S2]; subst.
  assert (Nt : ~ In (view t) live).
  { intros C. rewrite Forall_forall in S2. apply (kind_lt_irrefl (view t)). auto. }
  destruct (0 <=? get hc t) eqn:E.
  - apply Z.leb_le in E. unfold get in E. split; [now apply wf_del|]. split; [now apply legal_del|]. intros k.
    rewrite getk_del. destruct (kind_eqb (view t) k) eqn:Q.
    + apply kind_eqb_eq in Q; subst k. right. split; [auto|]. split.
      * unfold del. intros J. apply in_map_iff in J. destruct J as (e & E1 & E2). apply filter_In in E2.
        destruct E2 as [_ E2]. apply negb_true_iff in E2. unfold tile_eqb in E2. unfold kview in E1.
        rewrite E1, kind_eqb_refl in E2. discriminate.
      * destruct (I (view t)) as [F|(A & _)]; [lia|]. exfalso; apply A; left; auto.
    + destruct (I k) as [F|(A & B & C)]; [auto|]. right. split; [intros J; apply A; right; auto|]. split; auto.
      intros J. apply B. eapply kinds_filter_in; eauto.
  - split; [auto|split; [auto|]]. intros k. destruct (I k) as [F|(A & B & C)]; [auto|].
    right. split; [intros J; apply A; right; auto|]. auto.
Qed.

Lemma pm_sel_sound : forall fuel maxu ig limits h st hc start pre sel b,
  pminv h hc pre (map view start) -> upper (map view start) -> okh ig h -> Forall legal_unit pre ->
  (forall k, legal_kind k -> getk limits k = h k - 4) ->
  In (sel, b) (pm_sel fuel maxu ig limits st hc start) ->
  exists us, sel = map unit_ts us /\ sh st us /\ adm ig (pre ++ us) /\ defic h (pre ++ us) <= maxu /\ bspec h b (pre ++ us).
Proof.
  induction fuel as [|f IH]; intros maxu ig limits h st hc start0 pre sel b I U O Lp Lim H; cbn [pm_sel] in H; [destruct H|].
  destruct (maxu <? total (neg hc)) eqn:E1; [destruct H|].
  rewrite (pminv_total_neg _ _ _ _ I) in E1. apply Z.ltb_ge in E1.
  destruct (ig && negb (within_limits limits hc)) eqn:E2; [destruct H|].
  apply (pminv_limits h hc pre _ limits ig I O Lp Lim) in E2.
  apply in_app_or in H. destruct H as [H|H].
  - destruct (has_win st) eqn:HW; [|destruct H]. destruct H as [H|[]]. inversion H; subst.
    exists []. rewrite app_nil_r. split; [reflexivity|]. split; [now apply has_win_sh|]. split; [auto|]. split; [auto|].
    eapply pminv_bspec; eauto.
  - destruct (total (pos hc) + maxu <? need_count st); [destruct H|]. clear E1.
    revert hc I H. induction start0 as [|t rest IHl]; intros hc I H; cbn [pm_loop] in H; [destruct H|].
    apply in_app_or in H. destruct H as [H|H].
    + apply in_flat_map in H. destruct H as ([u p'] & Hu & H). cbn [fst snd] in H.
      apply in_map_iff in H. destruct H as ([sel' b'] & E & H). cbn [fst snd] in E. inversion E; subst.
      assert (Lt : legal_kind (view t)). { destruct U as (_ & F & _). inversion F; auto. }
      destruct (next_states_sound st t u p' Lt Hu) as (su & L1 & L2 & -> & L3 & _).
      destruct (IH maxu ig limits h p' (subtract hc (unit_ts su)) (t :: rest) (pre ++ [su]) sel' b) as (us & A & B & C & D & G); auto.
      * apply pminv_step; auto. rewrite L2. left; auto.
      * apply Forall_app; auto.
      * exists (su :: us). rewrite <- app_assoc in *. cbn [app] in *. subst. split; [reflexivity|]. split; [auto|]. auto.
    + apply (IHl (upper_tail _ _ U)) in H; auto. cbn [map] in *. now apply pminv_next.
Qed.

Lemma uses_zero : forall us k, (forall u, In u us -> use1 u k = 0) -> uses us k = 0.
Proof.
  induction us as [|u us IH]; intros k Z0; [apply uses_nil|]. rewrite uses_cons, Z0 by (left; auto).
  rewrite IH; auto. intros; apply Z0; right; auto.
Qed.

Lemma pm_sel_complete : forall fuel maxu ig limits h st hc start0 pre us,
  (length us < fuel)%nat ->
  pminv h hc pre (map view start0) -> upper (map view start0) -> okh ig h -> Forall legal_unit pre ->
  (forall k, legal_kind k -> getk limits k = h k - 4) ->
  sh st us -> (forall u, In u us -> In (start u) (map view start0)) ->
  adm ig (pre ++ us) -> defic h (pre ++ us) <= maxu ->
  exists us' b, Permutation us us' /\ In (map unit_ts us', b) (pm_sel fuel maxu ig limits st hc start0).
Proof.
  induction fuel as [|f IH]; intros maxu ig limits h st hc start0 pre us Hf I U O Lp Lim Sh St A D; [lia|].
  cbn [pm_sel].
  replace (maxu <? total (neg hc)) with false.
  2:{ symmetry. apply Z.ltb_ge. rewrite (pminv_total_neg _ _ _ _ I). pose proof (defic_app_le h pre us). lia. }
  replace (ig && negb (within_limits limits hc)) with false.
  2:{ symmetry. apply (pminv_limits h hc pre _ limits ig I O Lp Lim). eapply adm_app_l; eauto. }
  assert (Lus : Forall legal_unit us) by apply Sh.
  replace (total (pos hc) + maxu <? need_count st) with false.
  2:{ symmetry. apply Z.ltb_ge. rewrite (sh_need_count _ _ Sh), <- sumK_uses by auto.
      rewrite total_pos by apply I. apply Z.le_trans with (sumK (fun k => Z.max 0 (getk hc k)) + defic h (pre ++ us)); [|lia].
      unfold defic, sumK. rewrite <- sumZ_plus. apply sumZ_le. intros k Hk. unfold miss. rewrite uses_app.
      pose proof (uses_nonneg us k). destruct I as (_ & _ & I). destruct (I k) as [E|(N & B & C)]; [lia|].
      rewrite (uses_zero us k); [lia|]. intros u Hu. pose proof (use1_nonneg u k).
      destruct (Z.eq_dec (use1 u k) 0); auto. exfalso. apply N.
      apply (upper_unit _ u k U); auto; [|lia]. rewrite Forall_forall in Lus; auto. }
  destruct us as [|u0 us0].
  { exists [], (neg hc). split; auto. apply in_or_app. left. apply has_win_sh in Sh. rewrite Sh. left; reflexivity. }
  set (us := u0 :: us0) in *.
  assert (Loop : exists us' b, Permutation us us' /\ In (map unit_ts us', b) (pm_loop (pm_sel f maxu ig limits) st hc start0)).
  { revert hc I. induction start0 as [|t rest IHl]; intros hc I.
    - exfalso. apply (St u0). left; auto.
    - cbn [pm_loop]. destruct (start_dec us (view t)) as [(u & Hu & Su)|Nu].
      + destruct (In_pick _ u us Hu) as (r & P).
        destruct (next_states_complete st t u r) as (p' & X1 & X2); [eapply sh_perm; eauto|auto|].
        assert (PP : Permutation (pre ++ us) ((pre ++ [u]) ++ r)).
        { rewrite <- app_assoc. apply Permutation_app_head. exact P. }
        assert (Lu : legal_unit u). { rewrite Forall_forall in Lus; auto. }
        destruct (IH maxu ig limits h p' (subtract hc (unit_ts u)) (t :: rest) (pre ++ [u]) r) as (us' & b & P' & I'); auto.
        * rewrite (Permutation_length P) in Hf. cbn in Hf. lia.
        * apply pminv_step; auto.
        * apply Forall_app; auto.
        * intros w Hw. apply St. rewrite P. right; auto.
        * eapply adm_perm; eauto.
        * rewrite <- (defic_perm h _ _ PP). auto.
        * exists (u :: us'), b. split. { rewrite P. now constructor. }
          apply in_or_app. left. apply in_flat_map. exists (unit_ts u, p'). split; auto.
          cbn [fst snd map]. apply in_map_iff. exists (map unit_ts us', b). split; auto.
      + destruct (IHl (upper_tail _ _ U)) with (hc := if 0 <=? get hc t then del hc t else hc) as (us' & b & P' & I').
        * intros u Hu. destruct (St u Hu) as [E|]; auto. exfalso. apply (Nu u Hu). auto.
        * now apply pminv_next.
        * exists us', b. split; auto. apply in_or_app. right; auto. }
  destruct Loop as (us' & b & P & I'). exists us', b. split; auto. apply in_or_app. right; auto.
Qed.

(** ** the search from a hand *)
Lemma pminv_init : forall hand, good_hand hand -> pminv (getk hand) hand [] (map view ALL_TILES).
Proof. intros hand (W & L & N). split; [auto|split; [auto|]]. intros k. left. rewrite uses_nil. lia. Qed.
Lemma okh_of : forall ig hand, good_hand hand -> (ig = true -> forall k, getk hand k <= 4) -> okh ig (getk hand).
Proof. intros ig hand (W & L & N) H. split; auto. Qed.

Theorem pm_search_sound : forall s hand need ig sel b,
  good_hand hand -> okh ig (getk hand) ->
  In (sel, b) (pm_search (pattern_of s) hand need ig) ->
  exists us, sel = map unit_ts us /\ forms s us /\ adm ig us /\ defic (getk hand) us <= need /\ bspec (getk hand) b us.
Proof.
  intros s hand need ig sel b G O H. unfold pm_search in H.
  destruct (pm_sel_sound (depth (pattern_of s)) need ig (borrowed_limit hand) (getk hand) (pattern_of s) hand ALL_TILES [] sel b) as (us & A & B & C & D & E); auto.
  - now apply pminv_init.
  - rewrite ALL_TILES_view. apply upper_KINDS.
  - intros. now apply getk_borrowed_limit.
  - exists us. split; [auto|]. split; [now apply sh_forms|]. auto.
Qed.
Theorem pm_search_complete : forall s hand need ig us,
  good_hand hand -> okh ig (getk hand) ->
  forms s us -> adm ig us -> defic (getk hand) us <= need ->
  exists us' b, Permutation us us' /\ In (map unit_ts us', b) (pm_search (pattern_of s) hand need ig).
Proof.
  intros s hand need ig us G O F A D. unfold pm_search. apply sh_forms in F.
  apply pm_sel_complete with (h := getk hand) (pre := []); auto.
  - now apply sh_depth.
  - now apply pminv_init.
  - rewrite ALL_TILES_view. apply upper_KINDS.
  - intros. now apply getk_borrowed_limit.
  - intros u Hu. rewrite ALL_TILES_view. apply KINDS_legal. apply start_legal.
    pose proof (sh_legal _ _ F) as L. rewrite Forall_forall in L. auto.
Qed.

Lemma pm_search_nonempty : forall s hand need ig, good_hand hand -> okh ig (getk hand) ->
  (pm_search (pattern_of s) hand need ig <> [] <-> exists us, forms s us /\ adm ig us /\ defic (getk hand) us <= need).
Proof.
  intros s hand need ig G O. split.
  - destruct (pm_search (pattern_of s) hand need ig) as [|[sel b] r] eqn:E; [congruence|]. intros _.
    destruct (pm_search_sound s hand need ig sel b G O) as (us & A & B & C & D & _); [rewrite E; left; auto|]. eauto.
  - intros (us & A & B & C). destruct (pm_search_complete s hand need ig us G O A B C) as (us' & b & _ & I).
    destruct (pm_search _ _ _ _); [destruct I|discriminate].
Qed.

Theorem pm_step_correct : forall s hand ig n fuel, good_hand hand -> okh ig (getk hand) ->
  mindef ig s (getk hand) (Z.of_nat n) -> (n < fuel)%nat ->
  pm_step fuel (pattern_of s) hand ig = Ok (Z.of_nat n - 1).
Proof.
  intros s hand ig n fuel G O M Hf. unfold pm_step.
  assert (H : forall fuel need, (need <= n)%nat -> (n < need + fuel)%nat ->
     pm_step_loop fuel (pattern_of s) hand ig need = Ok (Z.of_nat n - 1)).
  { induction fuel0 as [|f IH]; intros need H1 H2; [lia|]. cbn [pm_step_loop].
    destruct (pm_search (pattern_of s) hand (Z.of_nat need) ig) as [|x r] eqn:E.
    - apply IH; [|lia]. destruct (Nat.eq_dec need n) as [->|]; [|lia]. exfalso.
      destruct M as [(us & A & B & C) _].
      assert (N : pm_search (pattern_of s) hand (Z.of_nat n) ig <> []); [|congruence].
      apply pm_search_nonempty; auto. exists us. split; [auto|split; [auto|lia]].
    - assert (N : pm_search (pattern_of s) hand (Z.of_nat need) ig <> []) by congruence.
      apply pm_search_nonempty in N; auto. destruct N as (us & A & B & C). destruct M as [_ M].
      specialize (M us A B). f_equal. lia. }
  apply H; lia.
Qed.
Theorem pm_step_diverges : forall s hand ig fuel, good_hand hand -> okh ig (getk hand) ->
  (forall us, forms s us -> ~ adm ig us) ->
  pm_step fuel (pattern_of s) hand ig = Err OutOfFuel.
Proof.
  intros s hand ig fuel G O N. unfold pm_step. generalize 0%nat. induction fuel as [|f IH]; intros need; auto.
  cbn [pm_step_loop]. destruct (pm_search (pattern_of s) hand (Z.of_nat need) ig) as [|x r] eqn:E; auto. exfalso.
  assert (Q : pm_search (pattern_of s) hand (Z.of_nat need) ig <> []) by congruence.
  apply pm_search_nonempty in Q; auto. destruct Q as (us & A & B & C). eapply N; eauto.
Qed.

(** ** useful tiles *)
Lemma set_add_in : forall t s k, In k (map view (set_add t s)) <-> k = view t \/ In k (map view s).
Proof.
  intros. unfold set_add. destruct (existsb (tile_eqb t) s) eqn:E.
  - split; auto. intros [->|]; auto. apply existsb_exists in E. destruct E as (x & A & B).
    apply tile_eqb_eq in B. rewrite B. now apply in_map.
  - rewrite map_app, in_app_iff. cbn. intuition congruence.
Qed.
Lemma set_update_in : forall ts s k, In k (map view (set_update s ts)) <-> In k (map view ts) \/ In k (map view s).
Proof.
  unfold set_update. induction ts as [|t ts IH]; intros s k; cbn [fold_left map In]; [tauto|].
  rewrite IH, set_add_in. intuition congruence.
Qed.
Lemma union_borrowed_in : forall A (rs : list (A * tset)) k,
  In k (map view (union_borrowed rs)) <-> exists r, In r rs /\ In k (kinds_of (snd r)).
Proof.
  intros A rs k. unfold union_borrowed.
  assert (G : forall l a, In k (map view (fold_left (fun a (r : A * tset) => set_update a (map fst (snd r))) l a)) <->
     In k (map view a) \/ exists r, In r l /\ In k (kinds_of (snd r))).
  { induction l as [|r l IH]; intros a; cbn [fold_left].
    - split; auto. intros [|(? & [] & _)]; auto.
    - rewrite IH, set_update_in, map_map. change (map (fun x : tile * Z => view (fst x)) (snd r)) with (kinds_of (snd r)). split.
      + intros [[H|H]|(x & H1 & H2)]; auto; right; [exists r|exists x]; split; auto; [left|right]; auto.
      + intros [H|(x & [->|H1] & H2)]; auto. right. eauto. }
  rewrite G. cbn. split; [intros [[]|]; auto|auto].
Qed.
Lemma set_add_nodup : forall t s, NoDup (map view s) -> NoDup (map view (set_add t s)).
Proof.
  intros t s N. unfold set_add. destruct (existsb (tile_eqb t) s) eqn:E; auto. rewrite map_app. apply NoDup_snoc; auto.
  intros C. apply in_map_iff in C. destruct C as (x & A & B).
  assert (existsb (tile_eqb t) s = true); [|congruence]. apply existsb_exists. exists x. split; auto. apply tile_eqb_eq; auto.
Qed.
Lemma set_update_nodup : forall ts s, NoDup (map view s) -> NoDup (map view (set_update s ts)).
Proof.
  unfold set_update. induction ts as [|t ts IH]; intros s N; cbn; auto. apply IH. now apply set_add_nodup.
Qed.
Lemma union_borrowed_nodup : forall A (rs : list (A * tset)), NoDup (map view (union_borrowed rs)).
Proof.
  intros A rs. unfold union_borrowed.
  assert (G : forall l a, NoDup (map view a) -> NoDup (map view (fold_left (fun a (r : A * tset) => set_update a (map fst (snd r))) l a))).
  { induction l as [|r l IH]; intros a N; cbn [fold_left]; auto. apply IH. now apply set_update_nodup. }
  apply G. constructor.
Qed.

(** the faces some best layout is short of *)
Definition useful_spec (lim : bool) (s : shape) (h : counts) (k : kind) : Prop :=
  exists us, forms s us /\ adm lim us /\ mindef lim s h (defic h us) /\ h k < uses us k.

Theorem pm_both_correct : forall s hand ig n fuel, good_hand hand -> okh ig (getk hand) ->
  mindef ig s (getk hand) (Z.of_nat (S n)) -> (S n < fuel)%nat ->
  exists ts, pm_both fuel (pattern_of s) hand ig = Ok (Z.of_nat n, ts) /\ NoDup (map view ts) /\
    forall k, In k (map view ts) <-> useful_spec ig s (getk hand) k.
Proof.
  intros s hand ig n fuel G O M Hf. unfold pm_both.
  set (ts := union_borrowed (pm_search (pattern_of s) hand (Z.of_nat (S n)) ig)).
  assert (Spec : forall k, In k (map view ts) <-> useful_spec ig s (getk hand) k).
  { intros k. unfold ts. rewrite union_borrowed_in. split.
    - intros ([sel b] & I & K). cbn [snd] in K.
      destruct (pm_search_sound s hand _ ig sel b G O I) as (us & A & B & C & D & E).
      exists us. split; [auto|split; [auto|]]. destruct M as [M1 M2]. pose proof (M2 us B C).
      replace (defic (getk hand) us) with (Z.of_nat (S n)) by lia. split; [split; auto|]. now apply (bspec_key _ _ _ _ E).
    - intros (us & A & B & C & D).
      destruct (pm_search_complete s hand (Z.of_nat (S n)) ig us G O A B) as (us' & b & P & I).
      { rewrite (mindef_unique _ _ _ _ _ M C). lia. }
      exists (map unit_ts us', b). split; auto. cbn [snd].
      destruct (pm_search_sound s hand _ ig _ b G O I) as (us2 & E1 & _ & _ & _ & E).
      apply map_unit_ts_inj in E1. subst us2. apply (bspec_key _ _ _ _ E). rewrite <- (uses_perm _ _ k P). auto. }
  assert (Ne : ts <> []).
  { destruct M as [(us & A & B & C) M2].
    assert (exists k, getk hand k < uses us k) as [k Hk].
    { assert (X : 0 < sumK (miss (getk hand) us)) by (unfold defic in C; lia).
      clear - X. unfold sumK in X. induction KINDS as [|k l IH]; cbn [sumZ] in X; [lia|].
      destruct (Z_lt_dec (getk hand k) (uses us k)); [eauto|]. apply IH. unfold miss in *. lia. }
    assert (I : In k (map view ts)).
    { apply Spec. exists us. split; [auto|split; [auto|split; [|auto]]]. rewrite C. split; [eauto|auto]. }
    destruct ts; [destruct I|discriminate]. }
  exists ts. split; [|split; [apply union_borrowed_nodup|exact Spec]].
  assert (H : forall fuel need, (need <= S n)%nat -> (S n < need + fuel)%nat ->
     pm_both_loop fuel (pattern_of s) hand ig need = Ok (Z.of_nat n, ts)).
  { induction fuel0 as [|f IH]; intros need H1 H2; [lia|]. cbn [pm_both_loop].
    destruct (Nat.eq_dec need (S n)) as [->|Q].
    - fold ts. destruct ts as [|t r]; [congruence|]. f_equal. f_equal. lia.
    - assert (E : pm_search (pattern_of s) hand (Z.of_nat need) ig = []).
      { destruct (pm_search (pattern_of s) hand (Z.of_nat need) ig) as [|x r] eqn:E; auto. exfalso.
        assert (N : pm_search (pattern_of s) hand (Z.of_nat need) ig <> []) by congruence.
        apply pm_search_nonempty in N; auto. destruct N as (us & A & B & C). destruct M as [_ M].
        specialize (M us A B). lia. }
      rewrite E. cbn [union_borrowed fold_left]. apply IH; lia. }
  apply H; lia.
Qed.
