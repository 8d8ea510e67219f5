(** HeuristicPatternMatchWaiting: the public functions. *)
From Verif Require Import Base Tile TileSet Spec_Tile TileSetFacts Win Spec_Win WinFacts WinProofs Waiting Spec_Waiting WaitingFacts WaitingPM WaitingBrute WaitingHeur.
From Coq Require Import List ZArith Lia Bool Permutation Sorted.
Import ListNotations.
Open Scope Z_scope.

(** ** every layout has an order the search follows *)
Lemma pick_min : forall h pre D, D <> [] -> exists u r, Permutation D (u :: r) /\
  forall w, In w r -> marg h pre u < marg h pre w \/
    (marg h pre u = marg h pre w /\ (start u = start w \/ kind_lt (start u) (start w))).
Proof.
  intros h pre D. induction D as [|a D IH]; intros H; [congruence|].
  destruct D as [|b D'].
  - exists a, []. split; auto. intros w [].
  - destruct IH as (u & r & P & M); [discriminate|].
    assert (Cmp : (marg h pre a < marg h pre u \/ (marg h pre a = marg h pre u /\ (start a = start u \/ kind_lt (start a) (start u)))) \/
                  (marg h pre u < marg h pre a \/ (marg h pre u = marg h pre a /\ (start u = start a \/ kind_lt (start u) (start a))))).
    { destruct (Z.lt_trichotomy (marg h pre a) (marg h pre u)) as [?|[?|?]]; auto.
      destruct (kind_lt_total (start a) (start u)) as [?|[?|?]]; auto. }
    destruct Cmp as [C|C].
    + exists a, (u :: r). split; [now constructor|]. intros w [<-|Hw]; auto. specialize (M w Hw).
      destruct C as [C|[C1 C2]], M as [M|[M1 M2]]; try (left; lia). right. split; [lia|].
      destruct C2 as [C2|C2], M2 as [M2|M2]; rewrite ?C2, ?M2 in *; auto.
      right. eapply kind_lt_trans; eauto.
    + exists u, (a :: r). split.
      * rewrite P. constructor.
      * intros w [<-|Hw]; auto.
Qed.

Definition sorted_tiles (l : list tile) : Prop := StronglySorted kind_lt (map view l).

Lemma sorted_tiles_app : forall l1 l2, sorted_tiles (l1 ++ l2) -> sorted_tiles l2.
Proof. induction l1 as [|x l1 IH]; intros l2 H; auto. unfold sorted_tiles in *. cbn in H. inversion H; subst. apply IH; auto. Qed.
Lemma sorted_tiles_suffix : forall l1 t rest k, sorted_tiles (l1 ++ t :: rest) -> In k (map view (l1 ++ t :: rest)) ->
  k = view t \/ kind_lt (view t) k -> In k (map view (t :: rest)).
Proof.
  induction l1 as [|x l1 IH]; intros t rest k S I H; auto.
  unfold sorted_tiles in S. cbn in S. inversion S as [|? ? S1 S2]; subst. cbn [app map In] in I.
  destruct I as [<-|I]; [|eapply IH; eauto]. exfalso.
  assert (Lt : kind_lt (view x) (view t)).
  { rewrite Forall_forall in S2. apply S2. rewrite map_app. apply in_or_app. right. left; auto. }
  destruct H as [H|H].
  - rewrite H in Lt. eapply kind_lt_irrefl; eauto.
  - apply (kind_lt_irrefl (view x)). eapply kind_lt_trans; eauto.
Qed.

Lemma canon_exists : forall n h pre D c G, length D = n ->
  Forall legal_unit D -> Forall sorted_tiles G ->
  (forall u, In u D -> usize u < Z.of_nat (length G)) ->
  (forall u, In u D -> Z.of_nat c <= marg h pre u /\
     forall j, marg h pre u <= Z.of_nat j -> (j < length G)%nat -> In (start u) (map view (nth j G []))) ->
  exists us, Permutation D us /\ canon h pre us c G.
Proof.
  induction n as [|n IH]; intros h pre D c G Ln L SG Sz H.
  - destruct D; [|discriminate]. exists []. split; auto. exact I.
  - destruct (pick_min h pre D) as (u & r & P & M). { destruct D; [discriminate|discriminate]. }
    assert (Hu : In u D) by (rewrite P; left; auto).
    assert (Lu : legal_unit u) by (rewrite Forall_forall in L; auto).
    destruct (H u Hu) as [Hc Hj]. pose proof (marg_nonneg h pre u) as M0. pose proof (marg_le_size h pre u Lu) as M1.
    specialize (Sz u Hu) as Szu.
    set (c' := Z.to_nat (marg h pre u)). assert (Ec : marg h pre u = Z.of_nat c') by (unfold c'; lia).
    assert (Lc : (c' < length G)%nat) by lia.
    assert (Iu : In (start u) (map view (nth c' G []))) by (apply Hj; lia).
    apply in_map_iff in Iu. destruct Iu as (t & Vt & It). apply in_split in It. destruct It as (l1 & rest & Q).
    assert (SQ : sorted_tiles (l1 ++ t :: rest)).
    { rewrite <- Q. rewrite Forall_forall in SG. apply SG. apply nth_In; auto. }
    destruct (IH h (pre ++ [u]) r c' (set_nth c' (t :: rest) G)) as (us & Pu & Cu).
    + apply Permutation_length in P. cbn in P. lia.
    + rewrite Forall_forall in *. intros w Hw. apply L. rewrite P. right; auto.
    + apply Forall_forall. intros x Hx. apply set_nth_in in Hx. destruct Hx as [->|Hx].
      * eapply sorted_tiles_app; eauto.
      * rewrite Forall_forall in SG. auto.
    + intros w Hw. rewrite set_nth_length. apply Sz. rewrite P. right; auto.
    + intros w Hw. assert (HwD : In w D) by (rewrite P; right; auto).
      destruct (H w HwD) as [Wc Wj]. specialize (M w Hw). pose proof (marg_grows h pre u w) as Gr.
      split; [lia|]. intros j Hj1 Hj2. rewrite set_nth_length in Hj2. rewrite nth_set_nth by auto.
      destruct (Nat.eqb c' j) eqn:Ej.
      * apply Nat.eqb_eq in Ej. subst j.
        assert (Eq : marg h pre w = Z.of_nat c') by lia.
        destruct M as [M|[_ M]]; [lia|].
        apply sorted_tiles_suffix with l1; auto.
        -- rewrite <- Q. apply Wj; lia.
        -- rewrite Vt. destruct M as [->|M]; auto.
      * apply Wj; lia.
    + exists (u :: us). split. { rewrite P. now constructor. }
      cbn [canon]. exists c', l1, t, rest. split; [auto|]. split; [lia|]. split; [auto|]. split; [auto|]. exact Cu.
Qed.

(** ** init_search *)
Lemma ins_tile_in : forall t l k, In k (map view (ins_tile t l)) <-> k = view t \/ In k (map view l).
Proof.
  induction l as [|x l IH]; intros k; cbn [ins_tile map In]; [intuition congruence|].
  destruct (tile_eqb t x) eqn:E.
  - apply tile_eqb_eq in E. cbn [map In]. rewrite E. intuition congruence.
  - destruct (tile_ltb t x); cbn [map In]; [intuition congruence|]. rewrite IH. intuition congruence.
Qed.
Lemma ins_tile_sorted : forall t l, sorted_tiles l -> sorted_tiles (ins_tile t l).
Proof.
  unfold sorted_tiles. induction l as [|x l IH]; intros S; cbn [ins_tile map]; [repeat constructor|].
  cbn [map] in S. inversion S as [|? ? S1 S2]; subst. destruct (tile_eqb t x) eqn:E; [auto|].
  destruct (tile_ltb t x) eqn:F.
  - cbn [map]. constructor; auto. constructor; [exact F|].
    rewrite Forall_forall in *. intros k Hk. specialize (S2 k Hk). eapply kind_lt_trans; [exact F|exact S2].
  - cbn [map]. constructor; auto. apply Forall_forall. intros k Hk. apply ins_tile_in in Hk. destruct Hk as [->|Hk].
    + unfold tile_ltb in F. apply kind_ltb_false in F. destruct F as [F|F]; auto.
      exfalso. unfold tile_eqb in E. rewrite F, kind_eqb_refl in E. discriminate.
    + rewrite Forall_forall in S2. auto.
Qed.
Lemma sorted_set_spec : forall l, sorted_tiles (sorted_set l) /\ forall k, In k (map view (sorted_set l)) <-> In k (map view l).
Proof.
  intros l. unfold sorted_set.
  assert (G : forall l a, sorted_tiles a -> sorted_tiles (fold_left (fun a t => ins_tile t a) l a) /\
    forall k, In k (map view (fold_left (fun a t => ins_tile t a) l a)) <-> In k (map view l) \/ In k (map view a)).
  { induction l0 as [|t l0 IH]; intros a S; cbn [fold_left map In]; [split; auto; tauto|].
    destruct (IH (ins_tile t a) (ins_tile_sorted _ _ S)) as [A B]. split; auto. intros k. rewrite B, ins_tile_in. intuition congruence. }
  destruct (G l [] ltac:(constructor)) as [A B]. split; auto. intros k. rewrite B. cbn. tauto.
Qed.

Lemma need_to_borrow_defic : forall hand u, good_hand hand -> legal_unit u ->
  need_to_borrow hand (unit_ts u) = defic (getk hand) [u].
Proof.
  intros hand u (W & L & N) Lu. unfold need_to_borrow. apply hinv_defic. apply (hinv_step (getk hand) hand []); auto.
  split; [auto|split; [auto|]]. intros k. rewrite uses_nil. lia.
Qed.

Lemma init_search_length : forall p hand, length (init_search p hand) = Z.to_nat (max_unit_length p + 1).
Proof. intros. unfold init_search. cbv zeta. rewrite map_length, seq_length. auto. Qed.
Lemma init_search_nth : forall p hand j, (j < length (init_search p hand))%nat ->
  nth j (init_search p hand) [] = sorted_set (flat_map (fun i => map snd (filter (fun u => fst u =? i) (search_units p hand))) (down_to_zero j)).
Proof.
  intros p hand j H. rewrite init_search_length in H. unfold init_search. cbv zeta.
  set (F := fun searching_borrow : nat => _).
  rewrite nth_indep with (d' := F 0%nat) by (rewrite map_length, seq_length; auto).
  rewrite map_nth, seq_nth by auto. reflexivity.
Qed.
Lemma init_search_sorted : forall p hand, Forall sorted_tiles (init_search p hand).
Proof.
  intros. apply Forall_forall. intros x H. unfold init_search in H. cbv zeta in H. apply in_map_iff in H.
  destruct H as (j & <- & _). apply sorted_set_spec.
Qed.
Lemma init_search_legal : forall p hand, Forall legal_tiles (init_search p hand).
Proof.
  intros. apply Forall_forall. intros x H. unfold init_search in H. cbv zeta in H. apply in_map_iff in H.
  destruct H as (j & <- & _). apply Forall_forall. intros t Ht.
  apply (in_map view) in Ht. rewrite (proj2 (sorted_set_spec _)) in Ht.
  apply in_map_iff in Ht. destruct Ht as (t' & E & Ht). rewrite <- E. apply in_flat_map in Ht.
  destruct Ht as (i & _ & Ht). apply in_map_iff in Ht. destruct Ht as ([z t''] & E' & Ht). cbn in E'; subst.
  apply filter_In in Ht. destruct Ht as [Ht _]. unfold search_units in Ht. apply in_flat_map in Ht.
  destruct Ht as (t0 & I0 & Ht). apply in_map_iff in Ht. destruct Ht as (x & E1 & _). inversion E1; subst.
  now apply ALL_TILES_legal.
Qed.
Lemma down_to_zero_in : forall i n, In i (down_to_zero n) <-> 0 <= i <= Z.of_nat n.
Proof.
  intros i n. unfold down_to_zero. rewrite in_map_iff. split.
  - intros (x & <- & H). apply in_rev in H. apply in_seq in H. lia.
  - intros H. exists (Z.to_nat i). split; [lia|]. rewrite <- in_rev. apply in_seq. lia.
Qed.
Lemma init_search_has : forall p hand us u j, good_hand hand -> sh p us -> In u us ->
  defic (getk hand) [u] <= Z.of_nat j -> (j < length (init_search p hand))%nat ->
  In (start u) (map view (nth j (init_search p hand) [])).
Proof.
  intros p hand us u j G Sh Hu D Hj. rewrite init_search_nth by auto. apply sorted_set_spec.
  pose proof (sh_legal _ _ Sh) as L. rewrite Forall_forall in L. specialize (L u Hu) as Lu.
  destruct (ALL_TILES_kind (start u) (start_legal u Lu)) as (t & It & Vt).
  destruct (In_pick _ u us Hu) as (r & P).
  destruct (next_states_complete p t u r) as (p' & X1 & _); [eapply sh_perm; eauto|auto|].
  rewrite <- Vt. apply in_map. apply in_flat_map. exists (defic (getk hand) [u]). split.
  - apply down_to_zero_in. pose proof (defic_nonneg (getk hand) [u]). lia.
  - apply in_map_iff. exists (defic (getk hand) [u], t). split; auto. apply filter_In. split; [|cbn; apply Z.eqb_refl].
    unfold search_units. apply in_flat_map. exists t. split; auto. apply in_map_iff. exists (unit_ts u, p'). split; auto.
    cbn [fst]. now rewrite need_to_borrow_defic.
Qed.

Lemma root_canon : forall s hand us, good_hand hand -> forms s us ->
  exists us', Permutation us us' /\ canon (getk hand) [] us' 0 (init_search (pattern_of s) hand).
Proof.
  intros s hand us G F. apply sh_forms in F. pose proof (sh_legal _ _ F) as L.
  apply canon_exists with (n := length us); auto.
  - apply init_search_sorted.
  - intros u Hu. rewrite init_search_length. destruct (In_pick _ u us Hu) as (r & P).
    assert (usize u <= max_unit_length (pattern_of s)) by (apply max_unit_length_sh with r; eapply sh_perm; eauto).
    assert (0 < usize u) by (destruct u; cbn; lia). lia.
  - intros u Hu. split; [apply marg_nonneg|]. intros j Hj Hl. eapply init_search_has; eauto.
    unfold marg in Hj. cbn [app] in Hj. rewrite defic_nil in Hj by apply G. lia.
Qed.

(** ** the root call *)
Definition root (s : shape) (hand : tset) (ig : bool) (pr mx : Z) : list hres * Z :=
  h_sel (depth (pattern_of s)) ig (borrowed_limit hand) pr 0 (init_search (pattern_of s) hand) (pattern_of s) hand mx.

Lemma root_ok : forall s hand ig pr mx, good_hand hand -> okh ig (getk hand) -> 0 <= pr -> 0 <= mx ->
  node_ok ig (getk hand) pr (depth (pattern_of s)) [] 0 (init_search (pattern_of s) hand) (pattern_of s) mx (root s hand ig pr mx).
Proof.
  intros s hand ig pr mx G O Hp Hm. unfold root. apply h_sel_ok; auto.
  - intros. now apply getk_borrowed_limit.
  - destruct G as (A & B & C). split; [auto|split; [auto|]]. intros k. rewrite uses_nil. lia.
  - apply init_search_legal.
  - rewrite defic_nil by apply G. lia.
Qed.
Lemma root_sound : forall s hand ig pr mx r, good_hand hand -> okh ig (getk hand) -> 0 <= pr -> 0 <= mx ->
  In r (fst (root s hand ig pr mx)) ->
  exists us, snd (fst r) = map unit_ts us /\ forms s us /\ adm ig us /\ cnt r = defic (getk hand) us /\
    bspec (getk hand) (snd r) us /\ cnt r <= mx.
Proof.
  intros s hand ig pr mx r G O Hp Hm I. destruct (root_ok s hand ig pr mx G O Hp Hm) as [(A & _ & B & _) _].
  rewrite Forall_forall in A, B. destruct (A r I) as (us & A1 & A2 & A3 & A4 & A5). cbn [app] in *.
  exists us. split; [auto|]. split; [now apply sh_forms|]. split; [auto|]. split; [auto|]. split; [auto|].
  specialize (B r I). cbv beta in B. lia.
Qed.
Lemma root_complete : forall s hand ig pr mx us, good_hand hand -> okh ig (getk hand) -> 0 <= pr -> 0 <= mx ->
  forms s us -> adm ig us -> defic (getk hand) us <= snd (root s hand ig pr mx) ->
  exists us' b, Permutation us us' /\ In (defic (getk hand) us, map unit_ts us', b) (fst (root s hand ig pr mx)).
Proof.
  intros s hand ig pr mx us G O Hp Hm F A D. destruct (root_ok s hand ig pr mx G O Hp Hm) as [_ C].
  destruct (root_canon s hand us G F) as (us' & P & Cn).
  assert (Sh : sh (pattern_of s) us') by (eapply sh_perm; [exact P|]; now apply sh_forms).
  destruct (C us') as (b & I); auto.
  - now apply sh_depth.
  - cbn [app]. eapply adm_perm; eauto.
  - cbn [app]. rewrite <- (defic_perm _ _ _ P). auto.
  - exists us', b. split; auto. cbn [app] in I. now rewrite (defic_perm _ _ _ P).
Qed.

Lemma min_list_spec : forall l d, In d l -> (forall x, In x l -> d <= x) -> min_list l = Ok d.
Proof.
  induction l as [|x l IH]; intros d I H; [destruct I|]. cbn [min_list].
  destruct l as [|y l'].
  - destruct I as [->|[]]. reflexivity.
  - destruct I as [->|I].
    + assert (G : forall l, l <> [] -> (forall x, In x l -> d <= x) -> exists m, min_list l = Ok m /\ d <= m).
      { clear. induction l as [|a l IH]; intros N H; [congruence|]. cbn [min_list]. destruct l as [|b l'].
        - exists a. split; auto. apply H; left; auto.
        - destruct IH as (m & E & Hm); [discriminate|intros; apply H; right; auto|]. rewrite E.
          exists (Z.min a m). split; auto. pose proof (H a (or_introl eq_refl)). lia. }
      destruct (G (y :: l')) as (m & E & Hm); [discriminate|intros; apply H; right; auto|]. rewrite E. f_equal. lia.
    + rewrite (IH d I); [|intros; apply H; right; auto]. specialize (H x (or_introl eq_refl)). f_equal. lia.
Qed.

Theorem h_step_correct : forall s hand ig d, good_hand hand -> okh ig (getk hand) ->
  mindef ig s (getk hand) d ->
  h_step (pattern_of s) hand ig = if d <=? total hand then Ok (d - 1) else Err ValueError.
Proof.
  intros s hand ig d G O M. unfold h_step. cbv zeta.
  fold (root s hand ig 1 (total hand)).
  assert (Hm : 0 <= total hand).
  { rewrite total_sumK by apply G. apply sumZ_nonneg. intros; apply G. }
  pose proof (root_ok s hand ig 1 (total hand) G O ltac:(lia) Hm) as [(A & B & C & D) _].
  pose proof (root_complete s hand ig 1 (total hand)) as RC.
  pose proof (root_sound s hand ig 1 (total hand)) as RS.
  set (rt := root s hand ig 1 (total hand)) in *. rewrite Forall_forall in C.
  assert (LB : forall r, In r (fst rt) -> d <= cnt r).
  { intros r I. destruct (RS r G O ltac:(lia) Hm I) as (us & _ & F & Ad & E & _). rewrite E. apply M; auto. }
  destruct (d <=? total hand) eqn:Q.
  - apply Z.leb_le in Q. rewrite (min_list_spec _ d); [reflexivity| |].
    + assert (Lt : snd rt < d).
      { destruct (Z_lt_dec (snd rt) d); auto. exfalso. destruct M as [(us & F & Ad & E) _].
        destruct (RC us G O ltac:(lia) Hm F Ad) as (us' & b & _ & I); [lia|].
        specialize (C _ I). cbv beta in C. unfold cnt in C. cbn [fst] in C. lia. }
      destruct D as [D|D]; [lia|]. apply Exists_exists in D. destruct D as (r & I & E).
      specialize (LB r I). apply in_map_iff. exists r. split; auto. unfold cnt in *. lia.
    + intros x I. apply in_map_iff in I. destruct I as (r & <- & I). apply LB; auto.
  - apply Z.leb_gt in Q. destruct (fst rt) as [|r l] eqn:E; [reflexivity|]. exfalso.
    specialize (LB r (or_introl eq_refl)). specialize (C r (or_introl eq_refl)). cbv beta in C. lia.
Qed.

Theorem h_step_none : forall s hand ig, good_hand hand -> okh ig (getk hand) ->
  (forall us, forms s us -> ~ adm ig us) -> h_step (pattern_of s) hand ig = Err ValueError.
Proof.
  intros s hand ig G O N. unfold h_step. cbv zeta. fold (root s hand ig 1 (total hand)).
  assert (Hm : 0 <= total hand).
  { rewrite total_sumK by apply G. apply sumZ_nonneg. intros; apply G. }
  destruct (fst (root s hand ig 1 (total hand))) as [|r l] eqn:E; [reflexivity|]. exfalso.
  destruct (root_sound s hand ig 1 (total hand) r G O ltac:(lia) Hm) as (us & _ & F & A & _); [rewrite E; left; auto|].
  eapply N; eauto.
Qed.

(** ** layouts listed for useful tiles: exactly the best ones *)
Lemma combos_spec : forall s hand d, good_hand hand -> okh true (getk hand) -> mindef true s (getk hand) d ->
  (forall r, In r (h_combos (pattern_of s) hand true (d - 1)) ->
     exists us, snd (fst r) = map unit_ts us /\ forms s us /\ adm true us /\ defic (getk hand) us = d /\ bspec (getk hand) (snd r) us) /\
  (forall us, forms s us -> adm true us -> defic (getk hand) us = d ->
     exists us' r, Permutation us us' /\ In r (h_combos (pattern_of s) hand true (d - 1)) /\
       snd (fst r) = map unit_ts us' /\ bspec (getk hand) (snd r) us').
Proof.
  intros s hand d G O M. unfold h_combos. replace (d - 1 + 1) with d by lia. fold (root s hand true 0 d).
  assert (Hm : 0 <= d) by (eapply mindef_nonneg; eauto).
  split.
  - intros r I. destruct (root_sound s hand true 0 d r G O ltac:(lia) Hm I) as (us & A & F & Ad & E & B & Le).
    exists us. split; [auto|]. split; [auto|]. split; [auto|]. split; [|auto].
    destruct M as [_ M]. specialize (M us F Ad). lia.
  - intros us F Ad E. pose proof (root_ok s hand true 0 d G O ltac:(lia) Hm) as [(_ & _ & _ & D) _].
    destruct (root_complete s hand true 0 d us G O ltac:(lia) Hm F Ad) as (us' & b & P & I).
    + destruct D as [->|D]; [lia|]. apply Exists_exists in D. destruct D as (r & I & Er).
      destruct (root_sound s hand true 0 d r G O ltac:(lia) Hm I) as (us2 & _ & F2 & A2 & E2 & _ & _).
      destruct M as [_ M]. specialize (M us2 F2 A2). lia.
    + exists us', (defic (getk hand) us, map unit_ts us', b). split; [auto|]. split; [auto|]. split; [auto|].
      destruct (root_sound s hand true 0 d _ G O ltac:(lia) Hm I) as (us2 & E2 & _ & _ & _ & B & _).
      cbn [fst snd] in E2. apply map_unit_ts_inj in E2. subst. exact B.
Qed.

Theorem h_both_correct : forall s hand d, good_hand hand -> okh true (getk hand) -> mindef true s (getk hand) d ->
  d <= total hand ->
  exists ts, h_both (pattern_of s) hand true = Ok (d - 1, ts) /\ NoDup (map view ts) /\
    forall k, In k (map view ts) <-> useful_spec true s (getk hand) k.
Proof.
  intros s hand d G O M Hd. unfold h_both. rewrite (h_step_correct s hand true d) by auto.
  replace (d <=? total hand) with true by (symmetry; apply Z.leb_le; auto). cbn [bindr].
  eexists. split; [reflexivity|]. split; [apply union_borrowed_nodup|].
  destruct (combos_spec s hand d G O M) as [CS CC].
  intros k. rewrite union_borrowed_in. split.
  - intros (r & I & K). destruct (CS r I) as (us & _ & F & A & E & B). exists us.
    split; [auto|split; [auto|split; [rewrite E; auto|]]]. now apply (bspec_key _ _ _ _ B).
  - intros (us & F & A & M' & Hk). destruct (CC us F A (mindef_unique _ _ _ _ _ M' M)) as (us' & r & P & I & _ & B).
    exists r. split; auto. apply (bspec_key _ _ _ _ B). now rewrite <- (uses_perm _ _ k P).
Qed.

(** ** batch *)
Lemma fold_units_getk : forall us s k, wf s -> nonneg s ->
  let r := fold_left ts_add (map unit_ts us) s in wf r /\ nonneg r /\ getk r k = getk s k + uses us k.
Proof.
  induction us as [|u us IH]; intros s k W N; cbn [map fold_left].
  - split; [auto|split; [auto|]]. rewrite uses_nil. lia.
  - assert (W1 : wf (add_into s (unit_ts u))) by now apply wf_add_into.
    assert (W2 : wf (keep_positive (add_into s (unit_ts u)))) by now apply wf_filter.
    assert (Gt : forall j, getk (ts_add s (unit_ts u)) j = getk s j + use1 u j).
    { intros j. unfold ts_add. rewrite getk_re_sort, getk_keep_positive, getk_add_into, unit_ts_getk by (auto using unit_ts_wf).
      pose proof (N j). pose proof (use1_nonneg u j). lia. }
    destruct (IH (ts_add s (unit_ts u)) k) as (A & B & C).
    + now apply wf_re_sort.
    + intros j. rewrite Gt. pose proof (N j). pose proof (use1_nonneg u j). lia.
    + split; [auto|split; [auto|]]. rewrite C, Gt, uses_cons. lia.
Qed.

Lemma can_drops_keys : forall hand us k, good_hand hand ->
  (In k (kinds_of (ts_sub hand (fold_left ts_add (map unit_ts us) []))) <-> uses us k < getk hand k).
Proof.
  intros hand us k (W & L & N).
  destruct (fold_units_getk us [] k) as (A & B & C). { constructor. } { intros j. cbn. lia. }
  cbv zeta in *. cbn [getk] in C. set (w := fold_left ts_add (map unit_ts us) []) in *.
  pose proof (getk_ts_sub hand w k W A) as E. split.
  - intros I. unfold ts_sub in I. apply in_map_iff in I. destruct I as ([t v] & Ek & I).
    unfold kview in Ek; cbn in Ek. subst k. unfold keep_positive in I. apply filter_In in I. destruct I as [I P].
    apply Z.ltb_lt in P. cbn in P.
    assert (W' : wf (ts_sub hand w)) by now apply wf_ts_sub.
    assert (I' : In (t, v) (ts_sub hand w)). { apply filter_In. split; auto. now apply Z.ltb_lt. }
    rewrite (getk_in _ _ _ W' I') in E. lia.
  - intros H. destruct (in_dec kind_eq_dec k (kinds_of (ts_sub hand w))) as [|Nn]; auto.
    apply getk_notin in Nn. lia.
Qed.

(** reading the dictionary *)
Definition din (d : list (tile * list tile)) (k j : kind) : Prop :=
  exists t s, In (t, s) d /\ view t = k /\ In j (map view s).
Definition dkeys (d : list (tile * list tile)) : list kind := map (fun e => view (fst e)) d.

Lemma dict_update_keys : forall d t ts k, In k (dkeys (dict_update d t ts)) <-> k = view t \/ In k (dkeys d).
Proof.
  unfold dkeys. induction d as [|[t' s] d IH]; intros t ts k; cbn [dict_update map In fst]; [intuition congruence|].
  destruct (tile_eqb t' t) eqn:E; cbn [map In fst].
  - apply tile_eqb_eq in E. rewrite E. intuition congruence.
  - rewrite IH. intuition congruence.
Qed.
Lemma dict_update_nodup : forall d t ts, NoDup (dkeys d) -> NoDup (dkeys (dict_update d t ts)).
Proof.
  induction d as [|[t' s] d IH]; intros t ts N; cbn [dict_update].
  - repeat constructor. intros [].
  - unfold dkeys in N. cbn [map fst] in N. inversion N as [|? ? N1 N2]; subst.
    destruct (tile_eqb t' t) eqn:E; unfold dkeys; cbn [map fst]; [constructor; auto|].
    constructor; [|apply IH; auto]. intros C. apply dict_update_keys in C. destruct C as [C|C]; [|tauto].
    apply tile_eqb_eq in C. congruence.
Qed.
Lemma dict_update_din : forall d t ts k j,
  din (dict_update d t ts) k j <-> din d k j \/ (k = view t /\ In j (map view ts)).
Proof.
  induction d as [|[t' s] d IH]; intros t ts k j; cbn [dict_update].
  - unfold din. split.
    + intros (a & b & [E|[]] & V & I). inversion E; subst. apply set_update_in in I. destruct I as [I|[]]. auto.
    + intros [(a & b & [] & _)|[-> I]]. exists t, (set_update [] ts). split; [left; auto|]. split; auto.
      apply set_update_in; auto.
  - assert (Cons : forall d0 t0 s0, din ((t0, s0) :: d0) k j <-> (k = view t0 /\ In j (map view s0)) \/ din d0 k j).
    { intros. unfold din. split.
      - intros (a & b & [E|I0] & V & I); [inversion E; subst; auto|right; eauto].
      - intros [[-> I]|(a & b & I0 & V & I)]; [exists t0, s0; split; [left; auto|auto]|exists a, b; split; [right; auto|auto]]. }
    destruct (tile_eqb t' t) eqn:E.
    + apply tile_eqb_eq in E. rewrite !Cons, set_update_in, E. tauto.
    + rewrite !Cons, IH. tauto.
Qed.

Lemma dict_fold_keys : forall ts l d k,
  (In k (dkeys (fold_left (fun d (e : tile * Z) => dict_update d (fst e) ts) l d)) <-> In k (kinds_of l) \/ In k (dkeys d)).
Proof.
  induction l as [|[t v] l IH]; intros d k; cbn [fold_left fst kinds_of map In]; [tauto|].
  rewrite IH, dict_update_keys. change (kview (t, v)) with (view t). unfold kinds_of. intuition congruence.
Qed.
Lemma dict_fold_nodup : forall ts l d, NoDup (dkeys d) ->
  NoDup (dkeys (fold_left (fun d (e : tile * Z) => dict_update d (fst e) ts) l d)).
Proof. induction l as [|[t v] l IH]; intros d N; cbn [fold_left]; auto. apply IH. now apply dict_update_nodup. Qed.
Lemma dict_fold_din : forall ts l d k j,
  (din (fold_left (fun d (e : tile * Z) => dict_update d (fst e) ts) l d) k j <->
   din d k j \/ (In k (kinds_of l) /\ In j (map view ts))).
Proof.
  induction l as [|[t v] l IH]; intros d k j; cbn [fold_left fst kinds_of map In]; [tauto|].
  rewrite IH, dict_update_din. change (kview (t, v)) with (view t). unfold kinds_of. intuition congruence.
Qed.

Definition drops (hand : tset) (r : hres) : tset := ts_sub hand (fold_left ts_add (snd (fst r)) []).
Definition batch_dict (hand : tset) (l : list hres) (d : list (tile * list tile)) : list (tile * list tile) :=
  fold_left (fun d (r : hres) => fold_left (fun d (e : tile * Z) => dict_update d (fst e) (map fst (snd r))) (drops hand r) d) l d.

Lemma batch_dict_spec : forall hand l d, NoDup (dkeys d) ->
  NoDup (dkeys (batch_dict hand l d)) /\
  (forall k, In k (dkeys (batch_dict hand l d)) <-> In k (dkeys d) \/ exists r, In r l /\ In k (kinds_of (drops hand r))) /\
  (forall k j, din (batch_dict hand l d) k j <-> din d k j \/ exists r, In r l /\ In k (kinds_of (drops hand r)) /\ In j (kinds_of (snd r))).
Proof.
  induction l as [|r l IH]; intros d N; cbn [batch_dict fold_left].
  - split; [auto|]. split; intros; split; auto; intros [?|(? & [] & _)]; auto.
  - destruct (IH (fold_left (fun d (e : tile * Z) => dict_update d (fst e) (map fst (snd r))) (drops hand r) d)
                (dict_fold_nodup _ _ _ N)) as (A & B & C).
    split; [exact A|]. split.
    + intros k. unfold batch_dict in B. rewrite B, dict_fold_keys. split.
      * intros [[H|H]|(x & H1 & H2)]; auto; right; [exists r|exists x]; split; auto; [left|right]; auto.
      * intros [H|(x & [<-|H1] & H2)]; auto. right; eauto.
    + intros k j. unfold batch_dict in C. rewrite C, dict_fold_din, map_map.
      change (map (fun x : tile * Z => view (fst x)) (snd r)) with (kinds_of (snd r)). split.
      * intros [[H|H]|(x & H1 & H2)]; auto; right; [exists r|exists x]; split; auto; [left|right]; tauto.
      * intros [H|(x & [<-|H1] & H2)]; auto. right; eauto.
Qed.

Lemma h_batch_unfold : forall p hand ig, h_batch p hand ig =
  do w <- h_step p hand true; Ok (map (fun e => (fst e, w, snd e)) (batch_dict hand (h_combos p hand ig w) [])).
Proof. reflexivity. Qed.

(** discards *)
Lemma without_eq : forall h k j, without h k j = h j - (if kind_eqb k j then 1 else 0).
Proof. intros. unfold without. rewrite same_kind_eqb. destruct (kind_eqb k j); lia. Qed.
Lemma plus_without : forall h k j, plus (without h k) [k] j = h j.
Proof. intros. rewrite plus_one, without_eq. destruct (kind_eqb k j); lia. Qed.
Lemma defic_without : forall h k us, legal_kind k ->
  defic (without h k) us = defic h us + (if h k <=? uses us k then 1 else 0).
Proof.
  intros h k us L. pose proof (defic_plus (without h k) k us L) as E.
  assert (E2 : defic (plus (without h k) [k]) us = defic h us).
  { apply sumZ_ext. intros j _. unfold miss. now rewrite plus_without. }
  rewrite E2 in E. rewrite without_eq, kind_eqb_refl in E.
  destruct (h k - 1 <? uses us k) eqn:Q, (h k <=? uses us k) eqn:R; try lia.
Qed.
Lemma okh_without : forall lim h k, okh lim h -> 0 < h k -> okh lim (without h k).
Proof.
  intros lim h k [A B] P. split.
  - intros j. rewrite without_eq. destruct (kind_eqb k j) eqn:E; [apply kind_eqb_eq in E; subst; lia|]. specialize (A j). lia.
  - intros Hl j. rewrite without_eq. specialize (B Hl j). destruct (kind_eqb k j); lia.
Qed.
Lemma mindef_without : forall lim s h k d, okh lim h -> legal_kind k -> mindef lim s h d ->
  (mindef lim s (without h k) d <-> exists us, forms s us /\ adm lim us /\ defic h us = d /\ uses us k < h k).
Proof.
  intros lim s h k d O L M. split.
  - intros [(us & F & A & E) _]. exists us. rewrite defic_without in E by auto. destruct M as [_ M]. specialize (M us F A).
    destruct (h k <=? uses us k) eqn:Q; [lia|]. apply Z.leb_gt in Q. split; [auto|split; [auto|split; [lia|auto]]].
  - intros (us & F & A & E & U). split.
    + exists us. split; [auto|split; [auto|]]. rewrite defic_without by auto.
      replace (h k <=? uses us k) with false by (symmetry; apply Z.leb_gt; auto). lia.
    + intros us' F' A'. rewrite defic_without by auto. destruct M as [_ M]. specialize (M us' F' A').
      destruct (h k <=? uses us' k); lia.
Qed.

Theorem h_batch_correct : forall s hand d, good_hand hand -> okh true (getk hand) -> mindef true s (getk hand) d ->
  d <= total hand ->
  exists rows, h_batch (pattern_of s) hand true = Ok rows /\
    NoDup (map (fun r => view (fst (fst r))) rows) /\
    (forall k, (exists r, In r rows /\ view (fst (fst r)) = k) <->
       0 < getk hand k /\ mindef true s (without (getk hand) k) d) /\
    (forall t w u, In (t, w, u) rows -> w = d - 1 /\
       forall j, In j (map view u) <-> useful_spec true s (without (getk hand) (view t)) j).
Proof.
  intros s hand d G O M Hd. rewrite h_batch_unfold. rewrite (h_step_correct s hand true d) by auto.
  replace (d <=? total hand) with true by (symmetry; apply Z.leb_le; auto). cbn [bindr].
  eexists. split; [reflexivity|].
  destruct (combos_spec s hand d G O M) as [CS CC].
  destruct (batch_dict_spec hand (h_combos (pattern_of s) hand true (d - 1)) [] ltac:(constructor)) as (N & K & D).
  set (dd := batch_dict hand (h_combos (pattern_of s) hand true (d - 1)) []) in *.
  assert (LegalH : forall k, 0 < getk hand k -> legal_kind k).
  { intros k H. destruct G as (_ & L & _). unfold legal_keys in L. rewrite Forall_forall in L. apply L.
    destruct (in_dec kind_eq_dec k (kinds_of hand)) as [|C]; auto. apply getk_notin in C. lia. }
  assert (Keys : forall k, In k (dkeys dd) <-> 0 < getk hand k /\ mindef true s (without (getk hand) k) d).
  { intros k. rewrite K. split.
    - intros [[]|(r & I & Q)]. destruct (CS r I) as (us & E1 & F & A & E & B).
      unfold drops in Q. rewrite E1 in Q. apply can_drops_keys in Q; auto. pose proof (uses_nonneg us k).
      assert (P : 0 < getk hand k) by lia. split; auto. apply mindef_without; auto. exists us. auto.
    - intros [P Q]. right. apply mindef_without in Q; auto. destruct Q as (us & F & A & E & U).
      destruct (CC us F A E) as (us' & r & Pm & I & E1 & B). exists r. split; auto. unfold drops. rewrite E1.
      apply can_drops_keys; auto. now rewrite <- (uses_perm _ _ k Pm). }
  split; [|split].
  - rewrite map_map. cbn [fst]. exact N.
  - intros k. rewrite <- Keys. unfold dkeys. rewrite in_map_iff. split.
    + intros (r & I & V). apply in_map_iff in I. destruct I as (e & <- & I). exists e. split; auto.
    + intros (e & V & I). exists (fst e, d - 1, snd e). split; [|auto]. apply in_map_iff. exists e. auto.
  - intros t w u I. apply in_map_iff in I. destruct I as ([t' u'] & E & I). cbn [fst snd] in E. inversion E; subst. split; auto.
    assert (Kt : In (view t) (dkeys dd)) by (apply (in_map (fun e => view (fst e))) in I; exact I).
    apply Keys in Kt. destruct Kt as [P Mw]. pose proof (LegalH _ P) as Lt.
    intros j. transitivity (din dd (view t) j).
    + split.
      * intros Hj. exists t, u. auto.
      * intros (t2 & u2 & I2 & V2 & J2).
        assert (Eq : (t2, u2) = (t, u)).
        { clear - N I I2 V2. unfold dkeys in N. induction dd as [|e l IH]; [destruct I|].
          cbn [map] in N. inversion N as [|? ? N1 N2]; subst. destruct I as [->|I], I2 as [E2|I2]; auto.
          - exfalso. apply N1. apply in_map_iff. exists (t2, u2). split; auto.
          - exfalso. apply N1. apply in_map_iff. exists (t, u). split; auto. subst e. cbn. auto. }
        inversion Eq; subst. auto.
    + rewrite D. split.
      * intros [(? & ? & [] & _)|(r & Ir & Q & J)]. destruct (CS r Ir) as (us & E1 & F & A & Ed & B).
        unfold drops in Q. rewrite E1 in Q. apply can_drops_keys in Q; auto.
        apply (bspec_key _ _ _ _ B) in J.
        exists us. split; [auto|split; [auto|]]. rewrite defic_without by auto.
        replace (getk hand (view t) <=? uses us (view t)) with false by (symmetry; apply Z.leb_gt; auto).
        rewrite Ed, Z.add_0_r. split; auto. rewrite without_eq. destruct (kind_eqb (view t) j); lia.
      * intros (us & F & A & Mu & J). right. pose proof (mindef_unique _ _ _ _ _ Mu Mw) as Ed.
        rewrite defic_without in Ed by auto. destruct M as [M0 M]. pose proof (M us F A) as Lb.
        destruct (getk hand (view t) <=? uses us (view t)) eqn:Q; [lia|]. apply Z.leb_gt in Q.
        destruct (CC us F A ltac:(lia)) as (us' & r & Pm & Ir & E1 & B). exists r. split; auto. split.
        -- unfold drops. rewrite E1. apply can_drops_keys; auto. now rewrite <- (uses_perm _ _ _ Pm).
        -- apply (bspec_key _ _ _ _ B). rewrite <- (uses_perm _ _ _ Pm). rewrite without_eq in J.
           destruct (kind_eqb (view t) j) eqn:Ej; [|lia]. apply kind_eqb_eq in Ej. subst j. lia.
Qed.
