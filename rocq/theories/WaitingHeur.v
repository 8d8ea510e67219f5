(** HeuristicPatternMatchWaiting: the staged branch-and-bound search. *)
From Verif Require Import Base Tile TileSet Spec_Tile TileSetFacts Win Spec_Win WinFacts WinProofs Waiting Spec_Waiting WaitingFacts WaitingPM WaitingBrute.
From Coq Require Import List ZArith Lia Bool Permutation Sorted.
Import ListNotations.
Open Scope Z_scope.

(** tiles newly missing when [u] is added to [pre] *)
Definition marg (h : counts) (pre : list munit) (u : munit) : Z := defic h (pre ++ [u]) - defic h pre.

Lemma marg_nonneg : forall h pre u, 0 <= marg h pre u.
Proof. intros. unfold marg. pose proof (defic_app_le h pre [u]). lia. Qed.
Lemma marg_le_size : forall h pre u, legal_unit u -> marg h pre u <= usize u.
Proof.
  intros h pre u L. unfold marg. rewrite <- sumK_use1 by auto.
  enough (defic h (pre ++ [u]) <= defic h pre + sumK (use1 u)) by lia.
  unfold defic, sumK. rewrite <- sumZ_plus. apply sumZ_le. intros k _. unfold miss.
  rewrite uses_app, uses_cons, uses_nil. pose proof (use1_nonneg u k). lia.
Qed.
Lemma marg_grows : forall h pre u w, marg h pre w <= marg h (pre ++ [u]) w.
Proof.
  intros. unfold marg.
  enough (defic h (pre ++ [w]) + defic h (pre ++ [u]) <= defic h ((pre ++ [u]) ++ [w]) + defic h pre) by lia.
  unfold defic, sumK. rewrite <- !sumZ_plus. apply sumZ_le. intros k _. unfold miss.
  rewrite !uses_app, !uses_cons, uses_nil. pose proof (use1_nonneg u k). pose proof (use1_nonneg w k). lia.
Qed.
Lemma defic_nil : forall h, (forall k, 0 <= h k) -> defic h [] = 0.
Proof. intros h H. apply sumZ_zero. intros k _. unfold miss. rewrite uses_nil. specialize (H k). lia. Qed.

(** ** orders of choosing units that the search follows *)
Fixpoint canon (h : counts) (pre us : list munit) (c : nat) (G : list (list tile)) : Prop :=
  match us with
  | [] => True
  | u :: us' => exists c' l1 t rest, marg h pre u = Z.of_nat c' /\ (c <= c')%nat /\
      nth c' G [] = l1 ++ t :: rest /\ view t = start u /\
      canon h (pre ++ [u]) us' c' (set_nth c' (t :: rest) G)
  end.

Lemma canon_lower : forall h us pre c G, canon h pre us c G ->
  defic h pre + Z.of_nat (length us) * Z.of_nat c <= defic h (pre ++ us).
Proof.
  induction us as [|u us IH]; intros pre c G H.
  - rewrite app_nil_r. cbn. lia.
  - cbn [canon] in H. destruct H as (c' & l1 & t & rest & M & Hc & _ & _ & H). apply IH in H.
    rewrite <- app_assoc in H. cbn [app] in H. unfold marg in M. cbn [length].
    assert (Z.of_nat (length us) * Z.of_nat c <= Z.of_nat (length us) * Z.of_nat c') by nia. lia.
Qed.

(** ** results of a search node *)
Definition cnt (r : hres) : Z := fst (fst r).
Definition okr (S : hres -> Prop) (pr : Z) (rs : list hres) (mx mx' : Z) : Prop :=
  Forall S rs /\ mx' <= mx /\ Forall (fun r => mx' + pr <= cnt r <= mx) rs /\
  (mx' = mx \/ Exists (fun r => cnt r = mx' + pr) rs).

Lemma okr_nil : forall S pr mx, okr S pr [] mx mx.
Proof. intros. split; [constructor|]. split; [lia|]. split; [constructor|]. auto. Qed.
Lemma okr_app : forall S pr rs1 rs2 a b c, okr S pr rs1 a b -> okr S pr rs2 b c -> okr S pr (rs1 ++ rs2) a c.
Proof.
  intros S pr rs1 rs2 a b c (A1 & A2 & A3 & A4) (B1 & B2 & B3 & B4). split; [apply Forall_app; auto|]. split; [lia|]. split.
  - apply Forall_app. split.
    + eapply Forall_impl; [|exact A3]. cbv beta. intros; lia.
    + eapply Forall_impl; [|exact B3]. cbv beta. intros; lia.
  - destruct B4 as [->|B4].
    + destruct A4 as [A4|A4]; [auto|]. right. apply Exists_app. auto.
    + right. apply Exists_app. auto.
Qed.
Lemma okr_impl : forall (S S' : hres -> Prop) pr rs a b, (forall r, S r -> S' r) -> okr S pr rs a b -> okr S' pr rs a b.
Proof. intros S S' pr rs a b H (A & B). split; auto. eapply Forall_impl; eauto. Qed.
Lemma okr_map : forall (S S' : hres -> Prop) (f : hres -> hres) pr rs a b, (forall r, cnt (f r) = cnt r) ->
  (forall r, S r -> S' (f r)) -> okr S pr rs a b -> okr S' pr (map f rs) a b.
Proof.
  intros S S' f pr rs a b E H (A & B & C & D). split; [|split; [auto|split]].
  - apply Forall_map. eapply Forall_impl; eauto.
  - apply Forall_map. eapply Forall_impl; [|exact C]. cbv beta. intros r Hr. rewrite E. exact Hr.
  - destruct D as [D|D]; auto. right. apply Exists_exists in D. destruct D as (r & I & Q).
    apply Exists_exists. exists (f r). rewrite E. split; auto. now apply in_map.
Qed.

(** the node's working hand *)
Definition hinv (h : counts) (hc : tset) (pre : list munit) : Prop :=
  wf hc /\ legal_keys hc /\ forall k, getk hc k = h k - uses pre k.
Lemma hinv_pm : forall h hc pre live, hinv h hc pre -> pminv h hc pre live.
Proof. intros h hc pre live (A & B & C). split; [auto|split; auto]. Qed.
Lemma hinv_step : forall h hc pre u, hinv h hc pre -> legal_unit u -> hinv h (subtract hc (unit_ts u)) (pre ++ [u]).
Proof.
  intros h hc pre u (W & L & I) Lu. unfold subtract. split; [now apply wf_sub_into|]. split.
  - apply legal_sub_into; auto. now apply unit_ts_legal.
  - intros k. rewrite getk_sub_into, unit_ts_getk, I, uses_app, uses_cons, uses_nil by apply unit_ts_wf. lia.
Qed.
Lemma hinv_defic : forall h hc pre, hinv h hc pre -> borrowed_tile_count hc = defic h pre.
Proof. intros. unfold borrowed_tile_count. apply pminv_total_neg with (live := []). now apply hinv_pm. Qed.

Lemma next_states_units : forall p t u p', In (u, p') (next_states p t) -> need_units p' = need_units p - 1.
Proof.
  intros [pr m|n used] t u p' H; cbn [next_states] in H.
  - apply in_app_or in H. destruct H as [H|H].
    + destruct (0 <? pr); [|destruct H]. destruct H as [H|[]]. inversion H; subst; cbn [need_units]; lia.
    + destruct (0 <? m); [|destruct H]. apply in_app_or in H. destruct H as [H|H].
      * destruct (flush t); [|destruct H]. destruct H as [H|[]]. inversion H; subst; cbn [need_units]; lia.
      * destruct H as [H|[]]. inversion H; subst; cbn [need_units]; lia.
  - destruct (negb (existsb (tile_eqb t) used) && (0 <? n)); [|destruct H]. destruct H as [H|[]]. inversion H; subst; cbn [need_units]; lia.
Qed.

Definition legal_tiles (l : list tile) : Prop := Forall (fun t => legal_kind (view t)) l.

Lemma set_nth_in : forall A i (x : A) l y, In y (set_nth i x l) -> y = x \/ In y l.
Proof.
  induction i as [|i IH]; intros x [|a l] y H; cbn in H; auto.
  - destruct H; auto. right; right; auto.
  - destruct H as [->|H]; [right; left; auto|]. destruct (IH _ _ _ H); auto. right; right; auto.
Qed.
Lemma set_nth_length : forall A i (x : A) l, length (set_nth i x l) = length l.
Proof. induction i as [|i IH]; intros x [|a l]; cbn; auto. Qed.
Lemma nth_set_nth : forall A i (x : A) l j d, (i < length l)%nat ->
  nth j (set_nth i x l) d = if Nat.eqb i j then x else nth j l d.
Proof.
  induction i as [|i IH]; intros x [|a l] j d H; cbn in *; try lia.
  - destruct j; reflexivity.
  - destruct j; cbn; auto. apply IH. lia.
Qed.

Definition Sres (ig : bool) (h : counts) (pre : list munit) (st : pattern) (r : hres) : Prop :=
  exists us, snd (fst r) = map unit_ts us /\ sh st us /\ adm ig (pre ++ us) /\
    cnt r = defic h (pre ++ us) /\ bspec h (snd r) (pre ++ us).

(** what a node promises *)
Definition node_ok (ig : bool) (h : counts) (pr : Z) (fuel : nat)
    (pre : list munit) (stage : nat) (G : list (list tile)) (st : pattern) (mx : Z)
    (out : list hres * Z) : Prop :=
  okr (Sres ig h pre st) pr (fst out) mx (snd out) /\
  forall us, (length us < fuel)%nat -> sh st us -> canon h pre us stage G -> adm ig (pre ++ us) ->
    defic h (pre ++ us) <= snd out ->
    exists b, In (defic h (pre ++ us), map unit_ts us, b) (fst out).

Theorem h_sel_ok : forall fuel ig limits pr h, okh ig h -> 0 <= pr ->
  (forall k, legal_kind k -> getk limits k = h k - 4) ->
  forall pre stage G st hc mx,
  hinv h hc pre -> Forall legal_unit pre -> Forall legal_tiles G ->
  defic h pre + need_units st * Z.of_nat stage <= mx ->
  node_ok ig h pr fuel pre stage G st mx (h_sel fuel ig limits pr stage G st hc mx).
Proof.
  induction fuel as [|f IH]; intros ig limits pr h O Hpr Lim pre stage G st hc mx I Lp LG E.
  { split; [apply okr_nil|]. intros us H. lia. }
  cbn [h_sel].
  destruct (ig && negb (within_limits limits hc)) eqn:E2.
  { split; [apply okr_nil|]. cbn [snd fst]. intros us _ _ _ A _. exfalso.
    apply adm_app_l in A. apply (pminv_limits h hc pre [] limits ig (hinv_pm _ _ _ _ I) O Lp Lim) in A. congruence. }
  apply (pminv_limits h hc pre [] limits ig (hinv_pm _ _ _ _ I) O Lp Lim) in E2.
  destruct (has_win st) eqn:HW.
  { cbv zeta. pose proof (hinv_defic _ _ _ I) as D. unfold borrowed_tile_count in D.
    assert (N0 : need_units st = 0).
    { apply has_win_sh in HW. rewrite (sh_need_units _ _ HW). reflexivity. }
    rewrite N0 in E. split.
    - cbn [fst snd]. split.
      + constructor; [|constructor]. exists []. rewrite app_nil_r. split; [reflexivity|]. split; [now apply has_win_sh|].
        split; [auto|]. split; [exact D|]. apply pminv_bspec with (live := []). now apply hinv_pm.
      + split; [lia|]. split.
        * constructor; [|constructor]. unfold cnt; cbn [fst]. lia.
        * right. constructor. unfold cnt; cbn [fst]. lia.
    - cbn [fst snd]. intros us _ Sh _ _ _. apply (has_win_nil _ _ HW) in Sh. subst us. rewrite app_nil_r.
      exists (neg hc). left. now rewrite D. }
  set (base := borrowed_tile_count hc). assert (Hb : base = defic h pre) by now apply hinv_defic.
  (* units of one tile *)
  assert (Units : forall t cb tl, legal_kind (view t) -> legal_tiles tl -> (stage <= cb)%nat ->
    forall l mx, incl l (next_states st t) ->
    forall rs mx' ret,
    h_units (h_sel f ig limits pr cb (set_nth cb tl G)) hc base (need_units st * Z.of_nat cb) (Z.of_nat cb) l mx = (rs, mx', ret) ->
    okr (Sres ig h pre st) pr rs mx mx' /\
    (ret = true -> mx' < base + need_units st * Z.of_nat cb) /\
    (forall su us p', In (unit_ts su, p') l -> legal_unit su -> marg h pre su = Z.of_nat cb ->
       (length us < f)%nat -> sh p' us -> sh st (su :: us) -> canon h (pre ++ [su]) us cb (set_nth cb tl G) ->
       adm ig (pre ++ su :: us) -> defic h (pre ++ su :: us) <= mx' ->
       exists b, In (defic h (pre ++ su :: us), map unit_ts (su :: us), b) rs)).
  { intros t cb tl Lt Ltl Hcb. induction l as [|[u p'] l IHl]; intros mx0 Inc rs mx' ret H; cbn [h_units] in H.
    { inversion H; subst. split; [apply okr_nil|]. split; [discriminate|]. intros su us p' []. }
    destruct (base + need_units st * Z.of_nat cb <=? mx0) eqn:Q.
    2:{ inversion H; subst. apply Z.leb_gt in Q. split; [apply okr_nil|]. split; [auto|].
        intros su us p'' _ _ M _ _ Sh C _ Dd. exfalso.
        apply canon_lower in C. rewrite <- app_assoc in C. cbn [app] in C.
        rewrite (sh_need_units _ _ Sh) in Q. cbn [length] in Q. unfold marg in M. lia. }
    apply Z.leb_le in Q.
    destruct (next_states_sound st t u p' Lt (Inc _ (or_introl eq_refl))) as (su & L1 & L2 & -> & L3 & _).
    pose proof (next_states_units _ _ _ _ (Inc _ (or_introl eq_refl))) as NU.
    pose proof (hinv_step h hc pre su I L1) as I'. pose proof (hinv_defic _ _ _ I') as Db.
    set (first := if borrowed_tile_count (subtract hc (unit_ts su)) - base =? Z.of_nat cb then
          (let '(rs0, mx0) := h_sel f ig limits pr cb (set_nth cb tl G) p' (subtract hc (unit_ts su)) mx0 in
           (map (fun x => (fst (fst x), unit_ts su :: snd (fst x), snd x)) rs0, mx0)) else ([], mx0)) in H.
    assert (F1 : okr (Sres ig h pre st) pr (fst first) mx0 (snd first) /\
       (forall us, marg h pre su = Z.of_nat cb ->
         (length us < f)%nat -> sh p' us -> canon h (pre ++ [su]) us cb (set_nth cb tl G) ->
         adm ig (pre ++ su :: us) -> defic h (pre ++ su :: us) <= snd first ->
         exists b, In (defic h (pre ++ su :: us), map unit_ts (su :: us), b) (fst first))).
    { unfold first; clear first H. rewrite Db.
      destruct (defic h (pre ++ [su]) - base =? Z.of_nat cb) eqn:QQ.
      - apply Z.eqb_eq in QQ.
        assert (NO : node_ok ig h pr f (pre ++ [su]) cb (set_nth cb tl G) p' mx0
                   (h_sel f ig limits pr cb (set_nth cb tl G) p' (subtract hc (unit_ts su)) mx0)).
        { apply IH; auto.
          - apply Forall_app; auto.
          - rewrite Forall_forall in *. intros x Hx. apply set_nth_in in Hx. destruct Hx as [->|Hx]; auto.
          - rewrite NU. nia. }
        destruct (h_sel f ig limits pr cb (set_nth cb tl G) p' (subtract hc (unit_ts su)) mx0) as [rs0 mx1].
        destruct NO as [N1 N2]. cbn [fst snd] in *. split.
        + eapply okr_map; [| |exact N1].
          * reflexivity.
          * intros r (us & A & B & C & D & F). exists (su :: us). cbn [fst snd]. rewrite A.
            rewrite <- !app_assoc in *. cbn [app] in *. split; [reflexivity|]. split; [auto|]. split; [auto|]. split; auto.
        + intros us _ Hl Sh C A D. specialize (N2 us Hl Sh C). rewrite <- !app_assoc in N2. cbn [app] in N2.
          destruct (N2 A D) as (b & Hin). exists b. apply in_map_iff.
          exists (defic h (pre ++ su :: us), map unit_ts us, b). split; auto.
      - cbn [fst snd]. split; [apply okr_nil|]. intros us M. apply Z.eqb_neq in QQ. unfold marg in M. lia. }
    destruct first as [rs1 mx1]. cbn [fst snd] in F1. destruct F1 as [F1 F2].
    destruct (h_units (h_sel f ig limits pr cb (set_nth cb tl G)) hc base (need_units st * Z.of_nat cb) (Z.of_nat cb) l mx1)
      as [[rs2 mx2] ret2] eqn:Rest.
    inversion H; subst.
    destruct (IHl mx1 (fun x hx => Inc x (or_intror hx)) _ _ _ Rest) as (R1 & R2 & R3).
    split; [eapply okr_app; eauto|]. split; [auto|].
    intros su0 us p'' [Eq|In'] Lu M Hl Sh Sh' C A D.
    - inversion Eq as [[E1 E3]]. apply unit_ts_inj in E1. subst su0 p''.
      assert (Mono : mx' <= mx1) by apply R1.
      destruct (F2 us M Hl Sh C A) as (b & Hin); [lia|]. exists b. apply in_or_app; auto.
    - destruct (R3 su0 us p'' In' Lu M Hl Sh Sh' C A D) as (b & Hin). exists b. apply in_or_app; auto. }
  (* tiles of one round *)
  assert (Tiles : forall cb, (stage <= cb)%nat -> forall tl mx, legal_tiles tl ->
    forall rs mx' ret,
    h_tiles (h_sel f ig limits pr cb) G cb hc base (need_units st * Z.of_nat cb) st tl mx = (rs, mx', ret) ->
    okr (Sres ig h pre st) pr rs mx mx' /\
    (ret = true -> mx' < base + need_units st * Z.of_nat cb) /\
    (forall su us l1 t rest, tl = l1 ++ t :: rest -> view t = start su -> legal_unit su -> marg h pre su = Z.of_nat cb ->
       (length us < f)%nat -> sh st (su :: us) -> canon h (pre ++ [su]) us cb (set_nth cb (t :: rest) G) ->
       adm ig (pre ++ su :: us) -> defic h (pre ++ su :: us) <= mx' ->
       exists b, In (defic h (pre ++ su :: us), map unit_ts (su :: us), b) rs)).
  { intros cb Hcb. induction tl as [|t tl IHt]; intros mx0 Ltl rs mx' ret H; cbn [h_tiles] in H.
    { inversion H; subst. split; [apply okr_nil|]. split; [discriminate|]. intros su us l1 t rest Q. destruct l1; discriminate. }
    inversion Ltl as [|? ? Lt Ltl']; subst.
    destruct (h_units (h_sel f ig limits pr cb (set_nth cb (t :: tl) G)) hc base (need_units st * Z.of_nat cb) (Z.of_nat cb) (next_states st t) mx0)
      as [[rs1 mx1] ret1] eqn:U1.
    destruct (Units t cb (t :: tl) Lt Ltl Hcb _ _ (incl_refl _) _ _ _ U1) as (A1 & A2 & A3).
    assert (HitNow : forall su us l1 t0 rest, t :: tl = l1 ++ t0 :: rest -> l1 = [] -> view t0 = start su -> legal_unit su -> marg h pre su = Z.of_nat cb ->
       (length us < f)%nat -> sh st (su :: us) -> canon h (pre ++ [su]) us cb (set_nth cb (t0 :: rest) G) ->
       adm ig (pre ++ su :: us) -> defic h (pre ++ su :: us) <= mx1 ->
       exists b, In (defic h (pre ++ su :: us), map unit_ts (su :: us), b) rs1).
    { intros su us l1 t0 rest Q -> Vt Lu M Hl Sh C A D. cbn [app] in Q. inversion Q; subst t0 rest.
      destruct (next_states_complete st t su us Sh) as (p' & X1 & X2); [auto|].
      apply (A3 su us p'); auto. }
    destruct ret1.
    - inversion H; subst. split; [auto|]. split; [auto|].
      intros su us l1 t0 rest Q Vt Lu M Hl Sh C A D. destruct l1 as [|x l1]; [eapply HitNow; eauto|]. exfalso.
      apply canon_lower in C. rewrite <- app_assoc in C. cbn [app] in C. specialize (A2 eq_refl).
      rewrite (sh_need_units _ _ Sh) in A2. cbn [length] in A2. unfold marg in M. lia.
    - destruct (h_tiles (h_sel f ig limits pr cb) G cb hc base (need_units st * Z.of_nat cb) st tl mx1) as [[rs2 mx2] ret2] eqn:T2.
      inversion H; subst. destruct (IHt mx1 Ltl' _ _ _ T2) as (B1 & B2 & B3).
      split; [eapply okr_app; eauto|]. split; [auto|].
      intros su us l1 t0 rest Q Vt Lu M Hl Sh C A D. destruct l1 as [|x l1].
      + assert (Mono : mx' <= mx1) by apply B1.
        destruct (HitNow su us [] t0 rest Q) as (b & Hin); auto; [lia|]. exists b. apply in_or_app; auto.
      + inversion Q; subst. destruct (B3 su us l1 t0 rest) as (b & Hin); auto. exists b. apply in_or_app; auto. }
  (* rounds *)
  assert (Rounds : forall n cb0 mx, (stage <= cb0)%nat ->
    forall rs mx',
    h_rounds (fun cb g st' hd m => h_sel f ig limits pr cb g st' hd m) G hc base st (seq cb0 n) mx = (rs, mx') ->
    okr (Sres ig h pre st) pr rs mx mx' /\
    (forall su us cb l1 t rest, In cb (seq cb0 n) -> nth cb G [] = l1 ++ t :: rest -> view t = start su -> legal_unit su ->
       marg h pre su = Z.of_nat cb ->
       (length us < f)%nat -> sh st (su :: us) -> canon h (pre ++ [su]) us cb (set_nth cb (t :: rest) G) ->
       adm ig (pre ++ su :: us) -> defic h (pre ++ su :: us) <= mx' ->
       exists b, In (defic h (pre ++ su :: us), map unit_ts (su :: us), b) rs)).
  { induction n as [|n IHn]; intros cb0 mx0 Hc rs mx' H; cbn [seq h_rounds] in H.
    { inversion H; subst. split; [apply okr_nil|]. intros su us cb l1 t rest []. }
    change (h_tiles (fun g st' hd m => h_sel f ig limits pr cb0 g st' hd m)) with (h_tiles (h_sel f ig limits pr cb0)) in H.
    assert (Ltl : legal_tiles (nth cb0 G [])).
    { destruct (nth_in_or_default cb0 G []) as [In'|Dd]; [rewrite Forall_forall in LG; auto|rewrite Dd; constructor]. }
    destruct (h_tiles (h_sel f ig limits pr cb0) G cb0 hc base (need_units st * Z.of_nat cb0) st (nth cb0 G []) mx0)
      as [[rs1 mx1] ret1] eqn:T1.
    destruct (Tiles cb0 Hc _ _ Ltl _ _ _ T1) as (A1 & A2 & A3).
    destruct ret1.
    - inversion H; subst. split; [auto|]. intros su us cb l1 t rest Icb Q Vt Lu M Hl Sh C A D.
      destruct (Nat.eq_dec cb cb0) as [->|Ne]; [eapply A3; eauto|]. exfalso.
      assert (cb0 <= cb)%nat. { destruct Icb as [|Icb]; [lia|]. apply in_seq in Icb. lia. }
      apply canon_lower in C. rewrite <- app_assoc in C. cbn [app] in C. specialize (A2 eq_refl).
      rewrite (sh_need_units _ _ Sh) in A2. cbn [length] in A2. unfold marg in M. nia.
    - destruct (h_rounds (fun cb g st' hd m => h_sel f ig limits pr cb g st' hd m) G hc base st (seq (S cb0) n) mx1) as [rs2 mx2] eqn:R2.
      inversion H; subst. destruct (IHn (S cb0) mx1 ltac:(lia) _ _ R2) as (B1 & B2).
      split; [eapply okr_app; eauto|].
      intros su us cb l1 t rest Icb Q Vt Lu M Hl Sh C A D. destruct (Nat.eq_dec cb cb0) as [->|Ne].
      + assert (Mono : mx' <= mx1) by apply B1.
        destruct (A3 su us l1 t rest) as (b & Hin); auto; [lia|]. exists b. apply in_or_app; auto.
      + destruct Icb as [|Icb]; [congruence|].
        destruct (B2 su us cb l1 t rest) as (b & Hin); auto. exists b. apply in_or_app; auto. }
  destruct (h_rounds (fun cb g st' hd m => h_sel f ig limits pr cb g st' hd m) G hc base st
              (seq stage (Z.to_nat (max_unit_length st + 1) - stage)) mx) as [rs mx'] eqn:R.
  destruct (Rounds _ stage mx (le_n _) _ _ R) as (B1 & B2).
  split; [exact B1|]. cbn [fst snd]. intros us Hl Sh C A D. destruct us as [|su us].
  { apply has_win_sh in Sh. congruence. }
  cbn [canon] in C. destruct C as (c' & l1 & t & rest & M & Hc & Q & Vt & C).
  assert (Lu : legal_unit su). { pose proof (sh_legal _ _ Sh) as L. inversion L; auto. }
  apply (B2 su us c' l1 t rest); auto.
  - apply in_seq. pose proof (marg_le_size h pre su Lu). pose proof (max_unit_length_sh _ _ _ Sh). lia.
  - cbn [length] in Hl. lia.
Qed.
