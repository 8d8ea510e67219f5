(** Soundness and completeness of the search of win.py. *)
From Verif Require Import Base Tile TileSet Spec_Tile TileSetFacts Win Spec_Win WinFacts.
From Coq Require Import List ZArith Lia Bool Permutation Sorted.
Import ListNotations.
Open Scope Z_scope.

Definition nonneg (s : tset) : Prop := forall k, 0 <= getk s k.

(** ** ts_sub *)
Lemma getk_ts_sub : forall a b k, wf a -> wf b -> getk (ts_sub a b) k = Z.max 0 (getk a k - getk b k).
Proof.
  intros. unfold ts_sub. rewrite getk_keep_positive, getk_sub_into by (auto using wf_sub_into). auto.
Qed.
Lemma wf_ts_sub : forall a b, wf a -> wf (ts_sub a b).
Proof. intros. apply wf_filter, wf_sub_into; auto. Qed.
Lemma legal_ts_sub : forall a b, legal_keys a -> legal_keys b -> legal_keys (ts_sub a b).
Proof. intros. apply legal_filter, legal_sub_into; auto. Qed.
Lemma nonneg_ts_sub : forall a b, wf a -> wf b -> nonneg (ts_sub a b).
Proof. intros a b H1 H2 k. rewrite getk_ts_sub by auto. lia. Qed.

Lemma kinds_put_in : forall s t v, In (view t) (kinds_of s) -> kinds_of (put s t v) = kinds_of s.
Proof. intros. rewrite kinds_put. apply has_key_spec in H. now rewrite H. Qed.

Lemma sorted_sub_into : forall o s, sorted s -> incl (kinds_of o) (kinds_of s) -> sorted (sub_into s o).
Proof.
  unfold sub_into, sorted. induction o as [|[t v] o IH]; intros s S I; cbn; auto.
  apply IH.
  - rewrite kinds_put_in; auto. apply I. cbn; auto.
  - rewrite kinds_put_in; [|apply I; cbn; auto]. intros k Hk. apply I. cbn; auto.
Qed.
Lemma sorted_ts_sub : forall s o, sorted s -> incl (kinds_of o) (kinds_of s) -> sorted (ts_sub s o).
Proof. intros. apply sorted_filter, sorted_sub_into; auto. Qed.

(** ** possible_units *)
Lemma kinds_put_iff : forall s t v k, In k (kinds_of (put s t v)) <-> k = view t \/ In k (kinds_of s).
Proof.
  intros. rewrite kinds_put. destruct (has_key s t) eqn:E.
  - apply has_key_spec in E. split; auto. intros [->|]; auto.
  - rewrite in_app_iff. cbn. intuition congruence.
Qed.
Lemma kinds_add_into : forall o s k, In k (kinds_of (add_into s o)) <-> In k (kinds_of s) \/ In k (kinds_of o).
Proof.
  unfold add_into. induction o as [|[t v] o IH]; intros s k; cbn [fold_left kinds_of map In]; [tauto|].
  rewrite IH, kinds_put_iff. cbn [fst]. change (kview (t, v)) with (view t). unfold kinds_of. intuition congruence.
Qed.
Lemma kinds_unit_ts : forall u k, In k (kinds_of (unit_ts u)) <-> 0 < use1 u k.
Proof.
  intros u k. rewrite <- unit_ts_getk. split.
  - intros H. apply in_map_iff in H. destruct H as ([t v] & A & B).
    unfold kview in A; cbn in A; subst. rewrite (getk_in _ t v (unit_ts_wf u) B).
    destruct u as [[c n]|c n|[c n]]; cbn in B; repeat (destruct B as [B|B]; [inversion B; lia|]); destruct B.
  - intros H. destruct (in_dec kind_eq_dec k (kinds_of (unit_ts u))) as [|N]; auto.
    rewrite getk_notin in H by auto. lia.
Qed.

(** keys at or after [b] form an initial segment of [b], [b+1], [b+2] *)
Definition seg (pu : tset) (b : kind) : Prop :=
  forall k, In k (kinds_of pu) -> ~ kind_lt k b ->
    fst k = fst b /\ snd b <= snd k <= snd b + 2 /\
    (forall j, snd b <= j <= snd k -> In (fst b, j) (kinds_of pu)).

Lemma seg_mono : forall pu b b', seg pu b -> (b = b' \/ kind_lt b b') -> seg pu b'.
Proof.
  intros pu b b' S [->|L] k I N; auto.
  assert (N' : ~ kind_lt k b). { intros C. apply N. eapply kind_lt_trans; eauto. }
  destruct (S k I N') as (A & B & C).
  assert (Ge : k = b' \/ kind_lt b' k). { destruct (kind_lt_total k b') as [?|[?|?]]; auto; tauto. }
  destruct b as [bc bn], b' as [bc' bn'], k as [kc kn]; cbn in *. subst kc.
  assert (bc' = bc /\ bn < bn' <= kn) as [-> Hn].
  { apply kind_lt_spec in L; cbn in L. destruct Ge as [E|Ge].
    - inversion E; subst. destruct L as [L|L]; [lia|]. split; auto; lia.
    - apply kind_lt_spec in Ge; cbn in Ge.
      destruct L as [L|[L1 L2]], Ge as [G|[G1 G2]]; subst; try lia. split; auto; lia. }
  split; auto. split; [lia|]. intros j Hj. apply C. lia.
Qed.

Lemma sorted_snoc : forall s k, StronglySorted kind_lt s -> Forall (fun x => kind_lt x k) s ->
  StronglySorted kind_lt (s ++ [k]).
Proof.
  induction 1; intros F; cbn; [repeat constructor|]. inversion F; subst.
  constructor; auto. apply Forall_app. split; auto.
Qed.

Lemma put_seg : forall pu c n i v, sorted pu -> seg pu (c, n) -> 0 <= i <= 2 ->
  (forall j, n <= j < n + i -> In (c, j) (kinds_of pu)) ->
  sorted (put pu (Plain (n + i) c) v) /\ seg (put pu (Plain (n + i) c) v) (c, n) /\
  (forall j, n <= j <= n + i -> In (c, j) (kinds_of (put pu (Plain (n + i) c) v))).
Proof.
  intros pu c n i v S G Hi H.
  assert (K : forall k, In k (kinds_of (put pu (Plain (n + i) c) v)) <-> k = (c, n + i) \/ In k (kinds_of pu)).
  { intros. rewrite kinds_put_iff. reflexivity. }
  assert (J : forall j, n <= j <= n + i -> In (c, j) (kinds_of (put pu (Plain (n + i) c) v))).
  { intros j Hj. apply K. destruct (Z.eq_dec j (n + i)); [left; congruence|right; apply H; lia]. }
  split; [|split; [|exact J]].
  - unfold sorted. rewrite kinds_put. destruct (has_key pu (Plain (n + i) c)) eqn:E; auto.
    apply has_key_false in E. cbn [view] in *. apply sorted_snoc; auto.
    apply Forall_forall. intros k Ik.
    destruct (kind_lt_total k (c, n + i)) as [?|[->|C]]; auto; [tauto|]. exfalso.
    assert (N : ~ kind_lt k (c, n)).
    { intros Q. apply kind_lt_spec in Q. apply kind_lt_spec in C. cbn in *. destruct Q as [Q|[Q1 Q2]], C as [C|[C1 C2]]; try lia; subst; lia. }
    destruct (G k Ik N) as (A & B & D). cbn in *. apply E. apply D.
    apply kind_lt_spec in C; cbn in C. destruct C as [C|[C1 C2]]; [rewrite A in C; lia|lia].
  - intros k Ik N. apply K in Ik. destruct Ik as [->|Ik].
    + cbn. split; auto. split; [lia|]. exact J.
    + destruct (G k Ik N) as (A & B & D). cbn in *. split; auto. split; [lia|].
      intros j Hj. apply K. right. auto.
Qed.

Lemma fold_put_unit : forall (h : tset -> (tile * Z) -> Z) u pu, sorted pu -> seg pu (start u) ->
  let pu' := fold_left (fun a e => put a (fst e) (h a e)) (unit_ts u) pu in
  sorted pu' /\ seg pu' (start u).
Proof.
  intros h u pu S G.
  assert (P1 : forall c n v, seg pu (c, n) -> sorted (put pu (Plain n c) v) /\ seg (put pu (Plain n c) v) (c, n)
               /\ In (c, n) (kinds_of (put pu (Plain n c) v))).
  { intros c n v G'. destruct (put_seg pu c n 0 v) as (A & B & C); auto; try lia.
    rewrite Z.add_0_r in *. split; [exact A|split; [exact B|apply C; lia]]. }
  destruct u as [[c n]|c n|[c n]]; cbn [unit_ts fold_left fst start] in *; cbv zeta.
  - destruct (P1 c n (h pu (Plain n c, 2)) G) as (A & B & _). auto.
  - destruct (P1 c n (h pu (Plain n c, 1)) G) as (A & B & I0).
    set (p1 := put pu (Plain n c) (h pu (Plain n c, 1))) in *.
    destruct (put_seg p1 c n 1 (h p1 (Plain (n + 1) c, 1))) as (A2 & B2 & C2); auto; try lia.
    { intros j Hj. replace j with n by lia. auto. }
    set (p2 := put p1 (Plain (n + 1) c) (h p1 (Plain (n + 1) c, 1))) in *.
    destruct (put_seg p2 c n 2 (h p2 (Plain (n + 2) c, 1))) as (A3 & B3 & C3); auto; try lia.
    intros j Hj. apply C2. lia.
  - destruct (P1 c n (h pu (Plain n c, 3)) G) as (A & B & _). auto.
Qed.

Definition allpos (s : tset) : Prop := Forall (fun e => 0 < snd e) s.

Lemma total_allpos_zero : forall s, allpos s -> total s = 0 -> s = [].
Proof.
  intros s H. destruct H as [|e s He H]; auto. unfold total. cbn.
  assert (0 <= sumZ snd s). { apply sumZ_nonneg. intros x Hx. rewrite Forall_forall in H. specialize (H x Hx). lia. }
  lia.
Qed.

Lemma put_allpos : forall s t v, allpos s -> 0 < v -> allpos (put s t v).
Proof.
  unfold allpos. induction s as [|[t' v'] s IH]; intros t v H Hv; cbn; auto.
  inversion H; subst. destruct (tile_eqb t' t); constructor; auto.
Qed.
Lemma get_allpos : forall s t, allpos s -> 0 <= get s t.
Proof.
  intros s t H. unfold get. destruct (Z.eq_dec (getk s (view t)) 0) as [->|N]; [lia|].
  destruct (getk_nonzero_in _ _ N) as (t' & A & B). unfold allpos in H. rewrite Forall_forall in H.
  specialize (H _ B). cbn in H. lia.
Qed.
Lemma add_into_allpos : forall o s, allpos s -> allpos o -> allpos (add_into s o).
Proof.
  unfold add_into. induction o as [|[t v] o IH]; intros s Hs Ho; cbn; auto. inversion Ho; subst. cbn in *.
  apply IH; auto. apply put_allpos; auto. pose proof (get_allpos s t Hs). lia.
Qed.
Lemma unit_ts_allpos : forall u, allpos (unit_ts u).
Proof. intros [[c n]|c n|[c n]]; repeat constructor; cbn; lia. Qed.

Lemma update_unit : forall pu u, allpos pu -> update pu (unit_ts u) = add_into pu (unit_ts u).
Proof.
  intros pu u H. unfold update. destruct (total pu =? 0) eqn:E; cbn [negb]; auto.
  apply Z.eqb_eq in E. rewrite (total_allpos_zero _ H E).
  destruct u as [[c n]|c n|[c n]]; unfold add_into; cbn -[kind_eqb Z.add]; auto.
  unfold get; cbn -[kind_eqb Z.add]. unfold tile_eqb; cbn -[kind_eqb Z.add].
  rewrite !(kind_eqb_plus0 c n) by lia. cbn -[kind_eqb Z.add].
  unfold tile_eqb; cbn -[kind_eqb Z.add].
  rewrite !(kind_eqb_plus0 c n) by lia. cbn -[kind_eqb Z.add].
  unfold tile_eqb; cbn -[kind_eqb Z.add].
  rewrite !(kind_eqb_plus c n) by lia. reflexivity.
Qed.

(** [starts_sorted]: starts are nondecreasing *)
Definition ord (a b : munit) : Prop := start a = start b \/ kind_lt (start a) (start b).

Lemma fold_update_units : forall us pu b, StronglySorted ord us ->
  Forall (fun u => b = start u \/ kind_lt b (start u)) us ->
  sorted pu -> allpos pu -> seg pu b ->
  let r := fold_left (fun a u => update a (unit_ts u)) us pu in
  sorted r /\ allpos r /\ (forall k, getk r k = getk pu k + uses us k) /\
  (forall k, In k (kinds_of r) <-> In k (kinds_of pu) \/ 0 < uses us k).
Proof.
  induction us as [|u us IH]; intros pu b S F Sp Ap G; cbn [fold_left].
  - repeat split; auto.
    + intros k. rewrite uses_nil. lia.
    + intros [?|H]; auto. rewrite uses_nil in H. lia.
  - inversion S as [|? ? S1 S2]; subst. inversion F as [|? ? F1 F2]; subst.
    rewrite update_unit by auto.
    assert (G' : seg pu (start u)) by (eapply seg_mono; eauto).
    destruct (fold_put_unit (fun a e => get a (fst e) + snd e) u pu Sp G') as (A & B).
    destruct (IH (add_into pu (unit_ts u)) (start u)) as (R1 & R2 & R3 & R4); auto.
    + apply add_into_allpos; auto. apply unit_ts_allpos.
    + repeat split; auto.
      * intros k. rewrite R3, getk_add_into, unit_ts_getk, uses_cons by apply unit_ts_wf. lia.
      * rewrite R4, kinds_add_into, kinds_unit_ts, uses_cons. pose proof (uses_nonneg us k). pose proof (use1_nonneg u k).
        intros [[?|?]|?]; auto; right; lia.
      * rewrite R4, kinds_add_into, kinds_unit_ts, uses_cons. pose proof (uses_nonneg us k). pose proof (use1_nonneg u k).
        intros [?|?]; auto. destruct (Z.eq_dec (use1 u k) 0); [right|left; right]; lia.
Qed.

(** the units listed by [unit_list], as specification units *)
Lemma contained_units : forall p hand t, legal_kind (view t) ->
  exists us, map fst (contained_states p hand t) = map unit_ts us /\
    Forall (fun u => legal_unit u /\ start u = view t /\ contains hand (unit_ts u) = true) us.
Proof.
  intros p hand t L. unfold contained_states.
  assert (H : forall l, (forall x, In x l -> In x (next_states p t)) ->
    exists us, map fst (filter (fun us => contains hand (fst us)) l) = map unit_ts us /\
    Forall (fun u => legal_unit u /\ start u = view t /\ contains hand (unit_ts u) = true) us).
  { induction l as [|[u p'] l IH]; intros H; cbn [filter map fst].
    - exists []; split; auto.
    - destruct IH as (us & A & B). { intros; apply H; cbn; auto. }
      destruct (contains hand u) eqn:E; [|eauto].
      destruct (next_states_sound p t u p' L (H _ (or_introl eq_refl))) as (su & S1 & S2 & S3 & _). subst.
      exists (su :: us). cbn [map fst]. rewrite A. auto. }
  apply H; auto.
Qed.

Lemma all_units : forall p hand l, StronglySorted kind_lt (kinds_of l) -> legal_keys l ->
  exists us, map fst (flat_map (fun e => contained_states p hand (fst e)) l) = map unit_ts us /\
    StronglySorted ord us /\
    Forall (fun u => legal_unit u /\ In (start u) (kinds_of l) /\ contains hand (unit_ts u) = true) us.
Proof.
  induction l as [|[t v] l IH]; intros S L.
  - exists []; repeat split; constructor.
  - cbn in S. inversion S as [|? ? S1 S2]; subst. inversion L as [|? ? L1 L2]; subst.
    destruct (IH S1 L2) as (us & A & B & C).
    destruct (contained_units p hand t L1) as (us1 & A1 & C1).
    exists (us1 ++ us). cbn [flat_map]. rewrite !map_app. cbn [fst]. rewrite A, A1.
    split; auto. split.
    + assert (F : Forall (fun u => Forall (ord u) us) us1).
      { rewrite Forall_forall in *. intros u Hu. rewrite Forall_forall. intros w Hw. right.
        destruct (C1 u Hu) as (_ & -> & _). destruct (C w Hw) as (_ & I & _). apply S2; auto. }
      clear - F B C1. induction us1 as [|u us1 IH]; cbn; auto. inversion F; inversion C1; subst.
      constructor; auto. apply Forall_app. split; auto.
      rewrite Forall_forall in *. intros w Hw. left. destruct H5 as (_ & -> & _). destruct (H6 w Hw) as (_ & -> & _). auto.
    + apply Forall_app. split.
      * rewrite Forall_forall in *. intros u Hu. destruct (C1 u Hu) as (X & Y & Z). repeat split; auto.
        rewrite Y. left. reflexivity.
      * rewrite Forall_forall in *. intros u Hu. destruct (C u Hu) as (X & Y & Z). repeat split; auto. right; auto.
Qed.

Lemma restrict_facts : forall p hand, sorted hand -> legal_keys hand ->
  let h2 := restrict_hand (possible_units p hand) hand in
  exists us, StronglySorted ord us /\
    Forall (fun u => legal_unit u /\ In (start u) (kinds_of hand) /\ contains hand (unit_ts u) = true) us /\
    map fst (flat_map (fun e => contained_states p hand (fst e)) hand) = map unit_ts us /\
    sorted h2 /\ legal_keys h2 /\
    (forall k, In k (kinds_of h2) <-> 0 < uses us k) /\
    (forall k, getk h2 k = if 0 <? uses us k then getk hand k else 0).
Proof.
  intros p hand S L h2. destruct (all_units p hand hand S L) as (us & A & B & C).
  exists us. split; [exact B|]. split; [exact C|]. split; [exact A|].
  unfold h2, possible_units; clear h2.
  assert (E : fold_left (fun a us => update a (fst us)) (flat_map (fun e => contained_states p hand (fst e)) hand) []
     = fold_left (fun a u => update a (unit_ts u)) us []).
  { clear - A. revert A. generalize (flat_map (fun e => contained_states p hand (fst e)) hand).
    assert (G : forall us l a, map fst l = map unit_ts us ->
       fold_left (fun a (us : tset * pattern) => update a (fst us)) l a = fold_left (fun a u => update a (unit_ts u)) us a).
    { induction us0 as [|u us0 IH]; intros [|x l] a Hl; cbn [map fold_left] in *; try discriminate; auto.
      inversion Hl. rewrite H0. apply IH; auto. }
    intros l A. apply G; auto. }
  rewrite E.
  assert (HF : exists b, Forall (fun u => b = start u \/ kind_lt b (start u)) us).
  { destruct us as [|u us]; [exists (Cm, 0); constructor|]. exists (start u). constructor; auto.
    inversion B; subst; auto. }
  destruct HF as [b HF].
  assert (R : sorted [] /\ allpos [] /\ seg [] b).
  { repeat split; try constructor; destruct H. }
  destruct R as (Ra & Rb & Rc).
  destruct (fold_update_units us [] b B HF Ra Rb Rc) as (R1 & R2 & R3 & R4).
  set (pu := fold_left (fun a u => update a (unit_ts u)) us []) in *.
  assert (KE : kinds_of (restrict_hand pu hand) = kinds_of pu).
  { unfold kinds_of, restrict_hand. rewrite map_map. apply map_ext. intros [t v]; cbn. destruct (0 <? v); reflexivity. }
  unfold sorted, legal_keys. rewrite KE.
  split; [exact R1|]. split; [|split].
  - apply Forall_forall. intros k Hk. apply R4 in Hk. destruct Hk as [[]|Hk].
    clear - C Hk. induction us as [|u us IH]; [rewrite uses_nil in Hk; lia|].
    rewrite uses_cons in Hk. inversion C as [|? ? C1 C2]; subst. pose proof (use1_nonneg u k).
    destruct (Z.eq_dec (use1 u k) 0) as [Z0|NZ].
    + apply IH; auto. lia.
    + eapply use1_legal; [apply C1|lia].
  - intros k. rewrite R4. split; [intros [[]|?]; auto|auto].
  - intros k0.
    assert (G : forall l, (forall e, In e l -> 0 < snd e) ->
       getk (restrict_hand l hand) k0 = if existsb (fun e => kind_eqb (view (fst e)) k0) l then getk hand k0 else 0).
    { induction l as [|[t v] l IH]; intros Hl; cbn [restrict_hand map getk existsb fst snd]; auto.
      replace (0 <? v) with true by (symmetry; apply Z.ltb_lt; apply (Hl (t, v)); left; auto).
      cbn [getk fst]. destruct (kind_eqb (view t) k0) eqn:F; cbn [orb].
      - apply kind_eqb_eq in F. subst. reflexivity.
      - apply IH. intros; apply Hl; right; auto. }
    rewrite G.
    2:{ unfold allpos in R2. rewrite Forall_forall in R2. auto. }
    assert (Q : existsb (fun e => kind_eqb (view (fst e)) k0) pu = (0 <? uses us k0)).
    { destruct (0 <? uses us k0) eqn:F.
      - apply Z.ltb_lt in F. apply existsb_exists. assert (I : In k0 (kinds_of pu)) by (apply R4; auto).
        apply in_map_iff in I. destruct I as (e & I1 & I2). exists e. split; auto. apply kind_eqb_eq. exact I1.
      - apply Z.ltb_ge in F. destruct (existsb _ pu) eqn:X; auto. exfalso.
        apply existsb_exists in X. destruct X as (e & I1 & I2). apply kind_eqb_eq in I2.
        assert (I : In k0 (kinds_of pu)). { rewrite <- I2. change (view (fst e)) with (kview e). now apply in_map. }
        apply R4 in I. destruct I as [[]|I]. lia. }
    now rewrite Q.
Qed.

Definition as_hand (s : tset) : counts := getk s.

(** containment of a unit in a hand with legal nonnegative counts *)
Lemma contains_unit : forall hand u, nonneg hand ->
  (contains hand (unit_ts u) = true <-> forall k, use1 u k <= getk hand k).
Proof.
  intros hand u N. rewrite contains_spec by apply unit_ts_wf. split.
  - intros H k. destruct (in_dec kind_eq_dec k (kinds_of (unit_ts u))) as [I|I].
    + rewrite <- unit_ts_getk. auto.
    + rewrite kinds_unit_ts in I. pose proof (use1_nonneg u k). pose proof (N k). lia.
  - intros H k _. rewrite unit_ts_getk. auto.
Qed.

Lemma sumK_le : forall f g, (forall k, f k <= g k) -> sumK f <= sumK g.
Proof. intros. apply sumZ_le. auto. Qed.

Lemma total_ge_need : forall p us s, sh p us -> wf s -> legal_keys s -> fits us (getk s) -> need_count p <= total s.
Proof.
  intros p us s H W L F. rewrite (sh_need_count _ _ H), <- sumK_uses by (apply (sh_legal _ _ H)).
  rewrite total_sumK by auto. apply sumK_le. exact F.
Qed.

(** ** soundness *)
Theorem win_sel_sound : forall fuel p hand sel,
  sorted hand -> legal_keys hand -> nonneg hand ->
  In sel (win_sel fuel p hand) ->
  exists us, sel = map unit_ts us /\ sh p us /\ fits us (getk hand).
Proof.
  induction fuel as [|f IH]; intros p hand sel S L N H; cbn [win_sel] in H; [destruct H|].
  apply in_app_or in H. destruct H as [H|H].
  - destruct (has_win p) eqn:E; [|destruct H]. destruct H as [<-|[]]. exists []. split; [reflexivity|]. split.
    + now apply has_win_sh.
    + intros k. rewrite uses_nil. apply N.
  - destruct (total hand <? need_count p); [destruct H|].
    cbv zeta in H. destruct (restrict_facts p hand S L) as (us0 & O & C & ME & S2 & L2 & K2 & G2). cbv zeta in *.
    set (h2 := restrict_hand (possible_units p hand) hand) in *.
    destruct (total h2 <? need_count p); [destruct H|].
    (* loop *)
    unfold unit_list in H.
    assert (Loop : forall l hc, (forall e, In e l -> In e hand) ->
        sorted hc -> legal_keys hc -> nonneg hc -> (forall k, getk hc k <= getk hand k) ->
        StronglySorted kind_lt (kinds_of l) ->
        (forall k, (exists k', In k' (kinds_of l) /\ (k = k' \/ kind_lt k' k)) -> getk hc k = getk h2 k /\ (In k (kinds_of h2) -> In k (kinds_of hc))) ->
        In sel (units_loop (win_sel f) (map (fun e => (fst e, contained_states p hand (fst e))) l) hc) ->
        exists us, sel = map unit_ts us /\ sh p us /\ fits us (getk hand)).
    { clear H. induction l as [|[t v] l IHl]; intros hc Hl Sc Lc Nc Le SS Eq H; cbn [map units_loop fst] in H; [destruct H|].
      inversion SS as [|? ? SS1 SS2]; subst.
      apply in_app_or in H. destruct H as [H|H].
      - apply in_flat_map in H. destruct H as ([u p'] & Hu & Hs). cbn in Hs.
        apply in_map_iff in Hs. destruct Hs as (tl & <- & Htl).
        unfold contained_states in Hu. apply filter_In in Hu. destruct Hu as [Hu Hc]. cbn in Hc.
        assert (Lt : legal_kind (view t)).
        { unfold legal_keys in L. rewrite Forall_forall in L. apply L.
          change (view t) with (kview (t, v)). apply in_map. apply Hl. left; auto. }
        destruct (next_states_sound p t u p' Lt Hu) as (su & S1 & S2' & -> & Snd & _).
        assert (Cu : forall k, use1 su k <= getk hc k).
        { intros k. pose proof (use1_nonneg su k). destruct (Z.eq_dec (use1 su k) 0) as [Z0|NZ]; [rewrite Z0; apply Nc|].
          destruct (Eq k) as [E _].
          { exists (view t). split; [left; reflexivity|]. rewrite <- S2'. apply use1_ge_start. lia. }
          rewrite E, G2.
          replace (0 <? uses us0 k) with true.
          - apply contains_unit; auto.
          - symmetry. apply Z.ltb_lt.
            assert (I : In (unit_ts su) (map unit_ts us0)).
            { rewrite <- ME. apply in_map_iff. exists (unit_ts su, p'). split; auto.
              apply in_flat_map. exists (t, v). split; [apply Hl; left; auto|].
              cbn. apply filter_In. auto. }
            apply in_map_iff in I. destruct I as (su' & I1 & I2).
            pose proof (uses_in_le su' us0 k I2). rewrite <- !unit_ts_getk, I1, unit_ts_getk in H0. lia. }
        assert (Inc : incl (kinds_of (unit_ts su)) (kinds_of hc)).
        { intros k Hk. apply kinds_unit_ts in Hk. destruct (in_dec kind_eq_dec k (kinds_of hc)) as [|Nn]; auto.
          apply getk_notin in Nn. specialize (Cu k). lia. }
        destruct (IH p' (ts_sub hc (unit_ts su)) tl) as (us & -> & Hs & Hf); auto.
        + apply sorted_ts_sub; auto.
        + apply legal_ts_sub; auto. now apply unit_ts_legal.
        + apply nonneg_ts_sub. now apply sorted_wf. apply unit_ts_wf.
        + exists (su :: us). split; [reflexivity|]. split; [auto|].
          intros k. rewrite uses_cons. specialize (Hf k).
          rewrite getk_ts_sub, unit_ts_getk in Hf by (auto using sorted_wf, unit_ts_wf).
          specialize (Cu k). specialize (Le k). lia.
      - apply (IHl (del hc t)); auto.
        + intros e He. apply Hl. right; auto.
        + now apply sorted_filter.
        + now apply legal_del.
        + intros k. rewrite getk_del. destruct (kind_eqb (view t) k); [lia|apply Nc].
        + intros k. rewrite getk_del. destruct (kind_eqb (view t) k); [|apply Le].
          pose proof (N k). lia.
        + intros k (k' & Hk' & Hkk).
          assert (Lt : kind_lt (view t) k).
          { rewrite Forall_forall in SS2. specialize (SS2 k' Hk'). unfold kview in SS2; cbn in SS2.
            destruct Hkk as [->|Hkk]; auto. eapply kind_lt_trans; eauto. }
          assert (Ne : kind_eqb (view t) k = false).
          { apply kind_eqb_neq. intros Eq0. rewrite Eq0 in Lt. eapply kind_lt_irrefl; eauto. }
          destruct (Eq k) as [E1 E2]. { exists k'. split; [right; auto|auto]. }
          rewrite getk_del, Ne. split; auto. intros I. specialize (E2 I).
          apply in_map_iff in E2. destruct E2 as (e & X1 & X2). apply in_map_iff. exists e. split; auto.
          apply filter_In. split; auto. apply negb_true_iff. unfold tile_eqb. change (view (fst e)) with (kview e).
          rewrite X1, kind_eqb_sym. exact Ne. }
    apply (Loop hand h2); auto.
    + intros k. rewrite G2. destruct (0 <? uses us0 k); [apply N|lia].
    + intros k. rewrite G2. destruct (0 <? uses us0 k); [lia|apply N].
Qed.

(** ** completeness *)
Lemma In_pick : forall A (x : A) l, In x l -> exists r, Permutation l (x :: r).
Proof.
  intros A x l H. apply in_split in H. destruct H as (a & b & ->). exists (a ++ b).
  symmetry. apply Permutation_middle.
Qed.

Lemma start_dec : forall us k, {u | In u us /\ start u = k} + {forall u, In u us -> start u <> k}.
Proof.
  induction us as [|u us IH]; intros k.
  - right. intros u [].
  - destruct (kind_eq_dec (start u) k) as [E|N].
    + left. exists u. split; auto. left; auto.
    + destruct (IH k) as [(u' & A & B)|N'].
      * left. exists u'. split; auto. right; auto.
      * right. intros w [<-|Hw]; auto.
Qed.

Theorem win_sel_complete : forall fuel p hand us,
  (length us < fuel)%nat ->
  sorted hand -> legal_keys hand -> nonneg hand ->
  sh p us -> fits us (getk hand) ->
  exists us', Permutation us us' /\ In (map unit_ts us') (win_sel fuel p hand).
Proof.
  induction fuel as [|f IH]; intros p hand us Hf S L N H F; [lia|].
  cbn [win_sel].
  destruct us as [|u0 us0].
  - exists []. split; auto. apply in_or_app. left. apply has_win_sh in H. rewrite H. left; auto.
  - set (us := u0 :: us0) in *.
    assert (W : wf hand) by now apply sorted_wf.
    replace (total hand <? need_count p) with false.
    2:{ symmetry. apply Z.ltb_ge. eapply total_ge_need; eauto. }
    cbv zeta. destruct (restrict_facts p hand S L) as (usl & O & C & ME & S2 & L2 & K2 & G2). cbv zeta in *.
    set (h2 := restrict_hand (possible_units p hand) hand) in *.
    (* every unit of us is among the contained units *)
    assert (Cont : forall u, In u us -> contains hand (unit_ts u) = true).
    { intros u Hu. apply contains_unit; auto. intros k. pose proof (uses_in_le u us k Hu). specialize (F k). lia. }
    assert (StIn : forall u, In u us -> In (start u) (kinds_of hand)).
    { intros u Hu. destruct (in_dec kind_eq_dec (start u) (kinds_of hand)) as [|Nn]; auto.
      apply getk_notin in Nn. specialize (F (start u)). pose proof (uses_in_le u us (start u) Hu).
      pose proof (use1_start u). lia. }
    assert (InUsl : forall u, In u us -> In u usl \/ exists u', In u' usl /\ unit_ts u' = unit_ts u).
    { intros u Hu. right. pose proof (StIn u Hu) as I. apply in_map_iff in I. destruct I as ([t v] & I1 & I2).
      unfold kview in I1; cbn in I1.
      destruct (In_pick _ u us Hu) as (r & P).
      destruct (next_states_complete p t u r) as (p' & X1 & X2); [eapply sh_perm; eauto|auto|].
      assert (I : In (unit_ts u) (map unit_ts usl)).
      { rewrite <- ME. apply in_map_iff. exists (unit_ts u, p'). split; auto.
        apply in_flat_map. exists (t, v). split; auto. apply filter_In. split; auto. cbn [fst]. auto. }
      apply in_map_iff in I. destruct I as (u' & A & B). eauto. }
    assert (F2 : fits us (getk h2)).
    { intros k. rewrite G2. destruct (0 <? uses usl k) eqn:E; [apply F|].
      apply Z.ltb_ge in E. assert (Z0 : forall u, In u us -> use1 u k = 0).
      { intros u Hu. pose proof (use1_nonneg u k). destruct (InUsl u Hu) as [I|(u' & I & E')].
        - pose proof (uses_in_le u usl k I). lia.
        - pose proof (uses_in_le u' usl k I). rewrite <- unit_ts_getk, E', unit_ts_getk in H1. lia. }
      clear - Z0. induction us as [|u us IH]; [rewrite uses_nil; lia|]. rewrite uses_cons, Z0 by (left; auto).
      specialize (IH (fun w h => Z0 w (or_intror h))). lia. }
    replace (total h2 <? need_count p) with false.
    2:{ symmetry. apply Z.ltb_ge. eapply total_ge_need; eauto. now apply sorted_wf. }
    assert (Loop : forall l hc, StronglySorted kind_lt (kinds_of l) ->
       sorted hc -> legal_keys hc -> nonneg hc ->
       (forall u, In u us -> In (start u) (kinds_of l)) -> fits us (getk hc) ->
       exists us', Permutation us us' /\
         In (map unit_ts us') (units_loop (win_sel f) (map (fun e => (fst e, contained_states p hand (fst e))) l) hc)).
    { induction l as [|[t v] l IHl]; intros hc SS Sc Lc Nc St Fc; cbn [map units_loop fst].
      - exfalso. apply (St u0). left; auto.
      - inversion SS as [|? ? SS1 SS2]; subst.
        destruct (start_dec us (view t)) as [(u & Hu & Su)|Nu].
        + destruct (In_pick _ u us Hu) as (r & P).
          destruct (next_states_complete p t u r) as (p' & X1 & X2); [eapply sh_perm; eauto|auto|].
          assert (Fr : fits (u :: r) (getk hc)). { intros k. rewrite <- (uses_perm _ _ k P). auto. }
          assert (Inc : incl (kinds_of (unit_ts u)) (kinds_of hc)).
          { intros k Hk. apply kinds_unit_ts in Hk. destruct (in_dec kind_eq_dec k (kinds_of hc)) as [|Nn]; auto.
            apply getk_notin in Nn. specialize (Fr k). rewrite uses_cons in Fr. pose proof (uses_nonneg r k). lia. }
          destruct (IH p' (ts_sub hc (unit_ts u)) r) as (us' & P' & I').
          * rewrite (Permutation_length P) in Hf. cbn in Hf. lia.
          * apply sorted_ts_sub; auto.
          * apply legal_ts_sub; auto. apply unit_ts_legal.
            pose proof (sh_legal _ _ H) as LL. rewrite Forall_forall in LL. auto.
          * apply nonneg_ts_sub. now apply sorted_wf. apply unit_ts_wf.
          * auto.
          * intros k. rewrite getk_ts_sub, unit_ts_getk by (auto using sorted_wf, unit_ts_wf).
            specialize (Fr k). rewrite uses_cons in Fr. lia.
          * exists (u :: us'). split. { rewrite P. now constructor. }
            apply in_or_app. left. apply in_flat_map. exists (unit_ts u, p'). split.
            -- apply filter_In. split; auto. cbn [fst]; auto.
            -- cbn [fst snd]. apply (in_map (cons (unit_ts u))). exact I'.
        + destruct (IHl (del hc t)) as (us' & P' & I'); auto.
          * now apply sorted_filter.
          * now apply legal_del.
          * intros k. rewrite getk_del. destruct (kind_eqb (view t) k); [lia|apply Nc].
          * intros u Hu. destruct (St u Hu) as [E|I]; auto. exfalso. apply (Nu u Hu). symmetry. exact E.
          * intros k. rewrite getk_del. destruct (kind_eqb (view t) k) eqn:E; [|apply Fc].
            apply kind_eqb_eq in E. subst k.
            assert (Z0 : forall u, In u us -> use1 u (view t) = 0).
            { intros u Hu. pose proof (use1_nonneg u (view t)).
              destruct (Z.eq_dec (use1 u (view t)) 0) as [|NZ]; auto. exfalso.
              destruct (use1_ge_start u (view t)) as [E|E]; [lia| |].
              - apply (Nu u Hu). auto.
              - destruct (St u Hu) as [Q|Q].
                + apply (Nu u Hu). symmetry; exact Q.
                + rewrite Forall_forall in SS2. specialize (SS2 _ Q). unfold kview in SS2; cbn in SS2.
                  apply (kind_lt_irrefl (view t)). eapply kind_lt_trans; eauto. }
            clear - Z0. induction us as [|u us IH]; [rewrite uses_nil; lia|]. rewrite uses_cons, Z0 by (left; auto).
            specialize (IH (fun w h => Z0 w (or_intror h))). lia.
          * exists us'. split; auto. apply in_or_app. right. exact I'. }
    destruct (Loop hand h2) as (us' & P & I); auto.
    { intros k. rewrite G2. destruct (0 <? uses usl k); [apply N|lia]. }
    exists us'. split; auto. apply in_or_app. right. exact I.
Qed.

(** ** fuel *)
Lemma units_loop_ext : forall r1 r2 ul h,
  (forall t us, In (t, us) ul -> forall u p', In (u, p') us -> forall h, r1 p' h = r2 p' h) ->
  units_loop r1 ul h = units_loop r2 ul h.
Proof.
  induction ul as [|[t us] ul IH]; intros h H; cbn; auto. f_equal.
  - assert (G : forall l, incl l us -> flat_map (fun us0 => map (cons (fst us0)) (r1 (snd us0) (ts_sub h (fst us0)))) l
      = flat_map (fun us0 => map (cons (fst us0)) (r2 (snd us0) (ts_sub h (fst us0)))) l).
    { induction l as [|[u p'] l IHl]; intros I; cbn; auto. rewrite IHl by (intros x Hx; apply I; right; auto).
      rewrite (H t us (or_introl eq_refl) u p'); auto. apply I; left; auto. }
    apply G. apply incl_refl.
  - apply IH. intros; eapply H; eauto. right; eauto.
Qed.

Lemma next_states_depth : forall p t u p', In (u, p') (next_states p t) -> (depth p' < depth p)%nat.
Proof.
  intros [pr m|n used] t u p' H; cbn in H.
  - apply in_app_or in H. destruct H as [H|H].
    + destruct (0 <? pr) eqn:E; [|destruct H]. apply Z.ltb_lt in E. destruct H as [H|[]]. inversion H; subst; cbn; lia.
    + destruct (0 <? m) eqn:E; [|destruct H]. apply Z.ltb_lt in E. apply in_app_or in H. destruct H as [H|H].
      * destruct (flush t); [|destruct H]. destruct H as [H|[]]. inversion H; subst; cbn; lia.
      * destruct H as [H|[]]. inversion H; subst; cbn; lia.
  - destruct (negb (existsb (tile_eqb t) used) && (0 <? n)) eqn:E; [|destruct H].
    apply andb_true_iff in E. destruct E as [_ E]. apply Z.ltb_lt in E. destruct H as [H|[]]. inversion H; subst; cbn; lia.
Qed.

Lemma win_sel_fuel : forall f1 f2 p hand, (depth p <= f1)%nat -> (depth p <= f2)%nat ->
  win_sel f1 p hand = win_sel f2 p hand.
Proof.
  induction f1 as [|f1 IH]; intros f2 p hand H1 H2.
  - destruct p; cbn in H1; lia.
  - destruct f2 as [|f2]; [destruct p; cbn in H2; lia|].
    cbn [win_sel]. f_equal. destruct (total hand <? need_count p); auto. cbv zeta.
    destruct (total (restrict_hand (possible_units p hand) hand) <? need_count p); auto.
    apply units_loop_ext. intros t us Hin u p' Hu h.
    unfold unit_list in Hin. apply in_map_iff in Hin. destruct Hin as ([t' v] & E & _). inversion E; subst.
    unfold contained_states in Hu. apply filter_In in Hu. destruct Hu as [Hu _].
    apply next_states_depth in Hu. apply IH; lia.
Qed.

(** ** the public functions *)
Definition good_hand (s : tset) : Prop := wf s /\ legal_keys s /\ nonneg s.

Theorem win_selections_sound : forall p hand sel, good_hand hand ->
  In sel (win_selections p hand) ->
  exists us, sel = map unit_ts us /\ sh p us /\ fits us (getk hand).
Proof.
  intros p hand sel (W & L & N) H. unfold win_selections in H.
  destruct (win_sel_sound (depth p) p (re_sort hand) sel (re_sort_sorted _ W) (legal_re_sort _ L)) as (us & A & B & C); auto.
  - intros k. rewrite getk_re_sort by auto. apply N.
  - exists us. split; [exact A|]. split; [exact B|]. intros k. specialize (C k). now rewrite getk_re_sort in C.
Qed.

Theorem win_selections_complete : forall p hand us, good_hand hand ->
  sh p us -> fits us (getk hand) ->
  exists us', Permutation us us' /\ In (map unit_ts us') (win_selections p hand).
Proof.
  intros p hand us (W & L & N) H F. unfold win_selections.
  apply win_sel_complete; auto.
  - now apply sh_depth.
  - now apply re_sort_sorted.
  - now apply legal_re_sort.
  - intros k. rewrite getk_re_sort by auto. apply N.
  - intros k. rewrite getk_re_sort by auto. apply F.
Qed.

Theorem match_iff : forall p hand, good_hand hand ->
  (match_ p hand = true <-> exists us, sh p us /\ fits us (getk hand)).
Proof.
  intros p hand G. unfold match_. split.
  - destruct (win_selections p hand) as [|sel r] eqn:E; [discriminate|]. intros _.
    destruct (win_selections_sound p hand sel G) as (us & _ & A & B); eauto. rewrite E; left; auto.
  - intros (us & A & B). destruct (win_selections_complete p hand us G A B) as (us' & _ & I).
    destruct (win_selections p hand); [destruct I|reflexivity].
Qed.
