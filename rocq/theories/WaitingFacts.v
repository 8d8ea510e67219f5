(** Distance from winning as the least number of missing tiles over all layouts. *)
From Verif Require Import Base Tile TileSet Spec_Tile TileSetFacts Win Spec_Win WinFacts WinProofs Waiting Spec_Waiting.
From Coq Require Import List ZArith Lia Bool Permutation Sorted.
Import ListNotations.
Open Scope Z_scope.

(** tiles missing to lay out [us] from [h] *)
Definition miss (h : counts) (us : list munit) (k : kind) : Z := Z.max 0 (uses us k - h k).
Definition defic (h : counts) (us : list munit) : Z := sumK (miss h us).
Definition adm (lim : bool) (us : list munit) : Prop := lim = true -> forall k, uses us k <= 4.
Definition okh (lim : bool) (h : counts) : Prop := (forall k, 0 <= h k) /\ (lim = true -> forall k, h k <= 4).

Definition mindef (lim : bool) (s : shape) (h : counts) (n : Z) : Prop :=
  (exists us, forms s us /\ adm lim us /\ defic h us = n) /\
  (forall us, forms s us -> adm lim us -> n <= defic h us).

Lemma defic_nonneg : forall h us, 0 <= defic h us.
Proof. intros. apply sumZ_nonneg. intros. unfold miss. lia. Qed.

Lemma uses_legal : forall us k, Forall legal_unit us -> 0 < uses us k -> legal_kind k.
Proof.
  induction us as [|u us IH]; intros k L H.
  - rewrite uses_nil in H. lia.
  - inversion L as [|? ? L1 L2]; subst. rewrite uses_cons in H.
    destruct (Z_lt_dec 0 (use1 u k)); [eapply use1_legal; eauto|]. apply IH; auto.
    pose proof (use1_nonneg u k). lia.
Qed.

Lemma count_repeat : forall k j n, count_kind k (repeat j n) = if kind_eqb j k then Z.of_nat n else 0.
Proof.
  induction n as [|n IH]; cbn [repeat].
  - destruct (kind_eqb j k); reflexivity.
  - unfold count_kind in *. cbn [sumZ]. rewrite IH, same_kind_eqb. destruct (kind_eqb j k); lia.
Qed.
Lemma count_flat : forall (f : kind -> nat) l k, NoDup l ->
  count_kind k (flat_map (fun j => repeat j (f j)) l) = if in_dec kind_eq_dec k l then Z.of_nat (f k) else 0.
Proof.
  induction l as [|j l IH]; intros k N; cbn [flat_map].
  - destruct (in_dec kind_eq_dec k []) as [[]|]. reflexivity.
  - inversion N as [|? ? N1 N2]; subst. rewrite count_kind_app, IH, count_repeat by auto.
    destruct (kind_eqb j k) eqn:E.
    + apply kind_eqb_eq in E; subst. destruct (in_dec kind_eq_dec k l); [tauto|].
      destruct (in_dec kind_eq_dec k (k :: l)) as [|C]; [lia|]. exfalso; apply C; left; auto.
    + apply kind_eqb_neq in E. destruct (in_dec kind_eq_dec k l) as [I|I], (in_dec kind_eq_dec k (j :: l)) as [I'|I']; try lia.
      * exfalso; apply I'; right; auto.
      * exfalso. destruct I'; auto.
Qed.

(** the missing tiles, listed *)
Definition missing_list (h : counts) (us : list munit) : list kind :=
  flat_map (fun j => repeat j (Z.to_nat (miss h us j))) KINDS.
Lemma count_missing : forall h us k, Forall legal_unit us -> (forall k, 0 <= h k) ->
  count_kind k (missing_list h us) = miss h us k.
Proof.
  intros h us k L N. unfold missing_list. rewrite count_flat by apply KINDS_NoDup.
  destruct (in_dec kind_eq_dec k KINDS) as [I|I].
  - unfold miss. lia.
  - rewrite KINDS_legal in I. unfold miss. specialize (N k).
    destruct (Z_lt_dec 0 (uses us k)) as [P|P]; [exfalso; apply I; eapply uses_legal; eauto|]. lia.
Qed.
Lemma length_missing : forall h us, length (missing_list h us) = Z.to_nat (defic h us).
Proof.
  intros h us. unfold missing_list, defic, sumK. induction KINDS as [|k l IH]; cbn [flat_map sumZ]; auto.
  rewrite app_length, repeat_length, IH. unfold miss at 1 3.
  assert (0 <= sumZ (miss h us) l) by (apply sumZ_nonneg; intros; unfold miss; lia). lia.
Qed.
Lemma missing_legal : forall h us, Forall legal_kind (missing_list h us).
Proof.
  intros. apply Forall_forall. intros k H. apply in_flat_map in H. destruct H as (j & A & B).
  apply repeat_spec in B. subst. now apply KINDS_legal.
Qed.

Lemma reach_of_units : forall lim s h us, okh lim h -> forms s us -> adm lim us ->
  reach lim s h (Z.to_nat (defic h us)).
Proof.
  intros lim s h us [N M] F A. assert (L : Forall legal_unit us) by apply F.
  exists (missing_list h us). split; [apply length_missing|]. split; [apply missing_legal|]. split.
  - intros Hl k. unfold plus. rewrite count_missing by auto. unfold miss.
    specialize (A Hl k). specialize (M Hl k). lia.
  - exists us. split; auto. intros k. unfold plus. rewrite count_missing by auto. unfold miss. specialize (N k). lia.
Qed.

Lemma units_of_reach : forall lim s h n, reach lim s h n ->
  exists us, forms s us /\ adm lim us /\ defic h us <= Z.of_nat n.
Proof.
  intros lim s h n (add & Ln & Lg & Lm & us & F & W). exists us. split; [auto|]. split.
  - intros Hl k. specialize (Lm Hl k). specialize (W k). lia.
  - rewrite <- Ln, <- sumK_count by auto. apply sumK_le. intros k. unfold miss. specialize (W k).
    unfold plus in W. pose proof (count_kind_nonneg k add). lia.
Qed.

Theorem distance_mindef : forall lim s h n, okh lim h ->
  (distance lim s h n <-> mindef lim s h (Z.of_nat n)).
Proof.
  intros lim s h n O. split.
  - intros [R M].
    assert (LB : forall us, forms s us -> adm lim us -> Z.of_nat n <= defic h us).
    { intros us F A. specialize (M _ (reach_of_units lim s h us O F A)). pose proof (defic_nonneg h us). lia. }
    split; auto. destruct (units_of_reach _ _ _ _ R) as (us & F & A & D). exists us. split; [auto|split; [auto|]].
    specialize (LB us F A). lia.
  - intros [(us & F & A & D) M]. split.
    + pose proof (reach_of_units lim s h us O F A) as R. rewrite D, Nat2Z.id in R. auto.
    + intros m R. destruct (units_of_reach _ _ _ _ R) as (us' & F' & A' & D'). specialize (M us' F' A'). lia.
Qed.

Lemma mindef_unique : forall lim s h a b, mindef lim s h a -> mindef lim s h b -> a = b.
Proof.
  intros lim s h a b [(u & F & A & D) M] [(u' & F' & A' & D') M'].
  specialize (M u' F' A'). specialize (M' u F A). lia.
Qed.
Lemma mindef_nonneg : forall lim s h a, mindef lim s h a -> 0 <= a.
Proof. intros lim s h a [(u & F & A & <-) _]. apply defic_nonneg. Qed.

Lemma mindef_ext : forall lim s h h' n, (forall k, legal_kind k -> h k = h' k) -> mindef lim s h n -> mindef lim s h' n.
Proof.
  intros lim s h h' n E.
  assert (D : forall us, defic h us = defic h' us).
  { intros us. apply sumZ_ext. intros k Hk. unfold miss. rewrite E; auto. now apply KINDS_legal. }
  intros [(u & F & A & B) M]. split.
  - exists u. rewrite <- D. auto.
  - intros. rewrite <- D. auto.
Qed.

(** ** the borrowed tiles of a layout *)
Definition bspec (h : counts) (b : tset) (us : list munit) : Prop :=
  wf b /\ allpos b /\ forall k, getk b k = miss h us k.

Lemma bspec_key : forall h b us k, bspec h b us -> (In k (kinds_of b) <-> h k < uses us k).
Proof.
  intros h b us k (W & P & G). split.
  - intros I. apply in_map_iff in I. destruct I as ([t v] & E & I). unfold kview in E; cbn in E; subst.
    pose proof (getk_in _ _ _ W I) as E. rewrite G in E. unfold allpos in P. rewrite Forall_forall in P.
    specialize (P _ I). cbn in P. unfold miss in E. lia.
  - intros H. destruct (in_dec kind_eq_dec k (kinds_of b)) as [|C]; auto.
    apply getk_notin in C. rewrite G in C. unfold miss in C. lia.
Qed.
Lemma allpos_neg : forall s, allpos (neg s).
Proof.
  intros. unfold allpos, neg. apply Forall_forall. intros e H. apply in_map_iff in H.
  destruct H as (x & <- & H). apply filter_In in H. destruct H as [_ H]. apply Z.ltb_lt in H. cbn [snd]. lia.
Qed.

Lemma legal_neg : forall s, legal_keys s -> legal_keys (neg s).
Proof.
  intros s L. unfold legal_keys. rewrite kinds_neg. now apply legal_filter.
Qed.

(** ** ALL_TILES *)
Lemma ALL_TILES_view : map view ALL_TILES = KINDS.
Proof. reflexivity. Qed.
Lemma KINDS_sorted : StronglySorted kind_lt KINDS.
Proof.
  unfold KINDS, suit_kinds. cbn [map app].
  repeat (constructor; [|repeat (constructor; [reflexivity|]); constructor]). constructor.
Qed.

Definition upper (l : list kind) : Prop :=
  StronglySorted kind_lt l /\ Forall legal_kind l /\
  (forall k k', In k' l -> kind_lt k' k -> legal_kind k -> In k l).
Lemma upper_KINDS : upper KINDS.
Proof.
  split; [apply KINDS_sorted|]. split.
  - apply Forall_forall. intros. now apply KINDS_legal.
  - intros. now apply KINDS_legal.
Qed.
Lemma upper_tail : forall x l, upper (x :: l) -> upper l.
Proof.
  intros x l (S & L & U). inversion S as [|? ? S1 S2]; subst. inversion L; subst. split; [auto|]. split; [auto|].
  intros k k' I Lt Lk. destruct (U k k' (or_intror I) Lt Lk) as [<-|]; auto. exfalso.
  rewrite Forall_forall in S2. specialize (S2 k' I). apply (kind_lt_irrefl x). eapply kind_lt_trans; eauto.
Qed.
Lemma upper_unit : forall l u k, upper l -> legal_unit u -> In (start u) l -> 0 < use1 u k -> In k l.
Proof.
  intros l u k (S & L & U) Lu I H. destruct (use1_ge_start u k H) as [->|Lt]; auto.
  eapply U; eauto. eapply use1_legal; eauto.
Qed.

(** ** borrow limits *)
Lemma getk_borrowed_limit : forall hand k, legal_kind k -> getk (borrowed_limit hand) k = getk hand k - 4.
Proof.
  intros hand k L. unfold borrowed_limit.
  assert (G : forall l s, NoDup (map view l) ->
    getk (fold_left (fun a t => put a t (get a t - 4)) l s) k =
    if in_dec kind_eq_dec k (map view l) then getk s k - 4 else getk s k).
  { induction l as [|t l IH]; intros s N; cbn [fold_left map].
    - destruct (in_dec kind_eq_dec k []) as [[]|]; auto.
    - inversion N as [|? ? N1 N2]; subst. rewrite IH by auto. rewrite getk_put. unfold get.
      destruct (kind_eqb (view t) k) eqn:E.
      + apply kind_eqb_eq in E; subst. destruct (in_dec kind_eq_dec (view t) (map view l)); [tauto|].
        destruct (in_dec kind_eq_dec (view t) (view t :: map view l)) as [|C]; auto. exfalso; apply C; left; auto.
      + apply kind_eqb_neq in E. destruct (in_dec kind_eq_dec k (map view l)) as [I|I], (in_dec kind_eq_dec k (view t :: map view l)) as [I'|I']; auto.
        * exfalso; apply I'; right; auto.
        * exfalso; destruct I'; auto. }
  rewrite G; rewrite ALL_TILES_view; [|apply KINDS_NoDup].
  destruct (in_dec kind_eq_dec k KINDS) as [|C]; auto. exfalso. apply C. now apply KINDS_legal.
Qed.

Lemma within_limits_spec : forall limits hand, wf hand ->
  (within_limits limits hand = true <-> forall k, In k (kinds_of hand) -> getk limits k <= getk hand k).
Proof.
  intros limits hand W. unfold within_limits. rewrite forallb_forall. split.
  - intros H k I. apply in_map_iff in I. destruct I as ([t v] & E & I). unfold kview in E; cbn in E; subst.
    specialize (H _ I). apply Z.leb_le in H. cbn in H. rewrite (getk_in _ _ _ W I). exact H.
  - intros H [t v] I. apply Z.leb_le. cbn [fst snd]. rewrite <- (getk_in _ _ _ W I). apply H.
    change (view t) with (kview (t, v)). now apply in_map.
Qed.

Lemma unit_ts_inj : forall u v, unit_ts u = unit_ts v -> u = v.
Proof.
  intros [[c n]|c n|[c n]] [[c' n']|c' n'|[c' n']] H; cbn in H; inversion H; subst; auto.
Qed.
Lemma map_unit_ts_inj : forall us vs, map unit_ts us = map unit_ts vs -> us = vs.
Proof.
  induction us as [|u us IH]; intros [|v vs] H; cbn [map] in H; try discriminate; auto.
  inversion H. f_equal; auto. now apply unit_ts_inj.
Qed.

Lemma kinds_sub_into : forall o s k, In k (kinds_of (sub_into s o)) <-> In k (kinds_of s) \/ In k (kinds_of o).
Proof.
  unfold sub_into. induction o as [|[t v] o IH]; intros s k; cbn [fold_left kinds_of map In]; [tauto|].
  rewrite IH, kinds_put_iff. cbn [fst]. change (kview (t, v)) with (view t). unfold kinds_of. intuition congruence.
Qed.
Lemma defic_app_le : forall h a b, defic h a <= defic h (a ++ b).
Proof.
  intros. apply sumK_le. intros k. unfold miss. rewrite uses_app. pose proof (uses_nonneg b k). lia.
Qed.
Lemma defic_perm : forall h a b, Permutation a b -> defic h a = defic h b.
Proof. intros. apply sumZ_ext. intros. unfold miss. now rewrite (uses_perm a b). Qed.
Lemma adm_perm : forall lim a b, Permutation a b -> adm lim a -> adm lim b.
Proof. intros lim a b P H Hl k. rewrite <- (uses_perm a b k P). auto. Qed.
Lemma adm_app_l : forall lim a b, adm lim (a ++ b) -> adm lim a.
Proof. intros lim a b H Hl k. specialize (H Hl k). rewrite uses_app in H. pose proof (uses_nonneg b k). lia. Qed.
