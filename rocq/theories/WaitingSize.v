(** A hand of the usual size can always be completed from fewer tiles than it has. *)
From Verif Require Import Base Tile TileSet Spec_Tile TileSetFacts Win Spec_Win WinFacts WinProofs Waiting Spec_Waiting WaitingFacts WaitingPM WaitingBrute WaitingHeur WaitingHeurTop.
From Coq Require Import List ZArith Lia Bool Permutation Sorted.
Import ListNotations.
Open Scope Z_scope.

Definition mkp (k : kind) : munit := UPair k.
Definition mkt (k : kind) : munit := UTrip k.

Lemma use1_pair : forall k j, use1 (UPair k) j = if kind_eqb k j then 2 else 0.
Proof. intros. unfold use1, count_kind; cbn [unit_kinds sumZ]. rewrite same_kind_eqb. destruct (kind_eqb k j); reflexivity. Qed.
Lemma use1_trip : forall k j, use1 (UTrip k) j = if kind_eqb k j then 3 else 0.
Proof. intros. unfold use1, count_kind; cbn [unit_kinds sumZ]. rewrite same_kind_eqb. destruct (kind_eqb k j); reflexivity. Qed.

(** pairs on [ps], triplets on [ts] *)
Definition lay (ps ts : list kind) : list munit := map UPair ps ++ map UTrip ts.

Lemma lay_notin : forall ps ts k, ~ In k (ps ++ ts) -> uses (lay ps ts) k = 0.
Proof.
  intros ps ts k N. apply uses_zero. intros u H. unfold lay in H. apply in_app_or in H.
  destruct H as [H|H]; apply in_map_iff in H; destruct H as (x & <- & I).
  - rewrite use1_pair. replace (kind_eqb x k) with false; auto. symmetry. apply kind_eqb_neq. intros ->.
    apply N. apply in_or_app; auto.
  - rewrite use1_trip. replace (kind_eqb x k) with false; auto. symmetry. apply kind_eqb_neq. intros ->.
    apply N. apply in_or_app; auto.
Qed.
Lemma lay_le3 : forall ps ts k, NoDup (ps ++ ts) -> 0 <= uses (lay ps ts) k <= 3.
Proof.
  induction ps as [|p ps IH]; intros ts k N.
  - unfold lay. cbn [map app]. cbn [app] in N. induction ts as [|t ts IHt]; [rewrite uses_nil; lia|].
    inversion N as [|? ? N1 N2]; subst. cbn [map]. rewrite uses_cons, use1_trip. destruct (kind_eqb t k) eqn:E.
    + apply kind_eqb_eq in E; subst. pose proof (lay_notin [] ts k N1) as Z0. unfold lay in Z0. cbn [map app] in Z0. lia.
    + specialize (IHt N2). lia.
  - cbn [app] in N. inversion N as [|? ? N1 N2]; subst. unfold lay. cbn [map app]. fold (lay ps ts).
    rewrite uses_cons, use1_pair. destruct (kind_eqb p k) eqn:E.
    + apply kind_eqb_eq in E; subst. rewrite (lay_notin ps ts k N1). lia.
    + specialize (IH ts k N2). lia.
Qed.
Lemma lay_in : forall ps ts k, In k (ps ++ ts) -> 2 <= uses (lay ps ts) k.
Proof.
  intros ps ts k I. apply in_app_or in I. destruct I as [I|I].
  - pose proof (uses_in_le (UPair k) (lay ps ts) k) as H. rewrite use1_pair, kind_eqb_refl in H. apply H.
    apply in_or_app. left. now apply in_map.
  - pose proof (uses_in_le (UTrip k) (lay ps ts) k) as H. rewrite use1_trip, kind_eqb_refl in H.
    assert (3 <= uses (lay ps ts) k) by (apply H; apply in_or_app; right; now apply in_map). lia.
Qed.

(** number of units and of tiles of a shape *)
Definition units_of (s : shape) : Z := match s with Standard p m => p + m | DistinctPairs n => n end.
Definition tiles_of (s : shape) : Z := match s with Standard p m => 2 * p + 3 * m | DistinctPairs n => 2 * n end.
Definition shape_ok (s : shape) : Prop := match s with Standard p m => 0 <= p /\ 0 <= m | DistinctPairs n => 0 <= n end.

Lemma kinds_from : forall k0 n, legal_kind k0 -> (n <= 33)%nat ->
  exists l, length l = n /\ NoDup (k0 :: l) /\ Forall legal_kind l.
Proof.
  intros k0 n L H. set (l := remove kind_eq_dec k0 KINDS).
  assert (Ln : (33 <= length l)%nat).
  { assert (P : Permutation KINDS (k0 :: l)).
    { apply NoDup_Permutation.
      - apply KINDS_NoDup.
      - constructor; [apply remove_In|]. unfold l.
        assert (G : forall l, NoDup l -> NoDup (remove kind_eq_dec k0 l)).
        { induction 1 as [|x r Hx Hr IHr]; cbn; [constructor|]. destruct (kind_eq_dec k0 x); auto. constructor; auto.
          intros C. apply in_remove in C. tauto. }
        apply G, KINDS_NoDup.
      - intros x. cbn [In]. unfold l. split.
        + intros I. destruct (kind_eq_dec k0 x); auto. right. apply in_in_remove; auto.
        + intros [<-|I]; [now apply KINDS_legal|]. apply in_remove in I. tauto. }
    apply Permutation_length in P. cbn [length] in P. change (length KINDS) with 34%nat in P. lia. }
  assert (Nl : NoDup (k0 :: l)).
  { constructor; [apply remove_In|]. unfold l.
    assert (G : forall l, NoDup l -> NoDup (remove kind_eq_dec k0 l)).
    { induction 1 as [|x r Hx Hr IHr]; cbn; [constructor|]. destruct (kind_eq_dec k0 x); auto. constructor; auto.
      intros C. apply in_remove in C. tauto. }
    apply G, KINDS_NoDup. }
  exists (firstn n l). split; [apply firstn_length_le; lia|]. split.
  - rewrite <- (firstn_skipn n l) in Nl. inversion Nl as [|? ? N1 N2]; subst. constructor.
    + intros C. apply N1. apply in_or_app; auto.
    + clear - N2. revert N2. generalize (firstn n l), (skipn n l). induction l0 as [|x r IH]; intros t N; [constructor|].
      cbn in N. inversion N; subst. constructor; [|eapply IH; eauto]. intros C. apply H1. apply in_or_app; auto.
  - apply Forall_forall. intros x I. assert (I' : In x l). { rewrite <- (firstn_skipn n l). apply in_or_app; auto. }
    unfold l in I'. apply in_remove in I'. now apply KINDS_legal.
Qed.

Lemma lay_forms : forall p m ps ts, Z.of_nat (length ps) = p -> Z.of_nat (length ts) = m ->
  Forall legal_kind ps -> Forall legal_kind ts -> forms (Standard p m) (lay ps ts).
Proof.
  intros p m ps ts A B C D. split.
  - unfold lay. apply Forall_app. split; apply Forall_map; auto.
  - unfold lay. rewrite !filter_app, !app_length.
    assert (F1 : forall l, filter is_pair (map UPair l) = map UPair l /\ filter (fun u => negb (is_pair u)) (map UPair l) = []).
    { induction l as [|x l [IH1 IH2]]; cbn; auto. split; auto. now f_equal. }
    assert (F2 : forall l, filter is_pair (map UTrip l) = [] /\ filter (fun u => negb (is_pair u)) (map UTrip l) = map UTrip l).
    { induction l as [|x l [IH1 IH2]]; cbn; auto. split; auto. now f_equal. }
    destruct (F1 ps) as [-> ->], (F2 ts) as [-> ->]. rewrite !map_length. cbn [length]. lia.
Qed.
Lemma lay_distinct : forall n ps, Z.of_nat (length ps) = n -> Forall legal_kind ps -> NoDup ps ->
  forms (DistinctPairs n) (lay ps []).
Proof.
  intros n ps A B C. unfold lay. cbn [map]. rewrite app_nil_r. split; [apply Forall_map; auto|]. split; [|split].
  - apply Forall_map. rewrite Forall_forall. intros; reflexivity.
  - rewrite map_map. cbn [pair_face]. now rewrite map_id.
  - now rewrite map_length.
Qed.

(** the layout used as a bound *)
Lemma bound_layout : forall s h k0, shape_ok s -> 1 <= units_of s <= 34 ->
  (forall k, 0 <= h k) -> legal_kind k0 -> 0 < h k0 ->
  exists us, forms s us /\ (forall k, uses us k <= 3) /\ defic h us <= tiles_of s - 1.
Proof.
  intros s h k0 Ok Hu N L P.
  assert (X : exists ps ts, forms s (lay ps ts) /\ NoDup (ps ++ ts) /\ In k0 (ps ++ ts)).
  { destruct s as [p m|n]; cbn in *.
    - destruct (kinds_from k0 (Z.to_nat (p + m - 1)) L ltac:(lia)) as (l & Ln & Nd & Lg).
      set (all := k0 :: l). assert (La : Forall legal_kind all) by (constructor; auto).
      exists (firstn (Z.to_nat p) all), (skipn (Z.to_nat p) all). rewrite firstn_skipn. split; [|split; [auto|left; auto]].
      assert (Lall : length all = Z.to_nat (p + m)) by (unfold all; cbn [length]; lia).
      apply lay_forms.
      + rewrite firstn_length. lia.
      + rewrite skipn_length. lia.
      + rewrite <- (firstn_skipn (Z.to_nat p) all) in La. apply Forall_app in La. apply La.
      + rewrite <- (firstn_skipn (Z.to_nat p) all) in La. apply Forall_app in La. apply La.
    - destruct (kinds_from k0 (Z.to_nat (n - 1)) L ltac:(lia)) as (l & Ln & Nd & Lg).
      exists (k0 :: l), []. rewrite app_nil_r. split; [|split; [auto|left; auto]].
      apply lay_distinct; auto. cbn [length]. lia. }
  destruct X as (ps & ts & F & Nd & I). exists (lay ps ts). split; [auto|]. split; [intros k; now apply lay_le3|].
  assert (T : sumK (uses (lay ps ts)) = tiles_of s).
  { rewrite sumK_uses by apply F. apply sh_forms in F. rewrite <- (sh_need_count _ _ F). destruct s; cbn [need_count pattern_of tiles_of]; lia. }
  rewrite <- T. enough (1 <= sumK (fun k => uses (lay ps ts) k + - miss h (lay ps ts) k)) as E.
  { unfold sumK in E. rewrite sumZ_plus, sumZ_opp in E. unfold defic, sumK. lia. }
  apply Z.le_trans with (uses (lay ps ts) k0 + - miss h (lay ps ts) k0).
  - pose proof (lay_in ps ts k0 I). unfold miss. lia.
  - apply (sumZ_in_le _ (fun k => uses (lay ps ts) k + - miss h (lay ps ts) k)).
    + intros k _. unfold miss. pose proof (uses_nonneg (lay ps ts) k). specialize (N k). lia.
    + now apply KINDS_legal.
Qed.

(** every shape of at most 34 units can be laid out within four of a face *)
Lemma layout_exists : forall lim s, shape_ok s -> units_of s <= 34 -> exists us, forms s us /\ adm lim us.
Proof.
  intros lim s Ok Hu. destruct (Z_le_dec 1 (units_of s)) as [H1|H1].
  - destruct (bound_layout s (fun _ => 1) (Cm, 1)) as (us & F & U & _); auto; try lia.
    + unfold legal_kind; cbn; lia.
    + exists us. split; auto. intros _ k. specialize (U k). lia.
  - exists []. split.
    + destruct s as [p m|n]; cbn in *; (split; [constructor|]); cbn.
      * lia.
      * split; [constructor|]. split; [constructor|]. lia.
    + intros _ k. rewrite uses_nil. lia.
Qed.

Theorem distance_exists : forall lim s h, okh lim h -> shape_ok s -> units_of s <= 34 ->
  exists n, distance lim s h n.
Proof.
  intros lim s h O Ok Hu. destruct (layout_exists lim s Ok Hu) as (us & F & A).
  destruct (mindef_exists lim s h us O F A) as (m & M & _). exists m. now apply distance_mindef.
Qed.

Lemma total_pos_kind : forall hand, good_hand hand -> 0 < total hand -> exists k, legal_kind k /\ 0 < getk hand k.
Proof.
  intros hand (W & L & N) H. rewrite total_sumK in H by auto. unfold sumK in H.
  assert (G : forall l, 0 < sumZ (getk hand) l -> exists k, In k l /\ 0 < getk hand k).
  { induction l as [|k l IH]; cbn [sumZ]; intros Hs; [lia|].
    destruct (Z_lt_dec 0 (getk hand k)); [exists k; split; [left; auto|auto]|].
    destruct IH as (j & A & B); [lia|]. exists j. split; [right; auto|auto]. }
  destruct (G _ H) as (k & A & B). exists k. split; auto. now apply KINDS_legal.
Qed.

(** the distance does not exceed the hand's size, for hands at most one tile short *)
Theorem distance_le_total : forall lim s hand n, good_hand hand -> okh lim (getk hand) ->
  shape_ok s -> units_of s <= 34 -> 0 < total hand -> tiles_of s - 1 <= total hand ->
  distance lim s (getk hand) n -> Z.of_nat n <= total hand.
Proof.
  intros lim s hand n G O Ok Hu Ht Hs D. apply distance_mindef in D; auto.
  destruct (Z_le_dec 1 (units_of s)) as [H1|H1].
  - destruct (total_pos_kind hand G Ht) as (k0 & L & P).
    destruct (bound_layout s (getk hand) k0) as (us & F & U & B); auto; try lia.
    { apply G. }
    destruct D as [_ D]. specialize (D us F ltac:(intros _ k; specialize (U k); lia)). lia.
  - assert (F : forms s []).
    { destruct s as [p m|k]; cbn in *; (split; [constructor|]); cbn; [lia|]. split; [constructor|]. split; [constructor|]. lia. }
    destruct D as [_ D]. specialize (D [] F ltac:(intros _ k; rewrite uses_nil; lia)).
    rewrite defic_nil in D by apply G. lia.
Qed.
