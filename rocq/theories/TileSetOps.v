(** Lemmas about [&], [|], [==], [len], [tiles] and [TileSet(iterable)]. *)
From Verif Require Import Base Tile TileSet Spec_Tile TileSetFacts Win Spec_Win WinFacts WinProofs.
From Coq Require Import List ZArith Lia Bool Permutation Sorted.
Import ListNotations.
Open Scope Z_scope.

Definition pick (n : tile * Z -> Z) (s : tset) : tset :=
  flat_map (fun e => if 0 <? n e then [(fst e, n e)] else []) s.

Lemma pick_kinds : forall n s k, In k (kinds_of (pick n s)) -> In k (kinds_of s).
Proof.
  induction s as [|[t v] s IH]; intros k H; [auto|]. unfold pick in *. cbn [flat_map] in H. unfold kinds_of in *.
  rewrite map_app, in_app_iff in H. cbn [map]. destruct H as [H|H]; [|right; apply IH; exact H].
  destruct (0 <? n (t, v)); cbn in H; [|tauto]. left. destruct H as [H|[]]. exact H.
Qed.
Lemma wf_pick : forall n s, wf s -> wf (pick n s).
Proof.
  induction s as [|[t v] s IH]; intros W; [constructor|]. inversion W as [|? ? A B]; subst.
  unfold pick. cbn [flat_map]. fold (pick n s). destruct (0 <? n (t, v)); cbn [app fst]; [|now apply IH].
  constructor; [|apply IH; auto]. intros I. apply A. now apply pick_kinds with n.
Qed.
Lemma getk_app : forall a b k, getk (a ++ b) k = if existsb (kind_eqb k) (kinds_of a) then getk a k else getk b k.
Proof.
  induction a as [|[t v] a IH]; intros b k; cbn [getk app kinds_of map existsb]; auto.
  change (kview (t, v)) with (view t). rewrite (kind_eqb_sym k (view t)). destruct (kind_eqb (view t) k); cbn [orb]; auto.
Qed.
Lemma existsb_kind : forall k l, existsb (kind_eqb k) l = true <-> In k l.
Proof.
  intros. rewrite existsb_exists. split.
  - intros (x & I & E). apply kind_eqb_eq in E. now subst.
  - intros I. exists k. split; auto. apply kind_eqb_refl.
Qed.
Lemma getk_pick : forall n s k, wf s -> 
  getk (pick n s) k = match find (fun e => kind_eqb (kview e) k) s with Some e => Z.max 0 (n e) | None => 0 end.
Proof.
  induction s as [|[t v] s IH]; intros k W; [reflexivity|]. inversion W as [|? ? A B]; subst.
  unfold pick. cbn [flat_map find]. fold (pick n s). change (kview (t, v)) with (view t) in *.
  destruct (Z.ltb_spec 0 (n (t, v))) as [L|L]; cbn [app getk fst].
  - destruct (kind_eqb (view t) k); [lia|]. now apply IH.
  - destruct (kind_eqb (view t) k) eqn:E; [|now apply IH]. apply kind_eqb_eq in E. subst k.
    rewrite getk_notin; [lia|]. intros I. apply A. now apply pick_kinds with n.
Qed.
Lemma find_kview : forall s k e, find (fun e => kind_eqb (kview e) k) s = Some e -> kview e = k /\ In e s.
Proof. intros s k e H. apply find_some in H. destruct H as [I E]. split; auto. now apply kind_eqb_eq. Qed.

Theorem getk_ts_and : forall a b k, wf a -> nonneg a -> nonneg b ->
  getk (ts_and a b) k = Z.min (getk a k) (getk b k).
Proof.
  intros a b k W Na Nb. unfold ts_and.
  change (getk (pick (fun e => if snd e <? get b (fst e) then snd e else get b (fst e)) a) k = Z.min (getk a k) (getk b k)).
  rewrite getk_pick by auto. pose proof (Na k) as Ha. pose proof (Nb k) as Hb. rewrite (getk_find a) in *.
  destruct (find _ a) as [e|] eqn:E; [|lia]. apply find_kview in E. destruct E as [E _].
  unfold get. change (view (fst e)) with (kview e). rewrite E. destruct (Z.ltb_spec (snd e) (getk b k)); lia.
Qed.
Lemma wf_ts_and : forall a b, wf a -> wf (ts_and a b).
Proof. intros. unfold ts_and. apply (wf_pick (fun e => if snd e <? get b (fst e) then snd e else get b (fst e))). auto. Qed.

Lemma wf_app : forall a b, wf a -> wf b -> (forall k, In k (kinds_of a) -> ~ In k (kinds_of b)) -> wf (a ++ b).
Proof.
  unfold wf, kinds_of. intros a b A B D. rewrite map_app. induction (map kview a) as [|x l IH]; [exact B|].
  inversion A; subst. cbn [app]. constructor.
  - rewrite in_app_iff. intros [I|I]; [auto|]. apply (D x); [left; auto|auto].
  - apply IH; auto. intros k I. apply D. right; auto.
Qed.
Definition or_left (a b : tset) : tset :=
  pick (fun e => if snd e <? get b (fst e) then get b (fst e) else snd e) a.
Definition or_right (a b : tset) : tset :=
  filter (fun e => negb (has_key a (fst e)) && (0 <? snd e)) b.
Lemma ts_or_split : forall a b, ts_or a b = or_left a b ++ or_right a b.
Proof.
  intros. unfold ts_or, or_left, or_right, pick. f_equal. induction b as [|e b IH]; [reflexivity|].
  cbn [flat_map filter]. destruct (negb (has_key a (fst e)) && (0 <? snd e)); cbn [app]; now rewrite <- IH.
Qed.
Lemma or_disjoint : forall a b k, In k (kinds_of (or_left a b)) -> ~ In k (kinds_of (or_right a b)).
Proof.
  intros a b k I J. apply pick_kinds in I. unfold kinds_of, or_right in J. apply in_map_iff in J.
  destruct J as (e & V & F). apply filter_In in F. destruct F as [_ F]. apply andb_true_iff in F. destruct F as [F _].
  apply negb_true_iff, has_key_false in F. apply F. change (view (fst e)) with (kview e). now rewrite V.
Qed.
Lemma wf_ts_or : forall a b, wf a -> wf b -> wf (ts_or a b).
Proof.
  intros. rewrite ts_or_split. apply wf_app; [now apply wf_pick|now apply wf_filter|apply or_disjoint].
Qed.
Theorem getk_ts_or : forall a b k, wf a -> wf b -> nonneg a -> nonneg b ->
  getk (ts_or a b) k = Z.max (getk a k) (getk b k).
Proof.
  intros a b k Wa Wb Na Nb. rewrite ts_or_split, getk_app. pose proof (Na k) as Ha. pose proof (Nb k) as Hb.
  destruct (in_dec kind_eq_dec k (kinds_of a)) as [I|I].
  - assert (R : getk (or_right a b) k = 0).
    { apply getk_notin. intros J. unfold kinds_of, or_right in J. apply in_map_iff in J.
      destruct J as (e & V & F). apply filter_In in F. destruct F as [_ F]. apply andb_true_iff in F. destruct F as [F _].
      apply negb_true_iff, has_key_false in F. apply F. change (view (fst e)) with (kview e). now rewrite V. }
    assert (L : getk (or_left a b) k = Z.max (getk a k) (getk b k)).
    { unfold or_left. rewrite getk_pick by auto. rewrite (getk_find a) in *.
      destruct (find _ a) as [e|] eqn:E.
      - apply find_kview in E. destruct E as [E _]. unfold get. change (view (fst e)) with (kview e). rewrite E.
        destruct (Z.ltb_spec (snd e) (getk b k)); lia.
      - exfalso. apply in_map_iff in I. destruct I as (e & V & F). apply (find_none _ _ E) in F.
        rewrite V, kind_eqb_refl in F. discriminate. }
    destruct (existsb (kind_eqb k) (kinds_of (or_left a b))) eqn:X; [exact L|].
    rewrite R. rewrite <- L. symmetry. apply getk_notin. intros J. apply existsb_kind in J. congruence.
  - assert (X : existsb (kind_eqb k) (kinds_of (or_left a b)) = false).
    { destruct (existsb _ _) eqn:X; auto. apply existsb_kind, pick_kinds in X. contradiction. }
    rewrite X. rewrite (getk_notin a k I) in *. unfold or_right. rewrite getk_filter; [lia|auto|].
    intros t v J V. cbn [fst snd]. left. subst k. replace (has_key a t) with false by (symmetry; now apply has_key_false).
    cbn [negb andb]. pose proof (getk_in b t v Wb J) as G. rewrite G in Hb.
    destruct (Z.ltb_spec 0 v); destruct (Z.eqb_spec v 0); cbn [negb]; try reflexivity; lia.
Qed.

(** dict equality of TileSets with positive counts is equality of counts *)
Theorem ts_eqb_spec : forall a b, wf a -> wf b -> allpos a -> allpos b ->
  (ts_eqb a b = true <-> forall k, getk a k = getk b k).
Proof.
  intros a b Wa Wb Pa Pb. unfold ts_eqb. rewrite andb_true_iff, Nat.eqb_eq, forallb_forall.
  assert (K : forall s k, wf s -> allpos s -> (In k (kinds_of s) <-> 0 < getk s k)).
  { intros s k W P. split.
    - intros I. apply in_map_iff in I. destruct I as ([t v] & V & I). unfold kview in V; cbn [fst] in V. subst.
      rewrite (getk_in s t v W I). unfold allpos in P. rewrite Forall_forall in P. apply (P _ I).
    - intros L. destruct (getk_nonzero_in s k) as (t & V & I); [lia|]. apply in_map_iff. eexists. split; [|exact I]. exact V. }
  split.
  - intros [L F] k.
    assert (I1 : incl (kinds_of a) (kinds_of b)).
    { intros x I. apply in_map_iff in I. destruct I as (e & V & I). apply F in I. apply andb_true_iff in I.
      destruct I as [I _]. apply has_key_spec in I. subst x. exact I. }
    assert (I2 : incl (kinds_of b) (kinds_of a)).
    { apply NoDup_length_incl; [exact Wa| |exact I1]. unfold kinds_of. rewrite !map_length. lia. }
    destruct (in_dec kind_eq_dec k (kinds_of a)) as [I|I].
    + apply in_map_iff in I. destruct I as ([t v] & V & I). pose proof (F _ I) as G. apply andb_true_iff in G.
      destruct G as [_ G]. apply Z.eqb_eq in G. cbn [fst snd] in G. unfold kview in V; cbn [fst] in V. subst k.
      rewrite (getk_in a t v Wa I). symmetry. exact G.
    + rewrite !getk_notin; auto.
  - intros E. 
    assert (I1 : forall k, In k (kinds_of a) <-> In k (kinds_of b)).
    { intros k. rewrite !K by auto. now rewrite E. }
    split.
    + assert (L1 : (length (kinds_of a) <= length (kinds_of b))%nat) by (apply NoDup_incl_length; [exact Wa|intros k; apply I1]).
      assert (L2 : (length (kinds_of b) <= length (kinds_of a))%nat) by (apply NoDup_incl_length; [exact Wb|intros k; apply I1]).
      unfold kinds_of in *. rewrite !map_length in *. lia.
    + intros [t v] I. cbn [fst snd]. apply andb_true_iff. split.
      * apply has_key_spec, I1. apply in_map_iff. eexists. split; [|exact I]. reflexivity.
      * apply Z.eqb_eq. unfold get. rewrite <- E. now apply getk_in.
Qed.

Lemma count_kind_repeat : forall t n k, count_kind k (map view (repeat t n)) = if same_kind (view t) k then Z.of_nat n else 0.
Proof.
  unfold count_kind. induction n as [|n IH]; intros k; cbn [repeat map sumZ]; [now destruct (same_kind (view t) k)|].
  rewrite IH. destruct (same_kind (view t) k); lia.
Qed.
Theorem tiles_count : forall s k, wf s -> (forall k, 0 <= getk s k) -> count_kind k (map view (tiles s)) = getk s k.
Proof.
  induction s as [|[t v] s IH]; intros k W N; cbn [getk]; [reflexivity|]. inversion W as [|? ? A B]; subst.
  unfold tiles. cbn [flat_map fst snd]. rewrite map_app, count_kind_app. fold (tiles s).
  change (kview (t, v)) with (view t) in A.
  assert (N' : forall k, 0 <= getk s k).
  { intros j. destruct (kind_eq_dec (view t) j) as [<-|D]; [rewrite (getk_notin s (view t)); auto; lia|].
    specialize (N j). cbn [getk] in N. apply kind_eqb_neq in D. now rewrite D in N. }
  rewrite IH by auto. rewrite count_kind_repeat, same_kind_eqb. specialize (N (view t)). cbn [getk] in N.
  rewrite kind_eqb_refl in N. destruct (kind_eqb (view t) k) eqn:E; [|lia]. apply kind_eqb_eq in E. subst.
  rewrite getk_notin by auto. lia.
Qed.
Theorem tiles_length : forall s, (forall e, In e s -> 0 <= snd e) -> Z.of_nat (length (tiles s)) = total s.
Proof.
  induction s as [|[t v] s IH]; intros N; [reflexivity|]. unfold tiles, total. cbn [flat_map sumZ fst snd].
  rewrite app_length, repeat_length. fold (tiles s). fold (total s). rewrite Nat2Z.inj_add, IH; [|intros; apply N; right; auto].
  specialize (N (t, v) (or_introl eq_refl)). cbn [snd] in N. lia.
Qed.
Lemma occ_count : forall l k, occ k l = count_kind k (map view l).
Proof.
  unfold count_kind. induction l as [|t l IH]; intros k; [reflexivity|]. unfold occ in *. cbn [map sumZ].
  rewrite same_kind_eqb, IH. reflexivity.
Qed.
