(** Facts about the TileSet model: reading after each operation. *)
From Verif Require Import Base Tile TileSet Spec_Tile.
From Coq Require Import List ZArith Lia Bool Permutation Sorted.
Import ListNotations.
Open Scope Z_scope.

(** ** faces *)
Lemma color_eqb_eq : forall a b, color_eqb a b = true <-> a = b.
Proof. intros [] []; cbv; split; intros; congruence. Qed.

Lemma kind_eqb_eq : forall a b, kind_eqb a b = true <-> a = b.
Proof.
  intros [c n] [d m]. unfold kind_eqb; cbn. rewrite andb_true_iff, color_eqb_eq, Z.eqb_eq.
  split; [intros [-> ->]; auto|intros H; inversion H; auto].
Qed.
Lemma kind_eqb_refl : forall a, kind_eqb a a = true.
Proof. intros; now apply kind_eqb_eq. Qed.
Lemma kind_eqb_neq : forall a b, kind_eqb a b = false <-> a <> b.
Proof. intros a b. rewrite <- (kind_eqb_eq a b). destruct (kind_eqb a b); split; intros; congruence. Qed.
Lemma kind_eqb_sym : forall a b, kind_eqb a b = kind_eqb b a.
Proof.
  intros a b. destruct (kind_eqb b a) eqn:E.
  - apply kind_eqb_eq in E. subst. apply kind_eqb_refl.
  - apply kind_eqb_neq in E. apply kind_eqb_neq. congruence.
Qed.
Lemma kind_eq_dec : forall a b : kind, {a = b} + {a <> b}.
Proof. intros a b. destruct (kind_eqb a b) eqn:E; [left; now apply kind_eqb_eq|right; now apply kind_eqb_neq]. Qed.

Definition kind_lt (a b : kind) : Prop := kind_ltb a b = true.

Lemma suit_ord_inj : forall a b, suit_ord a = suit_ord b -> a = b.
Proof. intros [] []; cbv; intros; congruence. Qed.

Lemma kind_lt_spec : forall a b, kind_lt a b <->
  suit_ord (fst a) < suit_ord (fst b) \/ (fst a = fst b /\ snd a < snd b).
Proof.
  intros a b. unfold kind_lt, kind_ltb. rewrite orb_true_iff, andb_true_iff, color_eqb_eq, !Z.ltb_lt. tauto.
Qed.

Lemma kind_lt_irrefl : forall a, ~ kind_lt a a.
Proof. intros a H. apply kind_lt_spec in H. lia. Qed.
Lemma kind_lt_trans : forall a b c, kind_lt a b -> kind_lt b c -> kind_lt a c.
Proof.
  intros [a n] [b m] [c k]. rewrite !kind_lt_spec; cbn. intros H1 H2.
  destruct H1 as [H1|[-> H1]], H2 as [H2|[-> H2]]; try (left; lia); right; split; auto; lia.
Qed.
Lemma kind_lt_total : forall a b, kind_lt a b \/ a = b \/ kind_lt b a.
Proof.
  intros [a n] [b m]. rewrite !kind_lt_spec; cbn.
  destruct (Z.lt_trichotomy (suit_ord a) (suit_ord b)) as [H|[H|H]]; auto.
  apply suit_ord_inj in H. subst.
  destruct (Z.lt_trichotomy n m) as [H|[H|H]]; subst; auto.
Qed.
Lemma kind_ltb_false : forall a b, kind_ltb a b = false <-> (a = b \/ kind_lt b a).
Proof.
  intros a b. destruct (kind_ltb a b) eqn:E.
  - split; [discriminate|]. intros [->|H].
    + exfalso; eapply kind_lt_irrefl; eauto.
    + exfalso; eapply kind_lt_irrefl; eapply kind_lt_trans; eauto.
  - split; auto. intros _. destruct (kind_lt_total a b) as [H|H]; auto. unfold kind_lt in H; congruence.
Qed.

Lemma tile_eqb_eq : forall a b, tile_eqb a b = true <-> view a = view b.
Proof. intros. apply kind_eqb_eq. Qed.

(** ** reading *)
Definition kview (e : tile * Z) : kind := view (fst e).
Definition kinds_of (s : tset) : list kind := map kview s.
Definition wf (s : tset) : Prop := NoDup (kinds_of s).
(** entry keys are legal faces *)
Definition legal_keys (s : tset) : Prop := Forall legal_kind (kinds_of s).

Lemma getk_put : forall s t v k, getk (put s t v) k = if kind_eqb (view t) k then v else getk s k.
Proof.
  induction s as [|[t' v'] s IH]; intros t v k; cbn; auto.
  destruct (tile_eqb t' t) eqn:E; cbn.
  - apply tile_eqb_eq in E. rewrite E. destruct (kind_eqb (view t) k); auto.
  - rewrite IH. destruct (kind_eqb (view t') k) eqn:F; auto.
    apply kind_eqb_eq in F. subst k.
    destruct (kind_eqb (view t) (view t')) eqn:G; auto.
    apply kind_eqb_eq in G. unfold tile_eqb in E. rewrite G, kind_eqb_refl in E. discriminate.
Qed.

Lemma getk_notin : forall s k, ~ In k (kinds_of s) -> getk s k = 0.
Proof.
  induction s as [|[t v] s IH]; intros k H; cbn in *; auto.
  destruct (kind_eqb (view t) k) eqn:E.
  - apply kind_eqb_eq in E. exfalso; apply H; auto.
  - apply IH; tauto.
Qed.

Lemma getk_in : forall s t v, wf s -> In (t, v) s -> getk s (view t) = v.
Proof.
  induction s as [|[t' v'] s IH]; intros t v W H; cbn in *; [tauto|].
  inversion W; subst. destruct H as [H|H].
  - inversion H; subst. now rewrite kind_eqb_refl.
  - destruct (kind_eqb (view t') (view t)) eqn:E.
    + apply kind_eqb_eq in E. exfalso. apply H2. cbn. unfold kview at 1; cbn. rewrite E.
      change (view t) with (kview (t, v)). now apply in_map.
    + auto.
Qed.

Lemma getk_nonzero_in : forall s k, getk s k <> 0 -> exists t, view t = k /\ In (t, getk s k) s.
Proof.
  induction s as [|[t v] s IH]; intros k H; cbn in *; [congruence|].
  destruct (kind_eqb (view t) k) eqn:E.
  - apply kind_eqb_eq in E. exists t; auto.
  - destruct (IH _ H) as (t' & A & B). exists t'; auto.
Qed.

Lemma kinds_put : forall s t v, kinds_of (put s t v) =
  if has_key s t then kinds_of s else kinds_of s ++ [view t].
Proof.
  induction s as [|[t' v'] s IH]; intros t v; cbn; auto.
  destruct (tile_eqb t' t) eqn:E; cbn; auto.
  rewrite IH. unfold has_key. destruct (existsb (fun e => tile_eqb (fst e) t) s); auto.
Qed.

Lemma has_key_spec : forall s t, has_key s t = true <-> In (view t) (kinds_of s).
Proof.
  intros s t. unfold has_key, kinds_of. rewrite existsb_exists, in_map_iff. unfold kview.
  split; intros (e & A & B).
  - apply tile_eqb_eq in B. eauto.
  - exists e. rewrite tile_eqb_eq. auto.
Qed.

Lemma has_key_false : forall s t, has_key s t = false <-> ~ In (view t) (kinds_of s).
Proof. intros. rewrite <- has_key_spec. destruct (has_key s t); split; intros; congruence. Qed.

Lemma NoDup_snoc : forall A (l : list A) x, NoDup l -> ~ In x l -> NoDup (l ++ [x]).
Proof.
  intros A l x H N. apply NoDup_Add with (a := x) (l := l).
  - pose proof (Add_app x l []) as P. rewrite app_nil_r in P. exact P.
  - auto.
Qed.

Lemma wf_put : forall s t v, wf s -> wf (put s t v).
Proof.
  intros s t v H. unfold wf. rewrite kinds_put. destruct (has_key s t) eqn:E; auto.
  apply has_key_false in E. now apply NoDup_snoc.
Qed.

Lemma legal_put : forall s t v, legal_keys s -> legal_kind (view t) -> legal_keys (put s t v).
Proof.
  intros s t v H L. unfold legal_keys. rewrite kinds_put. destruct (has_key s t); auto.
  apply Forall_app. split; auto.
Qed.

(** filtering *)
Lemma kinds_filter_in : forall f s k, In k (kinds_of (filter f s)) -> In k (kinds_of s).
Proof.
  intros f s k H. unfold kinds_of in *. apply in_map_iff in H. destruct H as (e & A & B).
  apply filter_In in B. apply in_map_iff. exists e; tauto.
Qed.
Lemma wf_filter : forall f s, wf s -> wf (filter f s).
Proof.
  unfold wf. induction s as [|e s IH]; intros H; cbn; auto. inversion H; subst.
  destruct (f e); cbn; auto. constructor; auto. intros C. apply H2. eapply kinds_filter_in; eauto.
Qed.
Lemma legal_filter : forall f s, legal_keys s -> legal_keys (filter f s).
Proof.
  intros f s H. unfold legal_keys in *. rewrite Forall_forall in *. intros k Hk. apply H. eapply kinds_filter_in; eauto.
Qed.

Lemma getk_filter : forall f s k, wf s ->
  (forall t v, In (t, v) s -> view t = k -> f (t, v) = negb (v =? 0) \/ f (t, v) = true) ->
  getk (filter f s) k = getk s k.
Proof.
  induction s as [|[t v] s IH]; intros k W H; cbn; auto. inversion W; subst.
  destruct (kind_eqb (view t) k) eqn:E.
  - apply kind_eqb_eq in E. destruct (H t v (or_introl eq_refl) E) as [F|F]; rewrite F.
    + destruct (v =? 0) eqn:G; cbn.
      * apply Z.eqb_eq in G. subst. apply getk_notin. intros C. apply H2. eapply kinds_filter_in; eauto.
      * subst. now rewrite kind_eqb_refl.
    + cbn. subst. now rewrite kind_eqb_refl.
  - destruct (f (t, v)); cbn; rewrite ?E; apply IH; auto; intros; apply H; cbn; auto.
Qed.

Lemma getk_filter_drop : forall f s k, wf s ->
  getk (filter f s) k =
  match find (fun e => kind_eqb (kview e) k) s with
  | Some e => if f e then snd e else 0
  | None => 0
  end.
Proof.
  induction s as [|[t v] s IH]; intros k W; cbn; auto. inversion W; subst.
  unfold kview at 1; cbn. destruct (kind_eqb (view t) k) eqn:E.
  - apply kind_eqb_eq in E. destruct (f (t, v)); cbn.
    + subst. now rewrite kind_eqb_refl.
    + apply getk_notin. intros C. apply H1. cbn. unfold kview at 1; cbn. subst. eapply kinds_filter_in; eauto.
  - destruct (f (t, v)); cbn; rewrite ?E; auto.
Qed.

Lemma getk_find : forall s k,
  getk s k = match find (fun e => kind_eqb (kview e) k) s with Some e => snd e | None => 0 end.
Proof.
  induction s as [|[t v] s IH]; intros k; cbn; auto. unfold kview at 1; cbn.
  destruct (kind_eqb (view t) k); auto.
Qed.

Lemma getk_keep_positive : forall s k, wf s -> getk (keep_positive s) k = Z.max 0 (getk s k).
Proof.
  intros s k W. unfold keep_positive. rewrite getk_filter_drop by auto. rewrite getk_find.
  destruct (find _ s) as [[t v]|]; cbn; auto.
  destruct (0 <? v) eqn:E; [apply Z.ltb_lt in E|apply Z.ltb_ge in E]; lia.
Qed.

Lemma getk_pos : forall s k, wf s -> getk (pos s) k = Z.max 0 (getk s k).
Proof. exact getk_keep_positive. Qed.

Lemma kinds_neg : forall s, kinds_of (neg s) = kinds_of (filter (fun e => snd e <? 0) s).
Proof. intros. unfold kinds_of, neg. rewrite map_map. reflexivity. Qed.

Lemma getk_neg : forall s k, wf s -> getk (neg s) k = Z.max 0 (- getk s k).
Proof.
  intros s k W. unfold neg.
  assert (G : forall l, getk (map (fun e => (fst e, 0 - snd e)) l) k = - getk l k).
  { induction l as [|[t v] l IH]; cbn [map getk fst snd]; auto. destruct (kind_eqb (view t) k); lia. }
  rewrite G, getk_filter_drop by auto. rewrite getk_find.
  destruct (find _ s) as [[t v]|]; cbn; auto.
  destruct (v <? 0) eqn:E; [apply Z.ltb_lt in E|apply Z.ltb_ge in E]; lia.
Qed.

Lemma wf_neg : forall s, wf s -> wf (neg s).
Proof. intros s W. unfold wf. rewrite kinds_neg. now apply wf_filter. Qed.

Lemma getk_del : forall s t k, getk (del s t) k = if kind_eqb (view t) k then 0 else getk s k.
Proof.
  induction s as [|[t' v] s IH]; intros t k; cbn; [now destruct (kind_eqb (view t) k)|].
  change (filter (fun e => negb (tile_eqb (fst e) t)) s) with (del s t).
  destruct (tile_eqb t' t) eqn:E; cbn [negb getk].
  - rewrite IH. apply tile_eqb_eq in E. rewrite E. destruct (kind_eqb (view t) k); auto.
  - rewrite IH. destruct (kind_eqb (view t') k) eqn:F; auto.
    apply kind_eqb_eq in F. subst. unfold tile_eqb in E. rewrite kind_eqb_sym in E. rewrite E. auto.
Qed.
Lemma wf_del : forall s t, wf s -> wf (del s t).
Proof. intros; now apply wf_filter. Qed.
Lemma legal_del : forall s t, legal_keys s -> legal_keys (del s t).
Proof. intros; now apply legal_filter. Qed.

(** folds *)
Lemma fold_put_facts : forall (h : Z -> Z -> Z) other s,
  wf s -> wf (fold_left (fun a e => put a (fst e) (h (get a (fst e)) (snd e))) other s).
Proof.
  induction other as [|e other IH]; intros s W; cbn; auto. apply IH. now apply wf_put.
Qed.
Lemma wf_add_into : forall s o, wf s -> wf (add_into s o).
Proof. intros. unfold add_into. now apply (fold_put_facts Z.add). Qed.
Lemma wf_sub_into : forall s o, wf s -> wf (sub_into s o).
Proof. intros. unfold sub_into. now apply (fold_put_facts Z.sub). Qed.
Lemma legal_fold : forall (h : Z -> Z -> Z) other s,
  legal_keys s -> legal_keys other ->
  legal_keys (fold_left (fun a e => put a (fst e) (h (get a (fst e)) (snd e))) other s).
Proof.
  induction other as [|e other IH]; intros s W O; cbn; auto. inversion O; subst. apply IH; auto.
  now apply legal_put.
Qed.
Lemma legal_add_into : forall s o, legal_keys s -> legal_keys o -> legal_keys (add_into s o).
Proof. intros. unfold add_into. now apply (legal_fold Z.add). Qed.
Lemma legal_sub_into : forall s o, legal_keys s -> legal_keys o -> legal_keys (sub_into s o).
Proof. intros. unfold sub_into. now apply (legal_fold Z.sub). Qed.

Lemma getk_fold : forall (h : Z -> Z -> Z) other s k, wf other -> (forall x, h x 0 = x) ->
  getk (fold_left (fun a e => put a (fst e) (h (get a (fst e)) (snd e))) other s) k = h (getk s k) (getk other k).
Proof.
  induction other as [|[t v] other IH]; intros s k W H0; cbn [fold_left getk fst snd].
  - now rewrite H0.
  - inversion W; subst. rewrite IH by auto. rewrite getk_put. unfold get.
    destruct (kind_eqb (view t) k) eqn:E; auto.
    apply kind_eqb_eq in E. subst. rewrite (getk_notin other) by auto. now rewrite H0.
Qed.
Lemma getk_add_into : forall s o k, wf o -> getk (add_into s o) k = getk s k + getk o k.
Proof. intros. unfold add_into. rewrite (getk_fold Z.add); auto; intros; lia. Qed.
Lemma getk_sub_into : forall s o k, wf o -> getk (sub_into s o) k = getk s k - getk o k.
Proof. intros. unfold sub_into. rewrite (getk_fold Z.sub); auto; intros; lia. Qed.

Lemma wf_of_tiles_aux : forall l s, wf s -> wf (fold_left (fun a t => put a t (get a t + 1)) l s).
Proof. induction l; intros; cbn; auto. apply IHl. now apply wf_put. Qed.
Lemma wf_of_tiles : forall l, wf (of_tiles l).
Proof. intros. apply wf_of_tiles_aux. constructor. Qed.

(** number of tiles of a face in a list *)
Definition occ (k : kind) (l : list tile) : Z :=
  sumZ (fun t => if kind_eqb (view t) k then 1 else 0) l.

Lemma getk_of_tiles : forall l k, getk (of_tiles l) k = occ k l.
Proof.
  intros l k. unfold of_tiles.
  assert (G : forall l s, getk (fold_left (fun a t => put a t (get a t + 1)) l s) k = getk s k + occ k l).
  { induction l0 as [|t l0 IH]; intros s; cbn [fold_left]; [unfold occ; cbn [sumZ]; lia|]. rewrite IH, getk_put. unfold get, occ; cbn [sumZ].
    destruct (kind_eqb (view t) k) eqn:E; [|lia]. apply kind_eqb_eq in E; subst. lia. }
  rewrite G. reflexivity.
Qed.

Lemma legal_of_tiles : forall l, Forall (fun t => legal_kind (view t)) l -> legal_keys (of_tiles l).
Proof.
  intros l H. unfold of_tiles. assert (G : forall s, legal_keys s ->
    legal_keys (fold_left (fun a t => put a t (get a t + 1)) l s)).
  { induction H; intros s Hs; cbn; auto. apply IHForall. now apply legal_put. }
  apply G. constructor.
Qed.

(** ** sorting *)
Definition sorted (s : tset) : Prop := StronglySorted kind_lt (kinds_of s).

Lemma sort_ins_perm : forall e s, Permutation (sort_ins e s) (e :: s).
Proof.
  induction s as [|e' s IH]; cbn; auto. destruct (tile_ltb (fst e) (fst e')); auto.
  rewrite IH. apply perm_swap.
Qed.
Lemma re_sort_perm : forall s, Permutation (re_sort s) s.
Proof.
  intros s. unfold re_sort. assert (G : forall l a, Permutation (fold_left (fun a e => sort_ins e a) l a) (l ++ a)).
  { induction l as [|e l IH]; intros a; cbn; auto. rewrite IH, sort_ins_perm. symmetry. apply Permutation_middle. }
  rewrite G, app_nil_r. auto.
Qed.

Lemma sort_ins_sorted : forall e s, sorted s -> ~ In (kview e) (kinds_of s) -> sorted (sort_ins e s).
Proof.
  unfold sorted. induction s as [|e' s IH]; intros S N; cbn.
  - repeat constructor.
  - inversion S as [|? ? S1 S2]; subst. destruct (tile_ltb (fst e) (fst e')) eqn:E.
    + cbn. constructor; auto. constructor; auto.
      apply Forall_forall. intros k Hk. rewrite Forall_forall in S2.
      apply kind_lt_trans with (kview e'); auto.
    + cbn. constructor.
      * apply IH; auto. cbn in N; tauto.
      * apply Forall_forall. intros k Hk.
        assert (P : Permutation (kinds_of (sort_ins e s)) (kview e :: kinds_of s)).
        { unfold kinds_of. rewrite sort_ins_perm. reflexivity. }
        rewrite P in Hk. destruct Hk as [<-|Hk].
        -- apply kind_ltb_false in E. destruct E as [E|E]; auto. exfalso. apply N. left. symmetry; exact E.
        -- rewrite Forall_forall in S2. auto.
Qed.

Lemma re_sort_sorted : forall s, wf s -> sorted (re_sort s).
Proof.
  intros s W. unfold re_sort.
  assert (G : forall l a, wf (l ++ a) -> sorted a -> sorted (fold_left (fun a e => sort_ins e a) l a)).
  { induction l as [|e l IH]; intros a Wl Sa; cbn; auto. cbn in Wl. inversion Wl as [|? ? N W']; subst.
    apply IH.
    - unfold wf, kinds_of in *. eapply Permutation_NoDup; [|exact Wl].
      apply Permutation_map. change (kview e) with (kview e). rewrite sort_ins_perm. apply Permutation_middle.
    - apply sort_ins_sorted; auto. intros C. apply N. unfold kinds_of in *. rewrite map_app. apply in_or_app; auto. }
  apply G. now rewrite app_nil_r. constructor.
Qed.

Lemma getk_perm : forall s s' k, Permutation s s' -> wf s -> getk s k = getk s' k.
Proof.
  intros s s' k P W.
  assert (W' : wf s') by (unfold wf, kinds_of in *; eapply Permutation_NoDup; [apply Permutation_map; eauto|auto]).
  destruct (in_dec kind_eq_dec k (kinds_of s)) as [I|I].
  - apply in_map_iff in I. destruct I as ([t v] & A & B). unfold kview in A; cbn in A. subst.
    rewrite (getk_in s t v) by auto. symmetry. apply getk_in; auto. now rewrite <- P.
  - rewrite (getk_notin s) by auto. symmetry. apply getk_notin. intros C. apply I.
    unfold kinds_of in *. eapply Permutation_in; [symmetry; apply Permutation_map; exact P|exact C].
Qed.

Lemma wf_perm : forall s s', Permutation s s' -> wf s -> wf s'.
Proof. intros s s' P W. unfold wf, kinds_of in *. eapply Permutation_NoDup; [apply Permutation_map; eauto|auto]. Qed.
Lemma legal_perm : forall s s', Permutation s s' -> legal_keys s -> legal_keys s'.
Proof.
  intros s s' P W. unfold legal_keys in *. rewrite Forall_forall in *. intros k Hk. apply W.
  unfold kinds_of in *. eapply Permutation_in; [symmetry; apply Permutation_map; exact P|exact Hk].
Qed.

Lemma getk_re_sort : forall s k, wf s -> getk (re_sort s) k = getk s k.
Proof. intros. symmetry. apply getk_perm; auto. symmetry. apply re_sort_perm. Qed.
Lemma wf_re_sort : forall s, wf s -> wf (re_sort s).
Proof. intros. eapply wf_perm; [symmetry; apply re_sort_perm|auto]. Qed.
Lemma legal_re_sort : forall s, legal_keys s -> legal_keys (re_sort s).
Proof. intros. eapply legal_perm; [symmetry; apply re_sort_perm|auto]. Qed.

Lemma sorted_wf : forall s, sorted s -> wf s.
Proof.
  unfold sorted, wf. intros s H. induction H; constructor; auto.
  intros C. rewrite Forall_forall in H0. eapply kind_lt_irrefl; eauto.
Qed.

Lemma sorted_filter : forall f s, sorted s -> sorted (filter f s).
Proof.
  unfold sorted. induction s as [|e s IH]; intros H; cbn; auto. inversion H; subst.
  destruct (f e); cbn; auto. constructor; auto. apply Forall_forall. intros k Hk.
  rewrite Forall_forall in H3. apply H3. eapply kinds_filter_in; eauto.
Qed.

(** ** sums over all faces *)
Lemma sumZ_change_one : forall (U : list kind) (f g : kind -> Z) k, NoDup U -> In k U ->
  (forall x, In x U -> x <> k -> f x = g x) -> sumZ f U = sumZ g U + f k - g k.
Proof.
  induction U as [|u U IH]; intros f g k N I H; cbn; [destruct I|].
  inversion N; subst. destruct I as [->|I].
  - rewrite (sumZ_ext _ f g U); [lia|]. intros x Hx. apply H; cbn; auto. intros ->; auto.
  - rewrite (IH f g k); auto.
    + rewrite (H u); cbn; auto; [lia|]. intros ->; auto.
    + intros; apply H; cbn; auto.
Qed.

Lemma sum_getk : forall (U : list kind) (g : Z -> Z) s, NoDup U -> wf s -> incl (kinds_of s) U -> g 0 = 0 ->
  sumZ (fun e => g (snd e)) s = sumZ (fun k => g (getk s k)) U.
Proof.
  intros U g s NU. induction s as [|[t v] s IH]; intros W I G0; cbn [sumZ snd].
  - symmetry. apply sumZ_zero. intros; cbn; auto.
  - inversion W; subst. rewrite IH; auto.
    2:{ intros x Hx. apply I. cbn; auto. }
    symmetry. rewrite (sumZ_change_one U _ (fun k => g (getk s k)) (view t)); auto.
    + cbn. rewrite kind_eqb_refl. rewrite (getk_notin s (view t)) by auto. lia.
    + apply I. cbn; auto.
    + intros x Hx N. cbn. destruct (kind_eqb (view t) x) eqn:E; auto. apply kind_eqb_eq in E. congruence.
Qed.

Lemma KINDS_NoDup : NoDup KINDS.
Proof.
  unfold KINDS, suit_kinds. cbn.
  repeat (constructor; [cbn; intuition congruence|]). constructor.
Qed.

Lemma KINDS_legal : forall k, In k KINDS <-> legal_kind k.
Proof.
  intros [c n]. split.
  - intros H. cbn in H. repeat (destruct H as [H|H]; [inversion H; subst; cbn; lia|]). destruct H.
  - intros H. unfold legal_kind in H; cbn in H.
    assert (Hc : exists m, 1 <= n <= m /\ (m = 7 /\ c = Cz \/ m = 9 /\ c <> Cz)).
    { destruct c; [exists 9|exists 9|exists 9|exists 7]; intuition congruence. }
    unfold KINDS, suit_kinds.
    destruct c; cbn in H;
      assert (D : n = 1 \/ n = 2 \/ n = 3 \/ n = 4 \/ n = 5 \/ n = 6 \/ n = 7 \/ n = 8 \/ n = 9) by lia;
      repeat (destruct D as [->|D]; [cbn; tauto || (exfalso; lia)|]); subst; try (cbn; tauto); exfalso; lia.
Qed.

Lemma legal_incl : forall s, legal_keys s -> incl (kinds_of s) KINDS.
Proof. intros s H k Hk. apply KINDS_legal. unfold legal_keys in H. rewrite Forall_forall in H. auto. Qed.

Definition sumK (f : kind -> Z) : Z := sumZ f KINDS.

Lemma sum_values : forall (g : Z -> Z) s, wf s -> legal_keys s -> g 0 = 0 ->
  sumZ (fun e => g (snd e)) s = sumK (fun k => g (getk s k)).
Proof. intros. apply sum_getk; auto. apply KINDS_NoDup. now apply legal_incl. Qed.

Lemma total_sumK : forall s, wf s -> legal_keys s -> total s = sumK (getk s).
Proof. intros. unfold total. rewrite (sum_values (fun v => v)); auto. Qed.

Lemma total_neg : forall s, wf s -> legal_keys s -> total (neg s) = sumK (fun k => Z.max 0 (- getk s k)).
Proof.
  intros s W L. rewrite total_sumK.
  - apply sumZ_ext. intros; now apply getk_neg.
  - now apply wf_neg.
  - unfold legal_keys. rewrite kinds_neg. now apply legal_filter.
Qed.
Lemma total_pos : forall s, wf s -> legal_keys s -> total (pos s) = sumK (fun k => Z.max 0 (getk s k)).
Proof.
  intros s W L. rewrite total_sumK.
  - apply sumZ_ext. intros; now apply getk_pos.
  - now apply wf_filter.
  - now apply legal_filter.
Qed.

(** ** contains *)
Lemma contains_spec : forall s o, wf o ->
  (contains s o = true <-> forall k, In k (kinds_of o) -> getk o k <= getk s k).
Proof.
  intros s o W. unfold contains. rewrite forallb_forall. split.
  - intros H k Hk. apply in_map_iff in Hk. destruct Hk as ([t v] & A & B). unfold kview in A; cbn in A; subst.
    rewrite (getk_in o t v) by auto. specialize (H _ B). cbn in H. unfold get in H.
    apply negb_true_iff, Z.ltb_ge in H. auto.
  - intros H [t v] B. cbn. apply negb_true_iff, Z.ltb_ge. unfold get.
    rewrite <- (getk_in o t v W B). apply H. change (view t) with (kview (t, v)). now apply in_map.
Qed.
