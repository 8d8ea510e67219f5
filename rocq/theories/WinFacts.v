(** Facts linking the pattern objects of win.py with the specification units. *)
From Verif Require Import Base Tile TileSet Spec_Tile TileSetFacts Win Spec_Win.
From Coq Require Import List ZArith Lia Bool Permutation Sorted.
Import ListNotations.
Open Scope Z_scope.

Lemma same_kind_eqb : forall a b, same_kind a b = kind_eqb a b.
Proof. intros [[] n] [[] m]; reflexivity. Qed.

Definition use1 (u : munit) (k : kind) : Z := count_kind k (unit_kinds u).

Lemma count_kind_app : forall k a b, count_kind k (a ++ b) = count_kind k a + count_kind k b.
Proof. intros. apply sumZ_app. Qed.

Lemma uses_cons : forall u us k, uses (u :: us) k = use1 u k + uses us k.
Proof. intros. unfold uses; cbn. apply count_kind_app. Qed.
Lemma uses_nil : forall k, uses [] k = 0.
Proof. reflexivity. Qed.
Lemma uses_app : forall a b k, uses (a ++ b) k = uses a k + uses b k.
Proof. intros. unfold uses. rewrite flat_map_app. apply count_kind_app. Qed.
Lemma count_kind_nonneg : forall k l, 0 <= count_kind k l.
Proof. intros. apply sumZ_nonneg. intros; destruct (same_kind x k); lia. Qed.
Lemma use1_nonneg : forall u k, 0 <= use1 u k.
Proof. intros. apply count_kind_nonneg. Qed.
Lemma uses_nonneg : forall us k, 0 <= uses us k.
Proof. intros. apply count_kind_nonneg. Qed.
Lemma uses_perm : forall a b k, Permutation a b -> uses a k = uses b k.
Proof.
  induction 1; rewrite ?uses_cons; auto; try lia.
Qed.
Lemma uses_in_le : forall u us k, In u us -> use1 u k <= uses us k.
Proof.
  induction us as [|v us IH]; intros k H; [destruct H|]. rewrite uses_cons.
  pose proof (uses_nonneg us k). pose proof (use1_nonneg v k).
  destruct H as [->|H]; [lia|]. specialize (IH k H). lia.
Qed.

(** first tile of a unit *)
Definition start (u : munit) : kind :=
  match u with UPair k => k | UTrip k => k | URun c n => (c, n) end.

(** the TileSet object of a unit *)
Definition unit_ts (u : munit) : tset :=
  match u with
  | UPair (c, n) => [(Plain n c, 2)]
  | UTrip (c, n) => [(Plain n c, 3)]
  | URun c n => [(Plain n c, 1); (Plain (n + 1) c, 1); (Plain (n + 2) c, 1)]
  end.

Lemma kind_eqb_plus : forall (c : color) (n i j : Z), i <> j -> kind_eqb (c, n + i) (c, n + j) = false.
Proof. intros. apply kind_eqb_neq. intros E. inversion E. lia. Qed.
Lemma kind_eqb_plus0 : forall (c : color) (n j : Z), 0 <> j -> kind_eqb (c, n) (c, n + j) = false.
Proof. intros. apply kind_eqb_neq. intros E. inversion E. lia. Qed.
Lemma kind_eqb_plus0' : forall (c : color) (n j : Z), 0 <> j -> kind_eqb (c, n + j) (c, n) = false.
Proof. intros. apply kind_eqb_neq. intros E. inversion E. lia. Qed.

Lemma kind_eqb_false_lt : forall (c : color) (x y : Z), x <> y -> kind_eqb (c, x) (c, y) = false.
Proof. intros. apply kind_eqb_neq. intros E. inversion E. lia. Qed.

Lemma pair_view : forall t, pair t = unit_ts (UPair (view t)).
Proof.
  intros [n c|c]; unfold pair, of_tiles; cbn -[kind_eqb].
  - unfold get; cbn -[kind_eqb]. unfold tile_eqb; cbn -[kind_eqb]. now rewrite kind_eqb_refl.
  - unfold get; cbn -[kind_eqb]. unfold tile_eqb; cbn -[kind_eqb]. now rewrite kind_eqb_refl.
Qed.
Lemma triplet_view : forall t, triplet t = unit_ts (UTrip (view t)).
Proof.
  intros [n c|c]; unfold triplet, of_tiles; cbn -[kind_eqb];
  unfold get; cbn -[kind_eqb]; unfold tile_eqb; cbn -[kind_eqb];
  rewrite !kind_eqb_refl; cbn -[kind_eqb]; unfold tile_eqb; cbn -[kind_eqb]; rewrite ?kind_eqb_refl; reflexivity.
Qed.
Lemma of_tiles_run : forall c n, of_tiles [Plain n c; Plain (n + 1) c; Plain (n + 2) c] = unit_ts (URun c n).
Proof.
  intros. unfold of_tiles. cbn -[kind_eqb Z.add]. unfold get; cbn -[kind_eqb Z.add]. unfold tile_eqb; cbn -[kind_eqb Z.add].
  rewrite !(kind_eqb_plus0 c n) by lia. cbn -[kind_eqb Z.add].
  unfold tile_eqb; cbn -[kind_eqb Z.add].
  rewrite !(kind_eqb_plus0 c n) by lia. cbn -[kind_eqb Z.add].
  unfold tile_eqb; cbn -[kind_eqb Z.add].
  rewrite !(kind_eqb_plus c n) by lia. reflexivity.
Qed.
Lemma flush_view : forall t, flush t =
  (let (c, n) := view t in
   if match c with Cz => false | _ => true end && (n <=? 7) then Some (unit_ts (URun c n)) else None).
Proof.
  intros [n c|c]; unfold flush, flush_tiles; cbn [view tcolor is_suit].
  - unfold is_suit; cbn [tcolor]. change (9 - 3 + 1) with 7.
    destruct (match c with Cz => false | _ => true end && (n <=? 7)); cbn [option_map]; auto.
    cbn [map]. rewrite Z.add_0_r. now rewrite of_tiles_run.
  - unfold is_suit; cbn [tcolor]. change (0 =? 0) with true. change (0 + 5 <=? 7) with true.
    destruct (match c with Cz => false | _ => true end); cbn [andb option_map]; auto.
    cbn [map]. change (0 + 5 + 0) with 5. change (0 + 5 + 1) with (5 + 1). change (0 + 5 + 2) with (5 + 2).
    now rewrite of_tiles_run.
Qed.

Lemma unit_ts_getk : forall u k, getk (unit_ts u) k = use1 u k.
Proof.
  intros [[c n]|c n|[c n]] k; unfold use1, count_kind; cbn -[kind_eqb Z.add]; rewrite ?same_kind_eqb.
  - destruct (kind_eqb (c, n) k); reflexivity.
  - destruct (kind_eqb (c, n) k) eqn:E1; [|destruct (kind_eqb (c, n + 1) k) eqn:E2].
    + apply kind_eqb_eq in E1. subst. rewrite !kind_eqb_plus0' by lia. reflexivity.
    + apply kind_eqb_eq in E2. subst. rewrite kind_eqb_plus by lia. reflexivity.
    + destruct (kind_eqb (c, n + 2) k); reflexivity.
  - destruct (kind_eqb (c, n) k); reflexivity.
Qed.
Lemma unit_ts_sorted : forall u, sorted (unit_ts u).
Proof.
  intros [[c n]|c n|[c n]]; unfold sorted; cbn; repeat constructor; apply kind_lt_spec; cbn; right; split; auto; lia.
Qed.
Lemma unit_ts_wf : forall u, wf (unit_ts u).
Proof. intros. apply sorted_wf, unit_ts_sorted. Qed.

Lemma use1_legal : forall u k, legal_unit u -> 0 < use1 u k -> legal_kind k.
Proof.
  intros [k'|c n|k'] k L; unfold use1, count_kind; cbn [unit_kinds sumZ]; rewrite !same_kind_eqb; cbn in L; intros H.
  - destruct (kind_eqb k' k) eqn:E; [|lia]. apply kind_eqb_eq in E; now subst.
  - destruct (kind_eqb (c, n) k) eqn:E1; [|destruct (kind_eqb (c, n + 1) k) eqn:E2; [|destruct (kind_eqb (c, n + 2) k) eqn:E3; [|lia]]].
    + apply kind_eqb_eq in E1; subst. unfold legal_kind; cbn. destruct c; try lia; tauto.
    + apply kind_eqb_eq in E2; subst. unfold legal_kind; cbn. destruct c; try lia; tauto.
    + apply kind_eqb_eq in E3; subst. unfold legal_kind; cbn. destruct c; try lia; tauto.
  - destruct (kind_eqb k' k) eqn:E; [|lia]. apply kind_eqb_eq in E; now subst.
Qed.
Lemma unit_ts_legal : forall u, legal_unit u -> legal_keys (unit_ts u).
Proof.
  intros u L. unfold legal_keys. apply Forall_forall. intros k H. apply use1_legal with u; auto.
  rewrite <- unit_ts_getk. apply in_map_iff in H. destruct H as ([t v] & A & B).
  unfold kview in A; cbn in A; subst. rewrite (getk_in _ t v (unit_ts_wf u) B).
  destruct u as [[c n]|c n|[c n]]; cbn in B;
    repeat (destruct B as [B|B]; [inversion B; lia|]); destruct B.
Qed.
Lemma use1_start : forall u, 0 < use1 u (start u).
Proof.
  intros [k|c n|k]; unfold use1, count_kind; cbn [unit_kinds start sumZ]; rewrite !same_kind_eqb, ?kind_eqb_refl; try lia.
  destruct (kind_eqb (c, n + 1) (c, n)), (kind_eqb (c, n + 2) (c, n)); lia.
Qed.
Lemma use1_ge_start : forall u k, 0 < use1 u k -> k = start u \/ kind_lt (start u) k.
Proof.
  intros [k'|c n|k'] k; unfold use1, count_kind; cbn [unit_kinds sumZ]; rewrite !same_kind_eqb; intros H; cbn [start].
  - destruct (kind_eqb k' k) eqn:E; [|lia]. apply kind_eqb_eq in E; auto.
  - destruct (kind_eqb (c, n) k) eqn:E1; [apply kind_eqb_eq in E1; auto|].
    right. destruct (kind_eqb (c, n + 1) k) eqn:E2; [|destruct (kind_eqb (c, n + 2) k) eqn:E3; [|lia]].
    + apply kind_eqb_eq in E2; subst. apply kind_lt_spec; cbn. right; split; auto; lia.
    + apply kind_eqb_eq in E3; subst. apply kind_lt_spec; cbn. right; split; auto; lia.
  - destruct (kind_eqb k' k) eqn:E; [|lia]. apply kind_eqb_eq in E; auto.
Qed.
Lemma start_legal : forall u, legal_unit u -> legal_kind (start u).
Proof. intros u L. eapply use1_legal; eauto. apply use1_start. Qed.

(** number of tiles in a unit *)
Definition usize (u : munit) : Z := match u with UPair _ => 2 | _ => 3 end.

Lemma sumK_indicator : forall k, legal_kind k -> sumK (fun x => if kind_eqb k x then 1 else 0) = 1.
Proof.
  intros k L. unfold sumK. rewrite (sumZ_change_one KINDS _ (fun _ => 0) k).
  - rewrite kind_eqb_refl. rewrite sumZ_zero; auto.
  - apply KINDS_NoDup.
  - now apply KINDS_legal.
  - intros x _ N. destruct (kind_eqb k x) eqn:E; auto. apply kind_eqb_eq in E. congruence.
Qed.
Lemma sumK_count : forall l, Forall legal_kind l -> sumK (fun k => count_kind k l) = Z.of_nat (length l).
Proof.
  induction 1 as [|x l Hx H IH].
  - cbn. reflexivity.
  - unfold count_kind; cbn [sumZ]. unfold sumK. rewrite sumZ_plus. fold (sumK (fun k => sumZ (fun y => if same_kind y k then 1 else 0) l)).
    unfold count_kind in IH. rewrite IH.
    rewrite (sumZ_ext _ (fun x0 => if same_kind x x0 then 1 else 0) (fun x0 => if kind_eqb x x0 then 1 else 0)).
    2:{ intros; now rewrite same_kind_eqb. }
    pose proof (sumK_indicator x Hx) as S. unfold sumK in S. rewrite S. cbn [length]. lia.
Qed.
Lemma unit_kinds_legal : forall u, legal_unit u -> Forall legal_kind (unit_kinds u).
Proof.
  intros [k|c n|k] L; cbn in *; repeat constructor; auto; unfold legal_kind; cbn; destruct c; try lia; tauto.
Qed.
Lemma sumK_use1 : forall u, legal_unit u -> sumK (use1 u) = usize u.
Proof.
  intros u L. unfold use1. rewrite sumK_count by now apply unit_kinds_legal. destruct u; reflexivity.
Qed.
Lemma sumK_uses : forall us, Forall legal_unit us -> sumK (uses us) = sumZ usize us.
Proof.
  induction 1 as [|u us Hu H IH]; cbn [sumZ].
  - reflexivity.
  - rewrite <- IH, <- sumK_use1 by auto. unfold sumK. rewrite <- sumZ_plus.
    apply sumZ_ext. intros. apply uses_cons.
Qed.

(** ** shapes with the "used" set of UniquePairs *)
Definition sh (p : pattern) (us : list munit) : Prop :=
  Forall legal_unit us /\
  match p with
  | NormalTypeWin pr m =>
    Z.of_nat (length (filter is_pair us)) = pr /\
    Z.of_nat (length (filter (fun u => negb (is_pair u)) us)) = m
  | UniquePairs n used =>
    Forall (fun u => is_pair u = true) us /\ NoDup (map pair_face us) /\ Z.of_nat (length us) = n /\
    (forall k, In k (map pair_face us) -> ~ In k (map view used))
  end.

Definition pattern_of (s : shape) : pattern :=
  match s with Standard p m => NormalTypeWin p m | DistinctPairs n => UniquePairs n [] end.

Lemma sh_forms : forall s us, sh (pattern_of s) us <-> forms s us.
Proof. intros [p m|n] us; unfold sh, forms; cbn; intuition. Qed.

Lemma sh_legal : forall p us, sh p us -> Forall legal_unit us.
Proof. intros p us H. apply H. Qed.

Lemma sh_perm : forall p us us', Permutation us us' -> sh p us -> sh p us'.
Proof.
  intros p us us' P [L H]. split.
  - rewrite Forall_forall in *. intros u Hu. apply L. rewrite P. auto.
  - assert (PF : forall f : munit -> bool, length (filter f us) = length (filter f us')).
    { intros f. clear - P. induction P; cbn; auto; repeat match goal with |- context[f ?x] => destruct (f x) end; cbn; congruence. }
    destruct p as [pr m|n used].
    + now rewrite <- !PF.
    + destruct H as (A & B & C & D). repeat split.
      * rewrite Forall_forall in *. intros u Hu. apply A. rewrite P. auto.
      * eapply Permutation_NoDup; [apply Permutation_map; exact P|auto].
      * now rewrite <- (Permutation_length P).
      * intros k Hk. apply D. rewrite P. auto.
Qed.

Lemma has_win_sh : forall p, has_win p = true <-> sh p [].
Proof.
  intros [pr m|n used]; unfold sh; cbn.
  - rewrite andb_true_iff, !Z.eqb_eq. intuition.
  - rewrite Z.eqb_eq. split; intros; intuition; constructor.
Qed.
Lemma has_win_nil : forall p us, has_win p = true -> sh p us -> us = [].
Proof.
  intros [pr m|n used] us; unfold sh; cbn.
  - rewrite andb_true_iff, !Z.eqb_eq. intros [-> ->] (_ & A & B).
    destruct us as [|u us]; auto. cbn in *. destruct (is_pair u); cbn in *; lia.
  - rewrite Z.eqb_eq. intros -> (_ & _ & _ & A & _). destruct us; auto. cbn in A; lia.
Qed.

Lemma sh_need_count : forall p us, sh p us -> need_count p = sumZ usize us.
Proof.
  intros [pr m|n used] us [_ H]; cbn [need_count need_units].
  - destruct H as [<- <-]. induction us as [|[] us IH]; cbn [filter is_pair negb length sumZ usize] in *; lia.
  - destruct H as (A & _ & <- & _). induction A as [|u us Hu A IH]; cbn [length sumZ]; auto.
    destruct u; try discriminate. cbn [usize]. lia.
Qed.
Lemma sh_need_units : forall p us, sh p us -> need_units p = Z.of_nat (length us).
Proof.
  intros [pr m|n used] us [_ H]; cbn [need_count need_units].
  - destruct H as [<- <-]. induction us as [|[] us IH]; cbn [filter is_pair negb length sumZ usize] in *; lia.
  - destruct H as (A & _ & <- & _). auto.
Qed.
Lemma sh_depth : forall p us, sh p us -> (length us < depth p)%nat.
Proof.
  intros p us H. pose proof (sh_need_units _ _ H). destruct p as [pr m|n used]; cbn in *.
  - destruct H as (_ & A & B). lia.
  - lia.
Qed.

Lemma next_states_sound : forall p t u p', legal_kind (view t) ->
  In (u, p') (next_states p t) ->
  exists su, legal_unit su /\ start su = view t /\ u = unit_ts su /\
    (forall us, sh p' us -> sh p (su :: us)) /\ (depth p' < depth p)%nat.
Proof.
  intros p t u p' L H. destruct p as [pr m|n used]; cbn [next_states] in H.
  - apply in_app_or in H. destruct H as [H|H].
    + destruct (0 <? pr) eqn:E; [|destruct H]. apply Z.ltb_lt in E. destruct H as [H|[]]. inversion H; subst.
      exists (UPair (view t)). split; [exact L|]. split; [reflexivity|]. split; [apply pair_view|]. split.
      * intros us (A & B & C). split; [constructor; auto|]. cbn in *. lia.
      * cbn. lia.
    + destruct (0 <? m) eqn:E; [|destruct H]. apply Z.ltb_lt in E. apply in_app_or in H. destruct H as [H|H].
      * rewrite flush_view in H. destruct (view t) as [c n] eqn:V.
        destruct (match c with Cz => false | _ => true end && (n <=? 7)) eqn:F; [|destruct H].
        destruct H as [H|[]]. inversion H; subst. apply andb_true_iff in F. destruct F as [F1 F2].
        apply Z.leb_le in F2.
        exists (URun c n). repeat split; cbn; auto; try lia.
        -- destruct c; congruence.
        -- unfold legal_kind in L; cbn in L. destruct c; lia.
        -- constructor; [|apply H0]. cbn. unfold legal_kind in L; cbn in L. destruct c; try discriminate; split; try congruence; lia.
        -- destruct H0 as (_ & B & C). auto.
        -- destruct H0 as (_ & B & C). lia.
      * destruct H as [H|[]]. inversion H; subst.
        exists (UTrip (view t)). split; [exact L|]. split; [reflexivity|]. split; [apply triplet_view|]. split.
        -- intros us (A & B & C). split; [constructor; auto|]. cbn in *. lia.
        -- cbn. lia.
  - destruct (negb (existsb (tile_eqb t) used) && (0 <? n)) eqn:E; [|destruct H].
    apply andb_true_iff in E. destruct E as [E1 E2]. apply Z.ltb_lt in E2.
    destruct H as [H|[]]. inversion H; subst.
    exists (UPair (view t)). split; [exact L|]. split; [reflexivity|]. split; [apply pair_view|]. split.
    + intros us (A & B & C & D & F). split; [constructor; auto|]. cbn in *. repeat split.
      * constructor; auto.
      * constructor; auto. intros I. apply (F _ I). auto.
      * lia.
      * intros k [<-|I] J.
        -- apply negb_true_iff in E1. apply in_map_iff in J. destruct J as (x & X1 & X2).
           assert (existsb (tile_eqb t) used = true); [|congruence].
           apply existsb_exists. exists x. split; auto. apply tile_eqb_eq. auto.
        -- apply (F k I). auto.
    + cbn. lia.
Qed.

Lemma next_states_complete : forall p t su us, sh p (su :: us) -> start su = view t ->
  exists p', In (unit_ts su, p') (next_states p t) /\ sh p' us.
Proof.
  intros p t su us [L H] S. inversion L as [|? ? Lsu Lus]; subst.
  destruct p as [pr m|n used]; cbn [next_states].
  - cbn [filter] in H. destruct su as [k|c n|k]; cbn [is_pair negb start] in *.
    + exists (NormalTypeWin (pr - 1) m). split.
      * apply in_or_app. left. replace (0 <? pr) with true by (symmetry; apply Z.ltb_lt; cbn in H; lia).
        left. rewrite pair_view, S. reflexivity.
      * split; auto. cbn [length] in H. lia.
    + exists (NormalTypeWin pr (m - 1)). split.
      * apply in_or_app. right. replace (0 <? m) with true by (symmetry; apply Z.ltb_lt; cbn in H; lia).
        apply in_or_app. left. rewrite flush_view, <- S. cbn in Lsu.
        replace (n <=? 7) with true by (symmetry; apply Z.leb_le; lia). destruct c; cbn; auto. tauto.
      * split; auto. cbn [length] in H. lia.
    + exists (NormalTypeWin pr (m - 1)). split.
      * apply in_or_app. right. replace (0 <? m) with true by (symmetry; apply Z.ltb_lt; cbn in H; lia).
        apply in_or_app. right. left. rewrite triplet_view, S. reflexivity.
      * split; auto. cbn [length] in H. lia.
  - destruct H as (A & B & C & D). inversion A as [|? ? A1 A2]; subst. inversion B as [|? ? B1 B2]; subst.
    destruct su as [k|c m|k]; try discriminate. cbn [start] in S.
    exists (UniquePairs (Z.of_nat (length (UPair k :: us)) - 1) (t :: used)). split.
    + replace (existsb (tile_eqb t) used) with false.
      * replace (0 <? Z.of_nat (length (UPair k :: us))) with true by (symmetry; apply Z.ltb_lt; cbn [length]; lia).
        cbn [negb andb]. left. rewrite pair_view, S. reflexivity.
      * symmetry. destruct (existsb (tile_eqb t) used) eqn:E; auto. exfalso.
        apply existsb_exists in E. destruct E as (x & X1 & X2). apply tile_eqb_eq in X2.
        apply (D k); [cbn; auto|]. rewrite S, X2. now apply in_map.
    + split; auto. repeat split; auto.
      * cbn [length]. lia.
      * intros k' I [J|J].
        -- apply B1. cbn. rewrite S, J. exact I.
        -- apply (D k'); cbn; auto.
Qed.

Lemma max_unit_length_sh : forall p u us, sh p (u :: us) -> usize u <= max_unit_length p.
Proof.
  intros [pr m|n used] u us [_ H]; cbn.
  - destruct (0 <? m) eqn:E.
    + destruct u; cbn; lia.
    + apply Z.ltb_ge in E. destruct u; cbn in *; try lia.
  - destruct H as (A & _). inversion A; subst. destruct u; cbn in *; solve [lia | discriminate].
Qed.
