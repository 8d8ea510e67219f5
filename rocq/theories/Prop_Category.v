(** C01-C04: numbering of nested categories. Final statements. *)
From Verif Require Import Base Category Spec_Category CategoryProofs.
From Coq Require Import List ZArith Lia.
Import ListNotations.
Open Scope Z_scope.

(** C01. For every object built by [SubCategory( *dims)]: [category] of a valid index is a
    tuple of the shape that [index] maps back, and [index] of a tuple of the shape is a valid
    index (in [0, len) for a bounded shape) that [category] maps back. *)
Theorem C01_sub_category_bijection : forall dims c, new_subcat dims = Ok c ->
  (forall i, valid_index dims i ->
     exists t, sub_category c i = Ok t /\ in_shape dims t /\ sub_index c t = Ok i) /\
  (forall t, in_shape dims t ->
     exists i, sub_index c t = Ok i /\ valid_index dims i /\ sub_category c i = Ok t).
Proof. intros dims c H. split; intros; [eapply sub_category_index|eapply sub_index_category]; eauto. Qed.

(** [SubCategory( *dims)] succeeds exactly on the good shapes. *)
Theorem C01_sub_category_constructor : forall dims,
  (exists c, new_subcat dims = Ok c) <-> good_shape dims.
Proof.
  intros dims. split.
  - intros [c H]. eapply new_subcat_inv; eauto.
  - destruct dims as [|d ds]; intros H; [destruct H|]. eexists. now apply new_subcat_ok.
Qed.

(** [len] is the number of cells. *)
Theorem C01_sub_category_len : forall dims c, new_subcat dims = Ok c ->
  hd 0 dims <> -1 -> sub_len c = Ok (cells dims).
Proof.
  intros dims c H N. pose proof (new_subcat_inv _ _ H) as G. destruct dims as [|d ds]; [destruct G|].
  rewrite (new_subcat_ok d ds G) in H. inversion H; subst. cbn [hd] in N. unfold sub_len. cbn [sc_max].
  replace (d =? -1) with false by (symmetry; now apply Z.eqb_neq). reflexivity.
Qed.

Example C01_example : exists c, new_subcat [3; 7; 3] = Ok c /\ valid_index [3; 7; 3] 62 /\
  sub_category c 62 = Ok [2; 6; 2] /\ sub_index c [2; 6; 2] = Ok 62.
Proof. eexists. split; [reflexivity|]. split; [right; cbn; lia|]. split; reflexivity. Qed.
Example C01_example_open : exists c, new_subcat [-1; 4] = Ok c /\ valid_index [-1; 4] 1003 /\
  sub_category c 1003 = Ok [250; 3].
Proof. eexists. split; [reflexivity|]. split; [left; reflexivity|reflexivity]. Qed.

(** C02. Order of indices is lexicographic order of tuples; the only error is
    AssertionError, exactly for an index beyond a bounded shape. *)
Theorem C02_sub_category_order : forall dims c i j ti tj,
  new_subcat dims = Ok c -> valid_index dims i -> valid_index dims j ->
  sub_category c i = Ok ti -> sub_category c j = Ok tj ->
  (i < j <-> lex_lt ti tj).
Proof. exact sub_category_order. Qed.

Theorem C02_sub_category_error : forall dims c i e,
  new_subcat dims = Ok c ->
  (sub_category c i = Err e <-> e = AssertionError /\ hd 0 dims <> -1 /\ cells dims <= i).
Proof. exact sub_category_error. Qed.

Example C02_example : exists c, new_subcat [34; 4] = Ok c /\
  sub_category c 7 = Ok [1; 3] /\ sub_category c 8 = Ok [2; 0] /\ lex_lt [1; 3] [2; 0] /\
  sub_category c 136 = Err AssertionError.
Proof. eexists. split; [reflexivity|]. repeat split; try reflexivity. left. lia. Qed.

(** The sub-categories of a MixedCategory: [SubCategory( *dims)] of bounded shapes. *)
Definition sub_categories (shapes : list (list Z)) (cs : list subcat) : Prop :=
  Forall2 (fun dims c => bounded_shape dims /\ new_subcat dims = Ok c) shapes cs.

Lemma sub_categories_bounded : forall shapes cs, sub_categories shapes cs -> Forall2 bounded_of shapes cs.
Proof. intros shapes cs H. induction H as [|? ? ? ? [A B]]; constructor; auto. split; auto. Qed.

(** C03. [locate sizes i] is the block and offset of position [i] in the concatenation. *)
Theorem C03_mixed_category_locate : forall shapes cs m i,
  sub_categories shapes cs -> new_mixed cs = Ok m -> 0 <= i ->
  match locate (map cells shapes) i with
  | Some (b, o) => exists c sub, nth_error cs (Z.to_nat b) = Some c /\ 0 <= b /\
      sub_category c o = Ok sub /\ mixed_category m i = Ok (b :: sub)
  | None => mixed_category m i = Err IndexError
  end.
Proof. intros shapes cs m i H. apply mixed_category_locate. now apply sub_categories_bounded. Qed.

(** [locate] finds no block exactly beyond the sum of the sizes. *)
Theorem C03_locate_range : forall sizes i, Forall (fun n => 0 < n) sizes -> 0 <= i ->
  (locate sizes i = None <-> fold_right Z.add 0 sizes <= i).
Proof.
  induction sizes as [|n r IH]; intros i F Hi; cbn [locate fold_right]; [split; auto|].
  inversion F as [|? ? P Q]; subst.
  assert (S : 0 <= fold_right Z.add 0 r).
  { clear -Q. induction Q; cbn [fold_right]; lia. }
  destruct (Z.leb_spec 0 i); [|lia]. cbn [andb]. destruct (Z.ltb_spec i n).
  - split; [discriminate|lia].
  - specialize (IH (i - n) Q ltac:(lia)).
    destruct (locate r (i - n)) as [[b o]|]; split; intros X; try discriminate; auto.
    + destruct IH as [_ IH]. specialize (IH ltac:(lia)). discriminate.
    + destruct IH as [IH _]. specialize (IH eq_refl). lia.
Qed.
(** [len] is the number of cells of all parts, and exactly the indices below it have a category. *)
Theorem C03_len : forall shapes cs m, sub_categories shapes cs -> new_mixed cs = Ok m ->
  mixed_len m = Ok (fold_right Z.add 0 (map cells shapes)) /\
  forall i, 0 <= i -> (mixed_category m i = Err IndexError <-> fold_right Z.add 0 (map cells shapes) <= i).
Proof.
  intros shapes cs m H M. pose proof (sub_categories_bounded _ _ H) as B. split.
  - rewrite (new_mixed_ok _ _ B) in M. inversion M; subst m. unfold mixed_len. cbn [mc_list]. erewrite mapM_lens by eauto. cbn [bindr]. f_equal.
    apply fold_symmetric; intros; lia.
  - intros i I. pose proof (C03_mixed_category_locate shapes cs m i H M I) as L.
    assert (P : Forall (fun n => 0 < n) (map cells shapes)).
    { eapply cells_bounded_pos; eassumption. }
    rewrite <- (C03_locate_range _ _ P I). destruct (locate (map cells shapes) i) as [[b o]|]; [|tauto].
    destruct L as (c & sub & _ & _ & _ & ->). split; discriminate.
Qed.

(** TENHOU_TILE_CATEGORY (value/tile.py 7-8). *)
Definition tenhou_shapes : list (list Z) := [[9; 4]; [9; 4]; [9; 4]; [7; 4]].
Example C03_example : exists cs m, sub_categories tenhou_shapes cs /\ new_mixed cs = Ok m /\
  locate (map cells tenhou_shapes) 88 = Some (2, 16) /\ mixed_category m 88 = Ok [2; 4; 0] /\
  mixed_category m 136 = Err IndexError.
Proof.
  eexists. eexists. split; [repeat constructor; try discriminate; try lia|].
  split; [reflexivity|]. split; [reflexivity|]. split; reflexivity.
Qed.

(** C04, full statement: [index(category(i)) == i] for every MixedCategory. It is false of
    the code: [index] uses the sub-category before the right one. *)
Definition C04_full : Prop := forall shapes cs m i,
  sub_categories shapes cs -> new_mixed cs = Ok m ->
  0 <= i < fold_right Z.add 0 (map cells shapes) ->
  exists t, mixed_category m i = Ok t /\ mixed_index m t = Ok i.

Theorem C04_refuted : exists shapes cs m i t j,
  sub_categories shapes cs /\ new_mixed cs = Ok m /\
  0 <= i < fold_right Z.add 0 (map cells shapes) /\
  mixed_category m i = Ok t /\ mixed_index m t = Ok j /\ j <> i.
Proof.
  exists [[2; 3]; [2; 5]]. eexists. eexists. exists 3. eexists. eexists.
  split; [repeat constructor; try discriminate; try lia|].
  split; [reflexivity|]. split; [cbn; lia|]. split; [reflexivity|]. split; [vm_compute; reflexivity|]. discriminate.
Qed.

(** C04, proved part: when all sub-categories have the same trailing dimensions (as in
    TENHOU_TILE_CATEGORY). Missing: categories with different trailing dimensions, where
    the statement fails. *)
Theorem C04_mixed_roundtrip_partial : forall shapes cs m tail i,
  sub_categories shapes cs -> new_mixed cs = Ok m ->
  Forall (fun s => tl s = tail) shapes ->
  0 <= i < fold_right Z.add 0 (map cells shapes) ->
  exists t, mixed_category m i = Ok t /\ mixed_index m t = Ok i.
Proof. intros shapes cs m tail i H. apply mixed_roundtrip_same_tail. now apply sub_categories_bounded. Qed.

(** Exactly when it holds: [index] reads the digits in the shape of the block before the right one, so
    those must be worth the same there. *)
Lemma value_all own other : length own = length other -> Forall (fun x => 0 < x) own ->
  ((forall t, Forall2 (fun d x => 0 <= x < d) own t -> value t own = value t other) <->
   forall j d, nth_error own j = Some d -> 1 < d -> cells (skipn (S j) own) = cells (skipn (S j) other)).
Proof.
  revert other. induction own as [|d own IH]; intros [|d' other] L F; try discriminate L.
  - split; [intros _ [|j] d K; discriminate K|reflexivity].
  - inversion F as [|? ? Pd Fo]; subst. injection L as L. specialize (IH other L Fo). split.
    + intro H. assert (H' : forall t, Forall2 (fun d x => 0 <= x < d) own t -> value t own = value t other).
      { intros t Ht. specialize (H (0 :: t) ltac:(constructor; [lia|exact Ht])). cbn [value] in H. lia. }
      intros [|j] e K Pe; [injection K as <-; cbn [skipn]|exact (proj1 IH H' j e K Pe)].
      assert (Zr : Forall2 (fun d x => 0 <= x < d) own (repeat 0 (length own))).
      { clear -Fo. induction Fo; cbn [repeat length]; constructor; [lia|assumption]. }
      specialize (H (1 :: repeat 0 (length own)) ltac:(constructor; [lia|exact Zr])). cbn [value] in H. rewrite (H' _ Zr) in H. lia.
    + intros H t Ht. inversion Ht as [|? x ? xs Hx Hxs]; subst. cbn [value].
      rewrite (proj2 IH (fun j e K => H (S j) e K) xs Hxs). destruct (Z.eq_dec x 0) as [->|N]; [lia|].
      specialize (H 0%nat d eq_refl ltac:(lia)). cbn [skipn] in H. rewrite H. reflexivity.
Qed.
Lemma block_round shapes cs m k own prev cp o : sub_categories shapes cs -> new_mixed cs = Ok m ->
  nth_error shapes k = Some own -> nth_error shapes (block_before (length shapes) k) = Some prev -> nth_error cs (block_before (length shapes) k) = Some cp ->
  0 <= o < cells own ->
  exists t, in_shape own t /\ value t own = o /\ 0 <= psum (map cells shapes) k /\ psum (map cells shapes) k + o < fold_right Z.add 0 (map cells shapes) /\
    mixed_category m (psum (map cells shapes) k + o) = Ok (Z.of_nat k :: t) /\
    mixed_index m (Z.of_nat k :: t) = (do i <- sub_index cp t; Ok (psum (map cells shapes) k + i)).
Proof.
  intros H M Ek Ep Ec Ho. pose proof (sub_categories_bounded _ _ H) as B. pose proof (cells_bounded_pos _ _ B) as Pos. set (lens := map cells shapes) in *.
  assert (LL : length lens = length shapes) by apply map_length. assert (LC : length shapes = length cs) by (eapply Forall2_len; eauto).
  assert (Lk : (k < length shapes)%nat) by (apply nth_error_Some; congruence).
  assert (Nk : nth k lens 0 = cells own). { unfold lens. rewrite (nth_indep _ 0 (cells [])) by (rewrite map_length; exact Lk). rewrite map_nth. f_equal. now apply nth_error_nth. }
  pose proof (locate_some lens k o Pos ltac:(lia) ltac:(lia)) as EL.
  assert (P0 : 0 <= psum lens k). { unfold psum. clear -Pos. revert k. induction Pos; intros [|k]; cbn; try lia. specialize (IHPos k). lia. }
  assert (P1 : psum lens k + nth k lens 0 <= psum lens (length lens)).
  { rewrite <- psum_S by lia. destruct (Nat.eq_dec (S k) (length lens)) as [->|N]; [lia|]. pose proof (psum_mono lens (S k) (length lens) Pos ltac:(lia)). lia. }
  rewrite psum_all in P1. pose proof (mixed_category_locate _ _ _ (psum lens k + o) B M ltac:(lia)) as ML. fold lens in ML. rewrite EL in ML.
  destruct ML as (c & t & Nc & _ & SC & MC). rewrite Nat2Z.id in Nc.
  assert (Hc : bounded_of own c).
  { pose proof (Forall2_nth2 _ _ _ _ _ k [] (mkSub [] None) B Lk) as F. rewrite (nth_error_nth _ _ _ Nc), (nth_error_nth _ _ _ Ek) in F. exact F. }
  destruct Hc as [[N1 B1] C1]. assert (V : valid_index own o) by (destruct own; [congruence|right; exact Ho]).
  destruct (sub_category_index _ _ _ C1 V) as (t' & T1 & T2 & T3). rewrite SC in T1. injection T1 as <-. exists t. split; [exact T2|].
  split.
  { destruct own as [|d ds]; [congruence|]. destruct t as [|x xs]; [destruct T2|]. destruct T2 as [_ T2].
    pose proof (sub_index_value _ _ (x :: xs) C1 ltac:(cbn; f_equal; symmetry; eapply Forall2_len; exact T2)) as V1. cbn in V1. rewrite T3 in V1. cbn [value]. congruence. }
  split; [exact P0|]. split; [lia|]. split; [exact MC|]. rewrite (new_mixed_ok _ _ B) in M. inversion M; subst m. fold lens. unfold mixed_index. cbn [mc_acc mc_list].
  rewrite (py_nth_ok _ (0 :: accumulate 0 lens) k 0) by (cbn [length]; rewrite accumulate_length; lia). rewrite acc_nth by lia. cbn [bindr].
  replace (py_nth cs (Z.of_nat k - 1)) with (@Ok subcat cp); [reflexivity|]. symmetry. destruct k as [|k]; cbn [block_before] in Ec.
  - unfold py_nth. cbn [Z.of_nat]. replace (0 - 1 <? 0) with true by reflexivity.
    replace (0 - 1 + Z.of_nat (length cs) <? 0) with false by (symmetry; apply Z.ltb_ge; lia).
    replace (Z.of_nat (length cs) <=? 0 - 1 + Z.of_nat (length cs)) with false by (symmetry; apply Z.leb_gt; lia).
    cbn [orb]. replace (Z.to_nat (0 - 1 + Z.of_nat (length cs))) with (length shapes - 1)%nat by lia. rewrite Ec. reflexivity.
  - replace (Z.of_nat (S k) - 1) with (Z.of_nat k) by lia. rewrite (py_nth_ok _ cs k cp) by lia. now rewrite (nth_error_nth _ _ _ Ec).
Qed.
Theorem C04_exactly : forall shapes cs m, sub_categories shapes cs -> new_mixed cs = Ok m ->
  ((forall i, 0 <= i < fold_right Z.add 0 (map cells shapes) -> exists t, mixed_category m i = Ok t /\ mixed_index m t = Ok i) <->
   forall k own prev, nth_error shapes k = Some own -> nth_error shapes (block_before (length shapes) k) = Some prev -> same_weights own prev).
Proof.
  intros shapes cs m H M. pose proof (sub_categories_bounded _ _ H) as B. assert (LC : length shapes = length cs) by (eapply Forall2_len; eauto).
  assert (Sh : forall k own, nth_error shapes k = Some own -> exists c, nth_error cs k = Some c /\ bounded_of own c).
  { intros k own Ek. assert (Lk : (k < length shapes)%nat) by (apply nth_error_Some; congruence). destruct (nth_error cs k) as [c|] eqn:Ec; [|apply nth_error_None in Ec; lia].
    exists c. split; [reflexivity|]. pose proof (Forall2_nth2 _ _ _ _ _ k [] (mkSub [] None) B Lk) as F. rewrite (nth_error_nth _ _ _ Ec), (nth_error_nth _ _ _ Ek) in F. exact F. }
  assert (In0 : forall own t, Forall (fun x => 0 < x) own -> own <> [] -> (in_shape own t <-> Forall2 (fun d x => 0 <= x < d) own t)).
  { intros [|d ds] t F N; [congruence|]. inversion F; subst. split.
    - destruct t as [|x xs]; [intros []|]. intros [[K|K] K2]; [lia|]. constructor; assumption.
    - intro K. inversion K; subst. split; [now right|assumption]. }
  split.
  - intros R k own prev Ek Ep. destruct (Sh _ _ Ek) as (c & _ & [[N1 B1] C1]). destruct (Sh _ _ Ep) as (cp & Ec & [[N2 B2] C2]).
    assert (One : forall t, Forall2 (fun d x => 0 <= x < d) own t -> length t = length prev /\ value t own = value t prev).
    { intros t Ht. pose proof (value_range _ _ Ht) as Vr. destruct (block_round _ _ _ _ _ _ _ (value t own) H M Ek Ep Ec Vr) as (u & U1 & U2 & U3 & U4 & U5 & U6).
      apply In0 in U1; try assumption. assert (u = t).
      { rewrite <- (digits_value own u 0 U1), <- (digits_value own t 0 Ht), U2. reflexivity. }
      subst u. clear U1. destruct (R (psum (map cells shapes) k + value t own) ltac:(lia)) as (v & V1 & V2). rewrite U5 in V1. injection V1 as <-. rewrite U6 in V2.
      destruct (sub_index cp t) as [j|] eqn:Ej; [|discriminate V2]. cbn [bindr] in V2. injection V2 as V2.
      assert (Lt : length t = length prev).
      { unfold sub_index in Ej. destruct prev as [|e es]; [congruence|]. rewrite (new_subcat_ok e es) in C2 by (inversion B2; subst; split; [now right|assumption]). inversion C2; subst cp. cbn [sc_totals] in Ej.
        destruct (Nat.eqb (length t) (length (rev es ++ [e]))) eqn:Q; [|discriminate Ej]. apply Nat.eqb_eq in Q. rewrite app_length, rev_length in Q. cbn [length] in *. lia. }
      split; [exact Lt|]. pose proof (sub_index_value _ _ t C2 Lt) as V3. destruct prev as [|e es]; [congruence|]. destruct t as [|x xs]; [destruct V3|]. rewrite V3 in Ej. injection Ej as <-.
      cbn [value] in *. lia. }
    assert (Zr : Forall2 (fun d x => 0 <= x < d) own (repeat 0 (length own))).
    { clear -B1. induction B1; cbn [repeat length]; constructor; [lia|assumption]. }
    destruct (One _ Zr) as [Ln _]. rewrite repeat_length in Ln. split; [exact Ln|]. apply (value_all own prev Ln B1). intros t Ht. exact (proj2 (One t Ht)).
  - intros W i Hi. pose proof (C03_mixed_category_locate _ _ _ i H M (proj1 Hi)) as L.
    pose proof (cells_bounded_pos _ _ B) as Pos. pose proof (bisect_block (map cells shapes) i Pos (proj1 Hi)) as BB. cbv zeta in BB.
    set (r := bisect_right Z.ltb 0 (0 :: accumulate 0 (map cells shapes)) i) in *. destruct BB as (R1 & R2 & R3). pose proof (map_length cells shapes) as LL.
    assert (Hr : (r <= length (map cells shapes))%nat).
    { destruct (Nat.leb_spec r (length (map cells shapes))); auto. rewrite <- psum_all in Hi. replace (r - 1)%nat with (length (map cells shapes)) in R2 by lia. lia. }
    specialize (R3 Hr). assert (PS : psum (map cells shapes) r = psum (map cells shapes) (r - 1) + nth (r - 1) (map cells shapes) 0) by (rewrite <- psum_S by lia; f_equal; lia).
    destruct (nth_error shapes (r - 1)) as [own|] eqn:Ek; [|apply nth_error_None in Ek; lia].
    assert (Nk : nth (r - 1) (map cells shapes) 0 = cells own). { rewrite (nth_indep _ 0 (cells [])) by lia. rewrite map_nth. f_equal. now apply nth_error_nth. }
    assert (Lb : (block_before (length shapes) (r - 1) < length shapes)%nat) by (unfold block_before; destruct (r - 1)%nat eqn:Q; lia).
    destruct (nth_error shapes (block_before (length shapes) (r - 1))) as [prev|] eqn:Ep; [|apply nth_error_None in Ep; lia].
    destruct (Sh _ _ Ek) as (c & _ & [[N1 B1] C1]). destruct (Sh _ _ Ep) as (cp & Ec & [[N2 B2] C2]).
    destruct (block_round _ _ _ _ _ _ _ (i - psum (map cells shapes) (r - 1)) H M Ek Ep Ec ltac:(lia)) as (t & U1 & U2 & U3 & U4 & U5 & U6).
    replace (psum (map cells shapes) (r - 1) + (i - psum (map cells shapes) (r - 1))) with i in * by lia. exists (Z.of_nat (r - 1) :: t). split; [exact U5|]. rewrite U6.
    destruct (W _ _ _ Ek Ep) as [Ln Wt]. apply In0 in U1; try assumption. pose proof (proj2 (value_all own prev Ln B1) Wt t U1) as Ve.
    assert (Lt : length t = length prev) by (rewrite <- Ln; symmetry; eapply Forall2_len; exact U1).
    pose proof (sub_index_value _ _ t C2 Lt) as V3. destruct prev as [|e es]; [congruence|]. destruct t as [|x xs]; [destruct V3|]. rewrite V3. cbn [bindr]. f_equal.
    change (x * cells es + value xs es) with (value (x :: xs) (e :: es)). lia.
Qed.
(** Two shapes that differ where it does not matter: the dimension 1 is never counted on. *)
Example C04_exact_example : same_weights [5; 1; 3] [2; 1; 3] /\ same_weights [1; 3] [1; 3] /\ ~ same_weights [2; 3] [2; 5].
Proof.
  split; [|split].
  - split; [reflexivity|]. intros [|[|[|j]]] d K P; reflexivity.
  - split; [reflexivity|]. intros [|[|j]] d K P; reflexivity.
  - intros [_ K]. specialize (K 0%nat 2 eq_refl ltac:(lia)). discriminate K.
Qed.

Example C04_example : exists cs m, sub_categories tenhou_shapes cs /\ new_mixed cs = Ok m /\
  Forall (fun s => tl s = [4]) tenhou_shapes /\ mixed_index m [2; 4; 0] = Ok 88.
Proof.
  eexists. eexists. split; [repeat constructor; try discriminate; try lia|].
  split; [reflexivity|]. split; [repeat constructor|reflexivity].
Qed.

Print Assumptions C01_sub_category_bijection.
Print Assumptions C01_sub_category_constructor.
Print Assumptions C01_sub_category_len.
Print Assumptions C02_sub_category_order.
Print Assumptions C02_sub_category_error.
Print Assumptions C03_mixed_category_locate.
Print Assumptions C03_locate_range.
Print Assumptions C03_len.
Print Assumptions C04_refuted.
Print Assumptions C04_mixed_roundtrip_partial.
Print Assumptions C04_exactly.
