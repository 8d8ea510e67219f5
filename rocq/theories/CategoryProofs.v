(** Proofs about the model of category.py. *)
From Verif Require Import Base Category Spec_Category.
From Coq Require Import List ZArith Lia Bool.
Import ListNotations.
Open Scope Z_scope.

Lemma cells_pos : forall ds, Forall (fun x => 0 < x) ds -> 0 < cells ds.
Proof. induction 1; cbn; nia. Qed.

Lemma fold_mul_cells : forall l, fold_right Z.mul 1 l = cells l.
Proof. induction l; cbn; congruence. Qed.

Lemma cells_app : forall a b, cells (a ++ b) = cells a * cells b.
Proof. induction a; intros; cbn [cells app]; rewrite ?IHa; ring. Qed.

Lemma cells_rev : forall a, cells (rev a) = cells a.
Proof. induction a; cbn; auto. rewrite cells_app, IHa. cbn [cells]. ring. Qed.

Lemma iter_app : forall l1 l2 i, Forall (fun x => 0 < x) l1 ->
  category_iter (l1 ++ l2) i = category_iter l1 i ++ category_iter l2 (i / cells l1).
Proof.
  induction l1 as [|d l1 IH]; intros l2 i H; cbn.
  - now rewrite Z.div_1_r.
  - inversion H; subst. replace (d =? -1) with false by (symmetry; apply Z.eqb_neq; lia). cbn.
    rewrite IH by auto. rewrite Z.div_div; auto; try lia. now apply cells_pos.
Qed.

(** front-to-back closed form of the digits *)
Fixpoint digits (ds : list Z) (i : Z) : list Z :=
  match ds with [] => [] | d :: r => ((i / cells r) mod d) :: digits r i end.

Lemma iter_rev_digits : forall ds i, Forall (fun x => 0 < x) ds ->
  rev (category_iter (rev ds) i) = digits ds i.
Proof.
  induction ds as [|d ds IH]; intros i H; cbn; auto.
  inversion H; subst. rewrite iter_app by (apply Forall_rev; auto).
  rewrite rev_app_distr. cbn. replace (d =? -1) with false by (symmetry; apply Z.eqb_neq; lia). cbn.
  rewrite cells_rev, IH; auto.
Qed.

Lemma digits_length : forall ds i, length (digits ds i) = length ds.
Proof. induction ds; cbn; auto. Qed.

Fixpoint value (xs ds : list Z) : Z :=
  match xs, ds with x :: xs', d :: ds' => x * cells ds' + value xs' ds' | _, _ => 0 end.

Lemma horner_value : forall xs ds x, length xs = length ds ->
  horner x xs ds = x * cells ds + value xs ds.
Proof.
  induction xs as [|y xs IH]; destruct ds as [|d ds]; cbn; intros x H; try discriminate; try lia.
  rewrite IH by auto. lia.
Qed.

Lemma value_digits : forall ds i, Forall (fun x => 0 < x) ds -> value (digits ds i) ds = i mod cells ds.
Proof.
  induction ds as [|d ds IH]; intros i H; cbn [value digits cells].
  - now rewrite Z.mod_1_r.
  - inversion H; subst. rewrite IH by auto.
    pose proof (cells_pos _ H3). rewrite (Z.mul_comm d).
    rewrite Z.rem_mul_r by lia. lia.
Qed.

Lemma value_range : forall xs ds, Forall2 (fun d x => 0 <= x < d) ds xs -> 0 <= value xs ds < cells ds.
Proof.
  intros xs ds H. induction H; cbn; [lia|]. nia.
Qed.

Lemma digits_value : forall ds xs q, Forall2 (fun d x => 0 <= x < d) ds xs ->
  digits ds (q * cells ds + value xs ds) = xs.
Proof.
  intros ds xs q H. revert q. induction H as [|d x ds xs Hx H IH]; intros q; cbn; auto.
  pose proof (value_range _ _ H) as R.
  f_equal.
  - replace (q * (d * cells ds) + (x * cells ds + value xs ds))
      with ((q * d + x) * cells ds + value xs ds) by lia.
    rewrite Z.div_add_l by lia. rewrite Z.div_small by lia.
    replace (q * d + x + 0) with (x + q * d) by lia. rewrite Z.mod_add by lia. apply Z.mod_small; lia.
  - replace (q * (d * cells ds) + (x * cells ds + value xs ds))
      with ((q * d + x) * cells ds + value xs ds) by lia. apply IH.
Qed.

Lemma digits_range : forall ds i, Forall (fun x => 0 < x) ds -> Forall2 (fun d x => 0 <= x < d) ds (digits ds i).
Proof.
  induction ds; intros i H; cbn; constructor; inversion H; subst; auto.
  apply Z.mod_pos_bound; auto.
Qed.

Definition top (d q : Z) : Z := if d =? -1 then q else q mod d.

Lemma new_subcat_ok : forall d ds, good_shape (d :: ds) ->
  new_subcat (d :: ds) = Ok (mkSub (rev (d :: ds)) (if d =? -1 then None else Some (cells (d :: ds)))).
Proof.
  intros d ds [Hd Hds]. unfold new_subcat.
  replace (forallb (fun x => 0 <? x) ds) with true.
  - destruct (d =? -1) eqn:E; cbn [orb].
    + reflexivity.
    + apply Z.eqb_neq in E. replace (0 <? d) with true by (symmetry; apply Z.ltb_lt; lia).
      now rewrite fold_mul_cells, cells_rev.
  - symmetry. apply forallb_forall. intros x Hx. rewrite Forall_forall in Hds.
    apply Z.ltb_lt; auto.
Qed.

Lemma iter_shape : forall d ds i, good_shape (d :: ds) ->
  rev (category_iter (rev (d :: ds)) i) = top d (i / cells ds) :: digits ds i.
Proof.
  intros d ds i [Hd Hds]. cbn [rev]. rewrite iter_app by (apply Forall_rev; auto).
  rewrite rev_app_distr, cells_rev, iter_rev_digits by auto. unfold top. cbn.
  destruct (d =? -1); reflexivity.
Qed.

Lemma new_subcat_inv : forall args c, new_subcat args = Ok c -> good_shape args.
Proof.
  intros [|d ds] c H; cbn in H; [discriminate|].
  destruct (forallb (fun x => 0 <? x) ds) eqn:E; [|discriminate].
  destruct ((d =? -1) || (0 <? d)) eqn:F; [|discriminate].
  cbn. split.
  - apply orb_true_iff in F. rewrite Z.eqb_eq, Z.ltb_lt in F. tauto.
  - apply Forall_forall. intros x Hx. rewrite forallb_forall in E. apply Z.ltb_lt; auto.
Qed.

Theorem sub_category_value : forall dims c i, new_subcat dims = Ok c ->
  match dims with
  | [] => False
  | d :: ds =>
    sub_category c i =
      (if (d =? -1) || (i <? cells dims) then Ok (top d (i / cells ds) :: digits ds i) else Err AssertionError)
  end.
Proof.
  intros dims c i H. pose proof (new_subcat_inv _ _ H) as G. destruct dims as [|d ds]; [destruct G|].
  rewrite (new_subcat_ok _ _ G) in H. inversion H; subst; clear H.
  unfold sub_category; cbn [sc_max sc_totals].
  try change (rev ds ++ [d]) with (rev (d :: ds)).
  rewrite iter_shape by auto.
  destruct (d =? -1); cbn [orb]; auto.
Qed.

Theorem sub_index_value : forall dims c tup, new_subcat dims = Ok c ->
  length tup = length dims ->
  match dims, tup with
  | d :: ds, x :: xs => sub_index c tup = Ok (x * cells ds + value xs ds)
  | _, _ => False
  end.
Proof.
  intros dims c tup H L. pose proof (new_subcat_inv _ _ H) as G. destruct dims as [|d ds]; [destruct G|].
  rewrite (new_subcat_ok _ _ G) in H. inversion H; subst; clear H.
  destruct tup as [|x xs]; [discriminate|].
  unfold sub_index; cbn [sc_totals]. try change (rev ds ++ [d]) with (rev (d :: ds)). rewrite rev_length, L, Nat.eqb_refl.
  rewrite rev_involutive. cbn [tl]. rewrite horner_value by (cbn in L; lia). reflexivity.
Qed.

Theorem sub_category_index : forall dims c i,
  new_subcat dims = Ok c -> valid_index dims i ->
  exists t, sub_category c i = Ok t /\ in_shape dims t /\ sub_index c t = Ok i.
Proof.
  intros dims c i H V. pose proof (new_subcat_inv _ _ H) as G.
  pose proof (sub_category_value _ _ i H) as HC.
  destruct dims as [|d ds]; [destruct G|]. cbn in V. destruct G as [Hd Hds].
  pose proof (cells_pos _ Hds) as Pos.
  assert (E : (d =? -1) || (i <? cells (d :: ds)) = true).
  { destruct V as [->|V]; cbn; auto. apply orb_true_iff; right. apply Z.ltb_lt. cbn. lia. }
  rewrite E in HC. eexists; split; [exact HC|].
  assert (S : in_shape (d :: ds) (top d (i / cells ds) :: digits ds i)).
  { cbn. split; [|now apply digits_range].
    unfold top. destruct (d =? -1) eqn:F; [left; now apply Z.eqb_eq|].
    apply Z.eqb_neq in F. right. apply Z.mod_pos_bound; lia. }
  split; [exact S|].
  pose proof (sub_index_value _ _ (top d (i / cells ds) :: digits ds i) H) as HI.
  cbn [length] in HI. rewrite digits_length in HI. rewrite HI by auto. f_equal.
  rewrite value_digits by auto. unfold top. destruct (d =? -1) eqn:F.
  - rewrite (Z.div_mod i (cells ds)) at 3 by lia. lia.
  - apply Z.eqb_neq in F. destruct V as [->|V]; [lia|].
    rewrite Z.mod_small.
    + rewrite (Z.div_mod i (cells ds)) at 3 by lia. lia.
    + split. apply Z.div_pos; lia. apply Z.div_lt_upper_bound; lia.
Qed.

Theorem sub_index_category : forall dims c t,
  new_subcat dims = Ok c -> in_shape dims t ->
  exists i, sub_index c t = Ok i /\ valid_index dims i /\ sub_category c i = Ok t.
Proof.
  intros dims c t H S. pose proof (new_subcat_inv _ _ H) as G.
  destruct dims as [|d ds]; [destruct G|]. destruct t as [|x xs]; [destruct S|].
  destruct S as [Hx Hxs]. destruct G as [Hd Hds].
  pose proof (Forall2_len _ _ _ _ _ Hxs) as L.
  pose proof (sub_index_value _ _ (x :: xs) H) as HI. cbn [length] in HI.
  rewrite <- L in HI. specialize (HI eq_refl).
  pose proof (value_range _ _ Hxs) as R.
  eexists; split; [exact HI|]. cbn [valid_index cells].
  assert (V : d = -1 \/ 0 <= x * cells ds + value xs ds < d * cells ds).
  { destruct Hx as [->|Hx]; [now left|right]. nia. }
  split; [exact V|].
  pose proof (sub_category_value _ _ (x * cells ds + value xs ds) H) as HC.
  cbn [cells] in HC.
  replace ((d =? -1) || (x * cells ds + value xs ds <? d * cells ds)) with true in HC.
  2:{ symmetry. apply orb_true_iff. rewrite Z.eqb_eq, Z.ltb_lt. destruct V; auto. right; lia. }
  rewrite HC, digits_value by auto.
  rewrite Z.div_add_l by lia. rewrite Z.div_small by lia. rewrite Z.add_0_r.
  unfold top. destruct (d =? -1) eqn:F; auto.
  apply Z.eqb_neq in F. rewrite Z.mod_small; auto. lia.
Qed.

(** order *)
Lemma value_lex : forall ds xs ys,
  Forall2 (fun d x => 0 <= x < d) ds xs -> Forall2 (fun d x => 0 <= x < d) ds ys ->
  (value xs ds < value ys ds <-> lex_lt xs ys).
Proof.
  intros ds xs ys H. revert ys. induction H as [|d x ds xs Hx H IH]; intros ys HY; inversion HY as [|d' y ds' ys' Hy HY']; subst; cbn.
  - lia.
  - pose proof (value_range _ _ H). pose proof (value_range _ _ HY'). rewrite <- (IH _ HY'). nia.
Qed.

Theorem sub_category_order : forall dims c i j ti tj,
  new_subcat dims = Ok c -> valid_index dims i -> valid_index dims j ->
  sub_category c i = Ok ti -> sub_category c j = Ok tj ->
  (i < j <-> lex_lt ti tj).
Proof.
  intros dims c i j ti tj H Vi Vj Ei Ej.
  destruct (sub_category_index _ _ _ H Vi) as (t1 & A1 & A2 & A3).
  destruct (sub_category_index _ _ _ H Vj) as (t2 & B1 & B2 & B3).
  rewrite A1 in Ei. rewrite B1 in Ej. inversion Ei; inversion Ej; subst; clear Ei Ej.
  destruct dims as [|d ds]; [destruct A2|].
  destruct ti as [|x xs]; [destruct A2|]. destruct tj as [|y ys]; [destruct B2|].
  destruct A2 as [_ A2]. destruct B2 as [_ B2].
  pose proof (sub_index_value _ _ (x :: xs) H) as I1. pose proof (sub_index_value _ _ (y :: ys) H) as I2.
  cbn [length] in I1, I2. rewrite <- (Forall2_len _ _ _ _ _ A2) in I1. rewrite <- (Forall2_len _ _ _ _ _ B2) in I2.
  rewrite I1 in A3 by auto. rewrite I2 in B3 by auto.
  inversion A3; inversion B3; subst.
  pose proof (value_range _ _ A2). pose proof (value_range _ _ B2).
  cbn. rewrite <- (value_lex _ _ _ A2 B2). nia.
Qed.

Theorem sub_category_error : forall dims c i e,
  new_subcat dims = Ok c ->
  (sub_category c i = Err e <-> e = AssertionError /\ hd 0 dims <> -1 /\ cells dims <= i).
Proof.
  intros dims c i e H. pose proof (sub_category_value _ _ i H) as HC.
  destruct dims as [|d ds]; [destruct HC|]. rewrite HC. cbn [hd].
  destruct (d =? -1) eqn:F; cbn [orb].
  - apply Z.eqb_eq in F. split; [discriminate|]. intros (_ & A & _). congruence.
  - apply Z.eqb_neq in F. destruct (i <? cells (d :: ds)) eqn:G.
    + apply Z.ltb_lt in G. split; [discriminate|]. lia.
    + apply Z.ltb_ge in G. split; [intros E; inversion E; auto|]. intros (-> & _); auto.
Qed.

(** MixedCategory *)
Definition bounded_of (dims : list Z) (c : subcat) : Prop :=
  bounded_shape dims /\ new_subcat dims = Ok c.

Lemma bounded_len : forall dims c, bounded_of dims c -> sub_len c = Ok (cells dims).
Proof.
  intros [|d ds] c [[N B] H]; [congruence|]. inversion B; subst.
  rewrite new_subcat_ok in H by (cbn; auto). inversion H; subst; clear H.
  unfold sub_len; cbn [sc_max]. replace (d =? -1) with false; auto. symmetry; apply Z.eqb_neq; lia.
Qed.

Lemma mapM_lens : forall shapes cs, Forall2 bounded_of shapes cs ->
  mapM sub_len cs = Ok (map cells shapes).
Proof.
  induction 1; cbn; auto. rewrite (bounded_len _ _ H). cbn. rewrite IHForall2. reflexivity.
Qed.

Lemma new_mixed_ok : forall shapes cs, Forall2 bounded_of shapes cs ->
  new_mixed cs = Ok (mkMixed cs (0 :: accumulate 0 (map cells shapes))).
Proof. intros. unfold new_mixed. erewrite mapM_lens by eauto. reflexivity. Qed.

Lemma accumulate_length : forall ls s, length (accumulate s ls) = length ls.
Proof. induction ls; cbn; auto. Qed.

Definition psum (lens : list Z) (k : nat) : Z := fold_right Z.add 0 (firstn k lens).

Lemma accumulate_nth : forall lens s k, (k < length lens)%nat ->
  nth k (accumulate s lens) 0 = s + psum lens (S k).
Proof.
  unfold psum. induction lens as [|n lens IH]; intros s k H; cbn in H; [lia|].
  destruct k; cbn; [lia|]. rewrite IH by lia. cbn [firstn fold_right]. lia.
Qed.

Lemma acc_nth : forall lens k, (k <= length lens)%nat ->
  nth k (0 :: accumulate 0 lens) 0 = psum lens k.
Proof.
  intros lens [|k] H; [reflexivity|]. cbn [nth]. rewrite accumulate_nth by lia. lia.
Qed.

Lemma psum_S : forall lens k, (k < length lens)%nat -> psum lens (S k) = psum lens k + nth k lens 0.
Proof.
  unfold psum. induction lens as [|n lens IH]; intros k H; cbn in H; [lia|].
  destruct k.
  - cbn. lia.
  - change (n + fold_right Z.add 0 (firstn (S k) lens) = n + fold_right Z.add 0 (firstn k lens) + nth k lens 0).
    rewrite IH by lia. lia.
Qed.

Lemma psum_mono : forall lens i j, Forall (fun n => 0 < n) lens -> (i < j <= length lens)%nat ->
  psum lens i < psum lens j.
Proof.
  intros lens i j H. induction j; intros L; [lia|].
  rewrite psum_S by lia. assert (0 < nth j lens 0).
  { rewrite Forall_forall in H. apply H. apply nth_In. lia. }
  destruct (Nat.eq_dec i j). subst; lia. specialize (IHj ltac:(lia)). lia.
Qed.

Lemma psum_all : forall lens, psum lens (length lens) = fold_right Z.add 0 lens.
Proof. intros. unfold psum. now rewrite firstn_all. Qed.

(** [bisect_right] on the accumulated lengths finds the block *)
Lemma bisect_block : forall lens i, Forall (fun n => 0 < n) lens ->
  0 <= i ->
  let r := bisect_right Z.ltb 0 (0 :: accumulate 0 lens) i in
  (1 <= r <= S (length lens))%nat /\
  psum lens (r - 1) <= i /\
  ((r <= length lens)%nat -> i < psum lens r).
Proof.
  intros lens i H Hi.
  assert (L : length (0 :: accumulate 0 lens) = S (length lens)) by (cbn; now rewrite accumulate_length).
  pose proof (bisect_right_spec Z.ltb 0 (0 :: accumulate 0 lens) i) as Sp.
  assert (Mono : forall a b, (a < b < length (0%Z :: accumulate 0%Z lens))%nat ->
     (i <? nth a (0 :: accumulate 0 lens) 0) = true -> (i <? nth b (0 :: accumulate 0 lens) 0) = true).
  { intros a b Hab. rewrite L in Hab. rewrite !acc_nth by lia. rewrite !Z.ltb_lt.
    intros; pose proof (psum_mono lens a b H ltac:(lia)); lia. }
  specialize (Sp Mono). cbv zeta in Sp. set (r := bisect_right Z.ltb 0 (0 :: accumulate 0 lens) i) in *.
  destruct Sp as (S1 & S2 & S3). rewrite L in *.
  assert (r <> 0)%nat.
  { intros E. specialize (S3 0%nat). rewrite E in S3. specialize (S3 ltac:(lia)).
    rewrite acc_nth in S3 by lia. apply Z.ltb_lt in S3. unfold psum in S3; cbn in S3. lia. }
  cbv zeta. split; [lia|]. split.
  - specialize (S2 (r - 1)%nat ltac:(lia)). rewrite acc_nth in S2 by lia. apply Z.ltb_ge in S2. lia.
  - intros Hr. specialize (S3 r ltac:(lia)). rewrite acc_nth in S3 by lia. apply Z.ltb_lt in S3. lia.
Qed.

Lemma locate_some : forall lens k o, Forall (fun n => 0 < n) lens -> (k < length lens)%nat ->
  0 <= o < nth k lens 0 -> locate lens (psum lens k + o) = Some (Z.of_nat k, o).
Proof.
  induction lens as [|n lens IH]; intros k o H L Ho; cbn in L; [lia|].
  inversion H; subst. destruct k.
  - unfold psum. cbn in *. replace ((0 <=? o) && (o <? n))%bool with true; auto.
    symmetry. apply andb_true_iff. rewrite Z.leb_le, Z.ltb_lt. lia.
  - cbn [nth] in Ho. specialize (IH k o H3 ltac:(lia) Ho).
    unfold psum in *. cbn [firstn fold_right locate].
    set (q := fold_right Z.add 0 (firstn k lens)) in *.
    assert (0 <= q). { unfold q. clear - H3. revert k. induction H3; intros [|k]; cbn; try lia. specialize (IHForall k). lia. }
    replace (n + q + o <? n) with false by (symmetry; apply Z.ltb_ge; lia).
    rewrite andb_false_r. replace (n + q + o - n) with (q + o) by lia. rewrite IH. f_equal. f_equal. lia.
Qed.

Lemma locate_none : forall lens i, Forall (fun n => 0 < n) lens -> fold_right Z.add 0 lens <= i -> locate lens i = None.
Proof.
  induction lens as [|n lens IH]; intros i H L; cbn in *; auto.
  inversion H; subst.
  assert (0 <= fold_right Z.add 0 lens). { clear - H3. induction H3; cbn; lia. }
  replace (i <? n) with false by (symmetry; apply Z.ltb_ge; lia). rewrite andb_false_r.
  rewrite IH; auto; lia.
Qed.

Lemma py_nth_ok : forall A (l : list A) k d, (k < length l)%nat -> py_nth l (Z.of_nat k) = Ok (nth k l d).
Proof.
  intros A l k d H. unfold py_nth.
  replace (Z.of_nat k <? 0) with false by (symmetry; apply Z.ltb_ge; lia).
  replace (Z.of_nat k <? 0) with false by (symmetry; apply Z.ltb_ge; lia).
  replace (Z.of_nat (length l) <=? Z.of_nat k) with false by (symmetry; apply Z.leb_gt; lia).
  cbn. rewrite Nat2Z.id. rewrite (nth_error_nth' l d H). reflexivity.
Qed.

Lemma py_nth_out : forall A (l : list A) k, (length l <= k)%nat -> py_nth l (Z.of_nat k) = Err IndexError.
Proof.
  intros A l k H. unfold py_nth.
  replace (Z.of_nat k <? 0) with false by (symmetry; apply Z.ltb_ge; lia).
  replace (Z.of_nat k <? 0) with false by (symmetry; apply Z.ltb_ge; lia).
  replace (Z.of_nat (length l) <=? Z.of_nat k) with true by (symmetry; apply Z.leb_le; lia).
  reflexivity.
Qed.

(** the negative offset wraps to the right tuple *)
Lemma sub_category_wrap : forall dims c o, bounded_of dims c -> 0 <= o < cells dims ->
  sub_category c (o - cells dims) = sub_category c o.
Proof.
  intros dims c o [[N B] H] Ho.
  pose proof (sub_category_value _ _ o H) as H1. pose proof (sub_category_value _ _ (o - cells dims) H) as H2.
  destruct dims as [|d ds]; [congruence|]. inversion B as [|? ? Hd Hds]; subst.
  pose proof (cells_pos _ Hds) as Pos. cbn [cells] in *.
  replace (d =? -1) with false in * by (symmetry; apply Z.eqb_neq; lia). cbn [orb] in *.
  rewrite H1, H2.
  replace (o <? d * cells ds) with true by (symmetry; apply Z.ltb_lt; lia).
  replace (o - d * cells ds <? d * cells ds) with true by (symmetry; apply Z.ltb_lt; lia).
  assert (W : forall ds' q, Forall (fun x => 0 < x) ds' -> digits ds' (o - q * cells ds') = digits ds' o).
  { induction ds' as [|e ds' IH]; intros q F; cbn; auto. inversion F as [|? ? He Hes]; subst.
    pose proof (cells_pos _ Hes). f_equal.
    - replace (o - q * (e * cells ds')) with (o + (- (q * e)) * cells ds') by lia.
      rewrite Z.div_add by lia. replace (o / cells ds' + - (q * e)) with (o / cells ds' + (- q) * e) by lia.
      apply Z.mod_add; lia.
    - replace (o - q * (e * cells ds')) with (o - (q * e) * cells ds') by lia. auto. }
  rewrite W by auto. unfold top. replace (d =? -1) with false by (symmetry; apply Z.eqb_neq; lia).
  replace (o - d * cells ds) with (o + (- d) * cells ds) by lia. rewrite Z.div_add by lia.
  replace (o / cells ds + - d) with (o / cells ds + (-1) * d) by lia. rewrite Z.mod_add by lia. reflexivity.
Qed.

Lemma cells_bounded_pos : forall shapes cs, Forall2 bounded_of shapes cs ->
  Forall (fun n => 0 < n) (map cells shapes).
Proof.
  induction 1; cbn; constructor; auto. destruct H as [[_ B] _]. now apply cells_pos.
Qed.

Lemma Forall2_nth2 : forall A B (R : A -> B -> Prop) l1 l2 k d1 d2,
  Forall2 R l1 l2 -> (k < length l1)%nat -> R (nth k l1 d1) (nth k l2 d2).
Proof.
  intros A B R l1 l2 k d1 d2 H. revert k. induction H; intros [|k] L; cbn in *; try lia; auto.
  apply IHForall2; lia.
Qed.

Theorem mixed_category_locate : forall shapes cs m i,
  Forall2 bounded_of shapes cs -> new_mixed cs = Ok m -> 0 <= i ->
  match locate (map cells shapes) i with
  | Some (b, o) => exists c sub, nth_error cs (Z.to_nat b) = Some c /\ 0 <= b /\
      sub_category c o = Ok sub /\ mixed_category m i = Ok (b :: sub)
  | None => mixed_category m i = Err IndexError
  end.
Proof.
  intros shapes cs m i HB HM Hi. rewrite (new_mixed_ok _ _ HB) in HM. inversion HM; subst; clear HM.
  pose proof (cells_bounded_pos _ _ HB) as Pos. set (lens := map cells shapes) in *.
  assert (LL : length lens = length cs). { unfold lens. rewrite map_length. eapply Forall2_len; eauto. }
  unfold mixed_category; cbn [mc_acc mc_list].
  pose proof (bisect_block lens i Pos Hi) as BB. cbv zeta in BB.
  set (r := bisect_right Z.ltb 0 (0 :: accumulate 0 lens) i) in *. destruct BB as (B1 & B2 & B3).
  replace (Z.of_nat r - 1) with (Z.of_nat (r - 1)) by lia.
  destruct (Nat.leb_spec r (length lens)) as [Hr|Hr].
  - specialize (B3 Hr).
    assert (PS : psum lens r = psum lens (r - 1) + nth (r - 1) lens 0).
    { rewrite <- psum_S by lia. f_equal. lia. }
    set (o := i - psum lens (r - 1)).
    assert (EL : locate lens i = Some (Z.of_nat (r - 1), o)).
    { replace i with (psum lens (r - 1) + o) by (unfold o; lia). apply locate_some; auto; unfold o; lia. }
    rewrite EL.
    assert (NE : exists c, nth_error cs (r - 1) = Some c).
    { destruct (nth_error cs (r - 1)) eqn:E; eauto. apply nth_error_None in E. lia. }
    destruct NE as [c NE].
    assert (Hc : bounded_of (nth (r - 1) shapes []) c).
    { pose proof (Forall2_nth2 _ _ _ _ _ (r - 1)%nat [] (mkSub [] None) HB) as F.
      erewrite (nth_error_nth cs (r-1)) in F by eauto. apply F. unfold lens in *. rewrite map_length in *. lia. }
    assert (Ln : nth (r - 1) lens 0 = cells (nth (r - 1) shapes [])).
    { unfold lens. rewrite (nth_indep _ 0 (cells [])). apply map_nth. rewrite map_length. unfold lens in *; rewrite map_length in *. lia. }
    assert (Ho : 0 <= o < cells (nth (r - 1) shapes [])) by (unfold o; lia).
    destruct Hc as [HcB Hc].
    assert (V : valid_index (nth (r - 1) shapes []) o).
    { destruct HcB as [N _]. destruct (nth (r-1) shapes []) as [|d ds]; [congruence|]. cbn. right. exact Ho. }
    destruct (sub_category_index _ _ _ Hc V) as (t & T1 & _ & _).
    exists c, t. rewrite Nat2Z.id. split; [exact NE|]. split; [lia|]. split; [exact T1|].
    rewrite (py_nth_ok _ cs (r - 1) c) by lia. rewrite (nth_error_nth _ _ c NE). cbn [bindr].
    rewrite (py_nth_ok _ (0 :: accumulate 0 lens) r 0) by (cbn [length]; rewrite accumulate_length; lia).
    rewrite acc_nth by lia. cbn [bindr].
    replace (i - psum lens r) with (o - cells (nth (r - 1) shapes [])) by (unfold o; lia).
    rewrite (sub_category_wrap (nth (r-1) shapes [])) by (unfold bounded_of; auto). rewrite T1. reflexivity.
  - assert (r = S (length lens)) by lia.
    assert (E : locate lens i = None).
    { apply locate_none; auto. rewrite <- psum_all. replace (length lens) with (r - 1)%nat by lia. lia. }
    rewrite E. rewrite py_nth_out by lia. reflexivity.
Qed.

(** MixedCategory.index inverts category when all blocks have the same trailing dimensions *)
Theorem mixed_roundtrip_same_tail : forall shapes cs m tail i,
  Forall2 bounded_of shapes cs -> new_mixed cs = Ok m ->
  Forall (fun s => tl s = tail) shapes ->
  0 <= i < fold_right Z.add 0 (map cells shapes) ->
  exists t, mixed_category m i = Ok t /\ mixed_index m t = Ok i.
Proof.
  intros shapes cs m tail i HB HM HT Hi.
  pose proof (mixed_category_locate _ _ _ i HB HM ltac:(lia)) as HL.
  pose proof (cells_bounded_pos _ _ HB) as Pos. set (lens := map cells shapes) in *.
  assert (LL : length lens = length cs). { unfold lens. rewrite map_length. eapply Forall2_len; eauto. }
  assert (LS : length lens = length shapes). { unfold lens. now rewrite map_length. }
  pose proof (bisect_block lens i Pos ltac:(lia)) as BB. cbv zeta in BB.
  set (r := bisect_right Z.ltb 0 (0 :: accumulate 0 lens) i) in *. destruct BB as (B1 & B2 & B3).
  assert (Hr : (r <= length lens)%nat).
  { destruct (Nat.leb_spec r (length lens)); auto. rewrite <- psum_all in Hi.
    replace (r - 1)%nat with (length lens) in B2 by lia. lia. }
  specialize (B3 Hr).
  assert (PS : psum lens r = psum lens (r - 1) + nth (r - 1) lens 0).
  { rewrite <- psum_S by lia. f_equal. lia. }
  set (o := i - psum lens (r - 1)).
  assert (EL : locate lens i = Some (Z.of_nat (r - 1), o)).
  { replace i with (psum lens (r - 1) + o) by (unfold o; lia). apply locate_some; auto; unfold o; lia. }
  rewrite EL in HL. destruct HL as (c & sub & NE & _ & SC & MC). rewrite Nat2Z.id in NE.
  exists (Z.of_nat (r - 1) :: sub). split; [exact MC|].
  rewrite (new_mixed_ok _ _ HB) in HM. inversion HM; subst; clear HM. fold lens.
  unfold mixed_index; cbn [mc_acc mc_list].
  rewrite (py_nth_ok _ (0 :: accumulate 0 lens) (r - 1) 0) by (cbn [length]; rewrite accumulate_length; lia).
  rewrite acc_nth by lia. cbn [bindr].
  assert (Hc : bounded_of (nth (r - 1) shapes []) c).
  { pose proof (Forall2_nth2 _ _ _ _ _ (r - 1)%nat [] (mkSub [] None) HB) as F.
    erewrite (nth_error_nth cs (r-1)) in F by eauto. apply F. lia. }
  (* the block used by index *)
  set (q := if Nat.eqb (r - 1) 0 then (length cs - 1)%nat else (r - 2)%nat).
  assert (Hq : (q < length cs)%nat) by (unfold q; destruct (Nat.eqb (r-1) 0); lia).
  set (c' := nth q cs (mkSub [] None)).
  assert (PN : py_nth cs (Z.of_nat (r - 1) - 1) = Ok c').
  { unfold c', q. destruct (Nat.eqb (r - 1) 0) eqn:E.
    - apply Nat.eqb_eq in E. rewrite E. unfold py_nth. cbn [Z.of_nat].
      replace (0 - 1 <? 0) with true by reflexivity.
      replace (0 - 1 + Z.of_nat (length cs) <? 0) with false by (symmetry; apply Z.ltb_ge; lia).
      replace (Z.of_nat (length cs) <=? 0 - 1 + Z.of_nat (length cs)) with false by (symmetry; apply Z.leb_gt; lia).
      cbn [orb]. replace (Z.to_nat (0 - 1 + Z.of_nat (length cs))) with (length cs - 1)%nat by lia.
      rewrite (nth_error_nth' cs (mkSub [] None)) by lia. reflexivity.
    - apply Nat.eqb_neq in E. replace (Z.of_nat (r - 1) - 1) with (Z.of_nat (r - 2)) by lia.
      apply py_nth_ok. lia. }
  rewrite PN. cbn [bindr].
  assert (Hc' : bounded_of (nth q shapes []) c').
  { apply (Forall2_nth2 _ _ _ _ _ q [] (mkSub [] None) HB). lia. }
  assert (T1 : tl (nth (r - 1) shapes []) = tail). { rewrite Forall_forall in HT. apply HT. apply nth_In. lia. }
  assert (T2 : tl (nth q shapes []) = tail). { rewrite Forall_forall in HT. apply HT. apply nth_In. lia. }
  destruct Hc as [[N1 B1'] C1]. destruct Hc' as [[N2 B2'] C2].
  destruct (nth (r - 1) shapes []) as [|d1 ds1] eqn:E1; [congruence|].
  destruct (nth q shapes []) as [|d2 ds2] eqn:E2; [congruence|].
  cbn [tl] in T1, T2. subst ds1 ds2.
  assert (Ln : nth (r - 1) lens 0 = cells (d1 :: tail)).
  { rewrite <- E1. unfold lens. rewrite (nth_indep _ 0 (cells [])). apply map_nth. rewrite map_length. lia. }
  assert (V : valid_index (d1 :: tail) o). { right. rewrite <- Ln. unfold o. lia. }
  destruct (sub_category_index _ _ _ C1 V) as (t & T1 & T2 & T3).
  rewrite SC in T1. inversion T1; subst t; clear T1.
  destruct sub as [|x xs]; [destruct T2|]. destruct T2 as [_ T2].
  pose proof (Forall2_len _ _ _ _ _ T2) as L2.
  pose proof (sub_index_value _ _ (x :: xs) C1 ltac:(cbn; lia)) as V1. cbn in V1.
  pose proof (sub_index_value _ _ (x :: xs) C2 ltac:(cbn; lia)) as V2. cbn in V2.
  rewrite V2. rewrite V1 in T3. inversion T3 as [T3']. cbn [bindr].
  f_equal. rewrite T3'. unfold o. lia.
Qed.
