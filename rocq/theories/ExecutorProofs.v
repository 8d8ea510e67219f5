From Verif Require Import Base Parse Text Value Universe Transfer Spec_Transfer TransferProofs Spec_Universe StateProofs UniverseProofs.
From Coq Require Import String List ZArith Lia Bool Permutation.
Import ListNotations.
Open Scope list_scope.
Open Scope Z_scope.

Lemma key_eqb_iff a b : key_eqb a b = true <-> a = b.
Proof.
  destruct a, b; cbn; try (split; congruence).
  - rewrite text_eqb_iff. split; congruence.
  - destruct s, s0; cbn; split; congruence.
  - rewrite Z.eqb_eq. split; congruence.
  - rewrite view_eqb_iff. split; congruence.
Qed.

(** * Reading one key *)
Lemma reads_get (h : edict) a kids k : reads h a (TNode kids) ->
  match entry key_eqb kids k with
  | None => eget h a k = Ok None
  | Some (TLeaf v) => eget h a k = Ok (Some (Leaf v))
  | Some (TNode ks) => exists b, eget h a k = Ok (Some (Ref b)) /\ reads h b (TNode ks)
  end.
Proof.
  intro R. apply reads_node in R. destruct R as [o [L F]]. unfold eget, td_get. rewrite L. clear L.
  induction F as [|[k1 c] [k2 t2] items kids [A B] F IH]; cbn in *; [reflexivity|]. subst k2.
  destruct (key_eqb k1 k).
  - destruct t2 as [v|ks].
    + destruct c; [injection B as ->; reflexivity|destruct B].
    + destruct c as [v|b]; [discriminate|]. exists b. split; [reflexivity|exact B].
  - exact IH.
Qed.
Lemma reads_child (h : edict) a T k ks : reads h a T -> at_path key_eqb T [k] = Some (TNode ks) ->
  exists b, child h a k = Ok b /\ walk key_eqb h a [k] = Some b /\ reads h b (TNode ks).
Proof.
  intros R A. destruct T as [|kids]; [discriminate|]. pose proof (reads_get h a kids k R) as G. cbn in A.
  destruct (entry key_eqb kids k) as [t|]; [|discriminate]. injection A as ->.
  destruct G as [b [G Rb]]. exists b. unfold child. rewrite G. split; [reflexivity|]. split; [|exact Rb].
  cbn [walk]. unfold eget in G. rewrite G. reflexivity.
Qed.

(** * The shape of the states *)
Definition base_of (p : place) : list key :=
  match fst p with None => [KScope (scope_of (snd p)); k_single] | Some i => [KScope SPlayer; KPid i] end.
Lemma path_base p : path_of p = base_of p ++ [KView (snd p)].
Proof. unfold path_of, base_of. destruct (fst p); reflexivity. Qed.
Definition is_base (b : list key) : Prop := b = [k_global; k_time] \/ exists p, real_place p /\ b = base_of p.
Definition shaped (T : tree key val) : Prop := forall b, is_base b -> exists ks, at_path key_eqb T b = Some (TNode ks).
Lemma base_two b : is_base b -> exists k1 k2, b = [k1; k2].
Proof. intros [->|[p [_ ->]]]; [eauto|]. unfold base_of. destruct (fst p); eauto. Qed.
Lemma base_elsewhere b b' k : is_base b -> is_base b' -> b' <> b -> elsewhere b' (b ++ [k]).
Proof.
  intros B B' N r. destruct (base_two b B) as [x [y ->]], (base_two b' B') as [x' [y' ->]]. split; cbn; intro E; try congruence.
Qed.
Lemma elsewhere3 (a b c a' b' c' : key) : [a; b; c] <> [a'; b'; c'] -> elsewhere [a; b; c] [a'; b'; c'].
Proof.
  intros N r. destruct r as [|x r]; cbn; [rewrite ?app_nil_r; split; congruence|]. split; intro E; injection E; congruence || (intros; discriminate).
Qed.

Definition shown_path (q : list key) : Prop := q = time_path \/ exists p, real_place p /\ q = path_of p.
Record running (h : edict) (root : nat) (T : tree key val) : Prop := mkRunning {
  run_session : exists roots, session key_eqb h roots /\ In root roots;
  run_reads : reads h root T;
  run_shaped : shaped T;
  run_only : forall q v, at_path key_eqb T q = Some (TLeaf v) -> shown_path q }.

Lemma base_object h root T k1 k2 : running h root T -> is_base [k1; k2] ->
  exists d a ks, child h root k1 = Ok d /\ child h d k2 = Ok a /\ walk key_eqb h root [k1; k2] = Some a /\
    at_path key_eqb T [k1; k2] = Some (TNode ks) /\ reads h a (TNode ks).
Proof.
  intros [_ R S0 _] B. destruct (S0 _ B) as [ks A].
  assert (A1 : exists ks1, at_path key_eqb T [k1] = Some (TNode ks1) /\ at_path key_eqb (TNode ks1) [k2] = Some (TNode ks)).
  { change [k1; k2] with ([k1] ++ [k2]) in A. rewrite at_path_app in A.
    destruct (at_path key_eqb T [k1]) as [[v|ks1]|]; try discriminate. exists ks1. auto. }
  destruct A1 as [ks1 [A1 A2]].
  destruct (reads_child h root T k1 ks1 R A1) as [d [C1 [W1 R1]]].
  destruct (reads_child h d (TNode ks1) k2 ks R1 A2) as [a [C2 [W2 R2]]].
  exists d, a, ks. split; [exact C1|]. split; [exact C2|]. split; [|split; [exact A|exact R2]].
  cbn [walk] in *. destruct (td_get key_eqb h root k1) as [[[v|b]|]|]; try discriminate. injection W1 as ->. exact W2.
Qed.

Lemma related_dec (q p : list key) : (exists r, q = p ++ r) \/ (exists r, p = q ++ r) \/ elsewhere q p.
Proof.
  revert q. induction p as [|x p IH]; intro q; [left; exists q; reflexivity|].
  destruct q as [|y q]; [right; left; exists (x :: p); reflexivity|]. destruct (key_eqb y x) eqn:E.
  - apply key_eqb_iff in E. subst y. destruct (IH q) as [[r ->]|[[r ->]|N]].
    + left. exists r. reflexivity.
    + right. left. exists r. reflexivity.
    + right. right. intro r. split; cbn; intro X; injection X as X; destruct (N r) as [N1 N2]; auto.
  - right. right. intro r. assert (y <> x) by (intro X; apply key_eqb_iff in X; congruence). split; cbn; congruence.
Qed.
(** Setting a value in one of the innermost dictionaries. *)
Lemma base_set h root T b a k v : running h root T -> is_base b -> shown_path (b ++ [k]) -> walk key_eqb h root b = Some a ->
  exists h' r T', runs (fun fuel => eset fuel h a k (PLeaf v)) (h', r) /\ running h' r T' /\
    at_path key_eqb T' (b ++ [k]) = Some (TLeaf v) /\
    (forall q, elsewhere q (b ++ [k]) -> at_path key_eqb T' q = at_path key_eqb T q) /\
    (forall y s, reads h y s -> reads h' y s).
Proof.
  intros Run B SP W. destruct Run as [[roots [S0 I0]] R Sh On].
  destruct (set_in_session key_eqb key_eqb_iff h roots root T b a k (PLeaf v) (TLeaf v) S0 I0 R W (sf_leaf _ _ _ v))
    as [h' [r [T' [Ru [Rd [G [A E]]]]]]].
  assert (AT : at_path key_eqb T' (b ++ [k]) = Some (TLeaf v)) by exact (A []).
  exists h', r, T'. split; [exact Ru|]. split; [|split; [exact AT|split; [exact E|]]].
  - constructor.
    + exists (r :: roots). split; [|left; reflexivity]. eapply s_set; eauto. constructor.
    + exact Rd.
    + intros b' B'. destruct (list_eq_dec (fun x y : key => ltac:(destruct (key_eqb x y) eqn:Q; [left; apply key_eqb_iff; exact Q|right; intro; apply key_eqb_iff in H; congruence]) : {x = y} + {x <> y}) b' b) as [->|N].
      * rewrite at_path_app in AT. destruct (at_path key_eqb T' b) as [[x|ks]|]; try discriminate. eauto.
      * destruct (Sh _ B') as [ks X]. exists ks. rewrite E; [exact X|]. apply base_elsewhere; assumption.
    + intros q w Q. destruct (related_dec q (b ++ [k])) as [[r0 ->]|[[r0 X]|N]].
      * destruct r0 as [|k0 r0]; [rewrite app_nil_r; exact SP|]. rewrite <- app_assoc in Q. cbn [app] in Q. rewrite A in Q. discriminate Q.
      * destruct r0 as [|k0 r0]; [rewrite app_nil_r in X; rewrite <- X; exact SP|]. rewrite X, at_path_app, Q in AT. discriminate AT.
      * rewrite E in Q by exact N. exact (On _ _ Q).
  - intros y s Ry. apply (reads_mono h); [|exact Ry].
    apply grown_extends; [|exact G]. exact (proj1 (session_ok key_eqb key_eqb_iff h roots S0)).
Qed.

(** * One command *)
Definition reflects (T : tree key val) (cs : list command) : Prop :=
  forall p v, real_place p -> holds_after cs p v -> at_path key_eqb T (path_of p) = option_map TLeaf v.
Definition defined (cs : list command) : Prop := forall p, exists v, holds_after cs p v.

Lemma place_base p : real_place p -> is_base (base_of p).
Proof. intro R. right. eauto. Qed.
Lemma time_base : is_base [k_global; k_time]. Proof. left. reflexivity. Qed.

Lemma state_value_ok h root T c p : running h root T -> addressed c p ->
  exists a ks, state_value h root c = Ok a /\ walk key_eqb h root (base_of p) = Some a /\
    at_path key_eqb T (base_of p) = Some (TNode ks) /\ reads h a (TNode ks).
Proof.
  intros Run A. pose proof (place_base p (addressed_real c p A)) as B.
  destruct A as [E A]. unfold state_value, base_of in *. destruct p as [o v]. cbn [fst snd] in *. subst v.
  destruct (scope_of (c_prop c)).
  - subst o. destruct (base_object _ _ _ _ _ Run B) as [d [a [ks [C1 [C2 [W [X R]]]]]]].
    exists a, ks. rewrite C1. cbn [bindr]. auto.
  - destruct A as [i [L [S0 ->]]]. destruct (base_object _ _ _ _ _ Run B) as [d [a [ks [C1 [C2 [W [X R]]]]]]].
    exists a, ks. rewrite C1, S0. cbn [bindr player_id_of].
    replace ((0 <=? i) && (i <=? 3)) with true by (symmetry; apply andb_true_iff; lia). cbn [bindr]. auto.
  - subst o. destruct (base_object _ _ _ _ _ Run B) as [d [a [ks [C1 [C2 [W [X R]]]]]]].
    exists a, ks. rewrite C1. cbn [bindr]. auto.
Qed.
Lemma state_value_err h root T c : running h root T -> (forall p, ~ addressed c p) -> exists e, state_value h root c = Err e.
Proof.
  intros Run N. unfold state_value. destruct (scope_of (c_prop c)) eqn:S0.
  - exfalso. apply (N (None, c_prop c)). split; [reflexivity|]. rewrite S0. reflexivity.
  - destruct (base_object h root T (KScope SPlayer) (KPid 0) Run) as [d [a [ks [C1 _]]]].
    { right. exists (Some 0, PV_name). split; [exists 0; split; [lia|reflexivity]|reflexivity]. }
    rewrite C1. cbn [bindr]. destruct (c_sub c) as [t|i] eqn:Sc; cbn [player_id_of bindr]; [eauto|].
    destruct (Z_le_dec 0 i), (Z_le_dec i 3).
    1: { exfalso. apply (N (Some i, c_prop c)). split; [reflexivity|]. rewrite S0. exists i. auto. }
    all: replace ((0 <=? i) && (i <=? 3)) with false by (symmetry; apply andb_false_iff; lia); cbn [bindr]; eauto.
  - exfalso. apply (N (None, c_prop c)). split; [reflexivity|]. rewrite S0. reflexivity.
Qed.

(** The assertion check of the executor. *)
Lemma check_spec c o :
  (comparable (c_prop c) (c_value c) o /\ exists r, prop_call [c_value c; o] (c_prop c) M_check_equal = Ok (VBool r) /\ (r = true <-> agrees (c_prop c) (c_value c) o)) \/
  (~ comparable (c_prop c) (c_value c) o /\ exists e, prop_call [c_value c; o] (c_prop c) M_check_equal = Err e).
Proof.
  rewrite check_equal_prop. pose proof (is_tiles_iff (c_prop c)) as D. destruct (tiles_b (c_prop c)).
  - assert (IT : is_tiles (c_prop c)) by (apply D; reflexivity).
    destruct (tiles_equal (c_value c) o) as [r|e] eqn:E; cbn [bindr].
    + left. destruct (tiles_equal_err _ _ (ex_intro _ r E)) as [[l A] [m B]]. split; [intros _; split; eauto|].
      exists r. split; [reflexivity|]. destruct (tiles_equal_spec _ _ _ _ A B) as [r' [E' Q]].
      rewrite E in E'. injection E' as <-. rewrite Q. unfold agrees. split.
      * intro S0. split; [intros _; exists l, m; auto|]. intro N. contradiction.
      * intros [H _]. destruct (H IT) as [l' [m' [A' [B' S0]]]].
        rewrite (countable_det _ _ _ A A'), (countable_det _ _ _ B B'). exact S0.
    + right. split; [|eauto]. intro C. destruct (C IT) as [[l A] [m B]].
      destruct (tiles_equal_spec _ _ _ _ A B) as [r' [E' _]]. congruence.
  - assert (IT : ~ is_tiles (c_prop c)) by (rewrite D; discriminate). left. split; [intro H; contradiction|].
    eexists. split; [reflexivity|]. unfold agrees. split; [intro E; split; [intro; contradiction|auto]|]. intros [_ H]. auto.
Qed.

Definition accepts (strict : bool) (cs : list command) (c : command) : Prop := can_do cs c /\ (strict = true -> ~ contradicts cs c).

Lemma update_ok strict h root T cs c : running h root T -> reflects T cs -> accepts strict cs c ->
  at_path key_eqb T time_path = None ->
  exists h' r T', runs (fun fuel => execute_update_state strict fuel h c root) (h', r) /\ running h' r T' /\
    reflects T' (cs ++ [c]) /\ at_path key_eqb T' time_path = None /\ (forall y s, reads h y s -> reads h' y s).
Proof.
  intros Run Rf [[p [old [w [A [H [E Cmp]]]]]] Ns] Tm.
  destruct (state_value_ok h root T c p Run A) as [a [ks [SV [W [AT Ra]]]]].
  assert (Rp : real_place p) by exact (addressed_real c p A).
  assert (En : entry key_eqb ks (KView (snd p)) = option_map TLeaf old).
  { pose proof (Rf p old Rp H) as X. rewrite path_base, at_path_app, AT in X. cbn in X.
    destruct (entry key_eqb ks (KView (snd p))) as [t|]; exact X. }
  assert (Pv : snd p = c_prop c) by apply A. rewrite Pv in En.
  pose proof (reads_get h a ks (KView (c_prop c)) Ra) as G. rewrite En in G.
  assert (G' : eget h a (KView (c_prop c)) = Ok (option_map Leaf old)) by (destruct old; exact G). clear G.
  destruct (base_set h root T (base_of p) a (KView (c_prop c)) w Run (place_base p Rp) ltac:(right; exists p; split; [exact Rp|rewrite <- Pv; symmetry; apply path_base]) W) as [h' [r [T' [Ru [Run' [AT' [Else Mono]]]]]]].
  exists h', r, T'. split; [|split; [exact Run'|split; [|split; [|exact Mono]]]].
  - destruct Ru as [N Ru]. exists N. intros fuel Hf. unfold execute_update_state. rewrite SV. cbn [bindr]. rewrite G'. cbn [bindr].
    assert (X : (match option_map Leaf old with Some (Leaf v) => Ok v | Some (Ref _) => Err TypeError | None => Ok VNone end) = Ok (or_none old)) by (destruct old; reflexivity).
    rewrite X. cbn [bindr]. rewrite (proj2 (effect_iff c old w) E). cbn [bindr].
    assert (Y : (match c_update c, option_map Leaf old with
           | U_ASSERT_EQUAL_OR_SET, Some _ =>
             do is_equal <- prop_call [w; or_none old] (c_prop c) M_check_equal;
             match is_equal with
             | VBool false => if strict then Err AssertionError else Ok tt
             | _ => Ok tt
             end
           | _, _ => Ok tt
           end) = Ok tt).
    { destruct (c_update c) eqn:U; try reflexivity. destruct old as [o|]; [|reflexivity]. cbn [option_map or_none].
      assert (w = c_value c) by (unfold effect in E; rewrite U in E; exact E). subst w.
      destruct (check_spec c o) as [[C [q [P Q]]]|[N0 _]]; [|exfalso; apply N0; apply Cmp; auto].
      rewrite P. cbn [bindr]. destruct q; [reflexivity|]. destruct strict; [|reflexivity].
      exfalso. apply (Ns eq_refl). split; [exact U|]. exists p, o. split; [exact A|]. split; [exact H|].
      intro Ag. apply Q in Ag. discriminate. }
    rewrite Y. cbn [bindr]. apply Ru. exact Hf.
  - intros q v Rq Hq.
    assert (D : path_of q = path_of p \/ path_of q <> path_of p).
    { destruct (list_eq_dec (fun x y : key => ltac:(destruct (key_eqb x y) eqn:Q; [left; apply key_eqb_iff; exact Q|right; intro HH; apply key_eqb_iff in HH; congruence]) : {x = y} + {x <> y}) (path_of q) (path_of p)); auto. }
    assert (PQ : path_of q = path_of p -> q = p).
    { clear -Rq Rp. unfold path_of, real_place in *. destruct q as [[i|] v], p as [[j|] v']; cbn in *; intro X; injection X; intros; subst; try reflexivity; try discriminate; congruence. }
    inversion Hq as [|cs' c' ? ? N H' Q|cs' c' ? v0 w' A' H' E' Q]; try (destruct cs; discriminate).
    + apply app_inj_tail in Q. destruct Q; subst cs' c'.
      rewrite Else; [exact (Rf q v Rq H')|].
      assert (NE : path_of q <> path_of p) by (intro X; apply PQ in X; rewrite X in N; exact (N A)).
      rewrite <- Pv, <- path_base. clear -NE. unfold path_of in *. destruct (fst q), (fst p); apply elsewhere3; exact NE.
    + apply app_inj_tail in Q. destruct Q; subst cs' c'. 
      assert (Eqp : q = p) by exact (addressed_det c q p A' A). rewrite Eqp in H'.
      rewrite Eqp, path_base, Pv, AT'. cbn. rewrite (holds_det _ _ _ _ H' H) in E'. rewrite (effect_det _ _ _ _ E E'). reflexivity.
  - rewrite Else; [exact Tm|]. rewrite <- Pv, <- path_base. unfold time_path, path_of. destruct (fst p); apply elsewhere3; discriminate.
Qed.

Lemma update_err strict h root T cs c : running h root T -> reflects T cs -> defined cs -> ~ accepts strict cs c ->
  exists e, (forall fuel, execute_update_state strict fuel h c root = Err e) /\
   (can_do cs c -> e = AssertionError).
Proof.
  intros Run Rf Df Na. unfold execute_update_state.
  assert (D : (exists p, addressed c p) \/ forall p, ~ addressed c p).
  { destruct (scope_of (c_prop c)) eqn:S0.
    - left. exists (None, c_prop c). split; [reflexivity|]. rewrite S0. reflexivity.
    - destruct (c_sub c) as [t|i] eqn:Sc; [right; intros p [_ X]; rewrite S0 in X; destruct X as [j [_ [X _]]]; congruence|].
      destruct (Z_le_dec 0 i), (Z_le_dec i 3); [left; exists (Some i, c_prop c); split; [reflexivity|]; rewrite S0; exists i; auto| | |];
        right; intros p [_ X]; rewrite S0 in X; destruct X as [j [X [Y _]]]; rewrite Sc in Y; injection Y as ->; lia.
    - left. exists (None, c_prop c). split; [reflexivity|]. rewrite S0. reflexivity. }
  destruct D as [[p A]|N].
  2: { destruct (state_value_err h root T c Run N) as [e X]. exists e. rewrite X. cbn [bindr]. split; [reflexivity|].
       intros [p [_ [_ [A _]]]]. exfalso. exact (N p A). }
  destruct (state_value_ok h root T c p Run A) as [a [ks [SV [W [AT Ra]]]]].
  assert (Rp : real_place p) by exact (addressed_real c p A). destruct (Df p) as [old H].
  assert (En : entry key_eqb ks (KView (snd p)) = option_map TLeaf old).
  { pose proof (Rf p old Rp H) as X. rewrite path_base, at_path_app, AT in X. cbn in X.
    destruct (entry key_eqb ks (KView (snd p))) as [t|]; exact X. }
  assert (Pv : snd p = c_prop c) by apply A. rewrite Pv in En.
  pose proof (reads_get h a ks (KView (c_prop c)) Ra) as G. rewrite En in G.
  assert (G' : eget h a (KView (c_prop c)) = Ok (option_map Leaf old)) by (destruct old; exact G). clear G.
  rewrite SV. cbn [bindr]. rewrite G'. cbn [bindr].
  assert (X : (match option_map Leaf old with Some (Leaf v) => Ok v | Some (Ref _) => Err TypeError | None => Ok VNone end) = Ok (or_none old)) by (destruct old; reflexivity).
  rewrite X. cbn [bindr].
  destruct (execute_new_value c (or_none old)) as [w|e] eqn:E; cbn [bindr].
  2: { exists e. split; [reflexivity|]. intros [p' [old' [w [A' [H' [E' _]]]]]]. exfalso.
       assert (p' = p) by exact (addressed_det _ _ _ A' A). subst p'. rewrite (holds_det _ _ _ _ H' H) in E'. apply effect_iff in E'. congruence. }
  pose proof E as E0. apply effect_iff in E.
  destruct (c_update c) eqn:U.
  1-5: exfalso; apply Na; split; [exists p, old, w; split; [exact A|]; split; [exact H|]; split; [exact E|]; congruence|intros _ [Q _]; congruence].
  destruct old as [o|]; cbn [option_map or_none].
  2: { exfalso. apply Na. split; [exists p, None, w; split; [exact A|]; split; [exact H|]; split; [exact E|]; intros _ o Q; discriminate|].
       intros _ [_ [p' [o [A' [H' _]]]]]. assert (p' = p) by exact (addressed_det _ _ _ A' A). subst p'. discriminate (holds_det _ _ _ _ H' H). }
  assert (w = c_value c) by (unfold effect in E; rewrite U in E; exact E). subst w.
  destruct (check_spec c o) as [[C [q [P Q]]]|[N0 [e P]]]; rewrite P; cbn [bindr].
  - assert (CD : can_do cs c).
    { exists p, (Some o), (c_value c). split; [exact A|]. split; [exact H|]. split; [exact E|]. intros _ o' Eo. injection Eo as <-. exact C. }
    assert (SX : strict = true /\ q = false).
    { destruct strict, q; auto; exfalso; apply Na; (split; [exact CD|]).
      - intros _ [_ [p' [o' [A' [H' Ng]]]]]. assert (p' = p) by exact (addressed_det _ _ _ A' A). subst p'.
        pose proof (holds_det _ _ _ _ H' H) as Q'. injection Q' as ->. apply Ng. apply Q. reflexivity.
      - intro Q0; discriminate Q0.
      - intro Q0; discriminate Q0. }
    destruct SX as [-> ->]. exists AssertionError. split; [reflexivity|]. auto.
  - exists e. split; [reflexivity|]. intros [p' [old' [w [A' [H' [E' Cm]]]]]]. exfalso.
    assert (p' = p) by exact (addressed_det _ _ _ A' A). subst p'. pose proof (holds_det _ _ _ _ H' H) as Q'. subst old'.
    apply N0. apply Cm; auto.
Qed.

(** * Whole runs *)
Lemma defined_step cs c : defined cs -> can_do cs c -> defined (cs ++ [c]).
Proof.
  intros D [p [old [w [A [H [E _]]]]]] q. destruct (addressed_dec c q) as [Aq|N].
  - assert (q = p) by exact (addressed_det _ _ _ Aq A). subst q. exists (Some w). eapply ha_here; eauto.
  - destruct (D q) as [v X]. exists v. apply ha_other; assumption.
Qed.
Lemma defined_nil : defined []. Proof. intro p. exists None. constructor. Qed.

(** The longest accepted part of [cmds] after [cs]: its length, and whether it is all. *)
Inductive progress (strict : bool) : list command -> list command -> nat -> option exn -> Prop :=
| pr_done cs : progress strict cs [] 0 None
| pr_stop cs c r e : ~ accepts strict cs c -> (can_do cs c -> e = AssertionError) -> progress strict cs (c :: r) 0 (Some e)
| pr_step cs c r n e : accepts strict cs c -> progress strict (cs ++ [c]) r n e -> progress strict cs (c :: r) (S n) e.

Lemma child_time h root T : running h root T -> exists g t, child h root k_global = Ok g /\ child h g k_time = Ok t /\ walk key_eqb h root [k_global; k_time] = Some t.
Proof.
  intro R. destruct (base_object h root T k_global k_time R time_base) as [g [t [ks [A [B [C _]]]]]]. eauto.
Qed.

Lemma accepts_dec strict cs c : defined cs -> accepts strict cs c \/ ~ accepts strict cs c.
Proof.
  intro Df.
  assert (D : (exists p, addressed c p) \/ forall p, ~ addressed c p).
  { destruct (scope_of (c_prop c)) eqn:S0.
    - left. exists (None, c_prop c). split; [reflexivity|]. rewrite S0. reflexivity.
    - destruct (c_sub c) as [t|i] eqn:Sc; [right; intros p [_ X]; rewrite S0 in X; destruct X as [j [_ [X _]]]; congruence|].
      destruct (Z_le_dec 0 i), (Z_le_dec i 3); [left; exists (Some i, c_prop c); split; [reflexivity|]; rewrite S0; exists i; auto| | |];
        right; intros p [_ X]; rewrite S0 in X; destruct X as [j [X [Y _]]]; rewrite Sc in Y; injection Y as ->; lia.
    - left. exists (None, c_prop c). split; [reflexivity|]. rewrite S0. reflexivity. }
  destruct D as [[p A]|N]; [|right; intros [[p [_ [_ [A _]]]] _]; exact (N p A)].
  destruct (Df p) as [old H].
  assert (U : forall p' o', addressed c p' -> holds_after cs p' o' -> p' = p /\ o' = old).
  { intros p' o' A' H'. assert (p' = p) by exact (addressed_det _ _ _ A' A). subst p'. split; [reflexivity|]. exact (holds_det _ _ _ _ H' H). }
  destruct (execute_new_value c (or_none old)) as [w|e] eqn:E.
  2: { right. intros [[p' [old' [w [A' [H' [E' _]]]]]] _]. destruct (U _ _ A' H') as [-> ->]. apply effect_iff in E'. congruence. }
  apply effect_iff in E.
  assert (DU : c_update c = U_ASSERT_EQUAL_OR_SET \/ c_update c <> U_ASSERT_EQUAL_OR_SET) by (destruct (c_update c); auto; right; discriminate).
  destruct DU as [DU|DU].
  2: { left. split; [exists p, old, w; split; [exact A|]; split; [exact H|]; split; [exact E|]; intro X; contradiction|intros _ [X _]; contradiction]. }
  destruct old as [o|].
  2: { left. split; [exists p, None, w; split; [exact A|]; split; [exact H|]; split; [exact E|]; intros _ o X; discriminate|].
       intros _ [_ [p' [o [A' [H' _]]]]]. destruct (U _ _ A' H') as [_ X]. discriminate. }
  destruct (check_spec c o) as [[C [q [P Q]]]|[N0 _]].
  2: { right. intros [[p' [old' [w' [A' [H' [E' Cm]]]]]] _]. destruct (U _ _ A' H') as [-> ->]. apply N0. apply Cm; auto. }
  assert (CD : can_do cs c).
  { exists p, (Some o), w. split; [exact A|]. split; [exact H|]. split; [exact E|]. intros _ o' Eo. injection Eo as <-. exact C. }
  destruct strict; [|left; split; [exact CD|intro X; discriminate X]].
  destruct q.
  - left. split; [exact CD|]. intros _ [_ [p' [o' [A' [H' Ng]]]]]. destruct (U _ _ A' H') as [-> X]. injection X as ->. apply Ng. apply Q. reflexivity.
  - right. intros [_ X]. apply (X eq_refl). split; [exact DU|]. exists p, o. split; [exact A|]. split; [exact H|]. intro Ag. apply Q in Ag. discriminate.
Qed.

Lemma run_spec strict : forall cmds h root T cs,
  running h root T -> reflects T cs -> defined cs -> at_path key_eqb T time_path = None ->
  exists snaps h' err, (exists N, forall fuel, (N <= fuel)%nat -> execute_from strict fuel h root cmds = (snaps, h', err)) /\
    progress strict cs cmds (length snaps) err /\
    (forall y s, reads h y s -> reads h' y s) /\
    (forall n snap, nth_error snaps n = Some snap -> exists T' c,
       nth_error cmds n = Some c /\ reads h' snap T' /\ shows_state T' (cs ++ firstn (S n) cmds) (c_time c)).
Proof.
  induction cmds as [|c r IH]; intros h root T cs Run Rf Df Tm.
  - exists [], h, None. split; [exists 0%nat; reflexivity|]. split; [constructor|]. split; [auto|]. intros [|n] snap H; discriminate.
  - destruct (accepts_dec strict cs c Df) as [Ac|Na].
    + destruct (update_ok strict h root T cs c Run Rf Ac Tm) as [h1 [r1 [T1 [[N1 Ru1] [Run1 [Rf1 [Tm1 Mono1]]]]]]].
      destruct (child_time h1 r1 T1 Run1) as [g [t [C1 [C2 W]]]].
      destruct (base_set h1 r1 T1 [k_global; k_time] t k_timestamp (time_val (c_time c)) Run1 time_base (or_introl eq_refl) W) as [h2 [sn [T2 [[N2 Ru2] [Run2 [AT2 [Else2 Mono2]]]]]]].
      assert (Run1' : running h2 r1 T1).
      { destruct Run1 as [[roots [S0 I0]] R Sh On]. constructor; [|apply Mono2; exact R|exact Sh|exact On].
        exists (sn :: roots). split; [|right; exact I0]. eapply s_set with (root := r1); eauto; [constructor|]. exists N2. exact Ru2. }
      destruct (IH h2 r1 T1 (cs ++ [c]) Run1' Rf1 (defined_step _ _ Df (proj1 Ac)) Tm1) as [snaps [h3 [err [[N3 Ru3] [Pr [Mono3 Sn]]]]]].
      exists (sn :: snaps), h3, err. split.
      { exists (Nat.max N1 (Nat.max N2 N3)). intros fuel Hf. cbn [execute_from].
        rewrite Ru1 by lia. cbn [bindr fst snd]. rewrite C1. cbn [bindr]. rewrite C2. cbn [bindr]. rewrite Ru2 by lia. cbn [bindr].
        rewrite Ru3 by lia. reflexivity. }
      split; [constructor; assumption|]. split; [auto|].
      intros [|n] snap H; cbn in H.
      * injection H as <-. exists T2, c. split; [reflexivity|]. split; [apply Mono3; apply Run2|].
        cbn [firstn]. split; [|split; [exact AT2|exact (run_only _ _ _ Run2)]]. intros p v Rp Hp. rewrite Else2; [exact (Rf1 p v Rp Hp)|].
        unfold path_of. cbn. destruct (fst p); apply elsewhere3; discriminate.
      * destruct (Sn n snap H) as [T' [c' [A [B C]]]]. exists T', c'. split; [exact A|]. split; [exact B|].
        cbn [firstn]. rewrite <- app_assoc in C. exact C.
    + destruct (update_err strict h root T cs c Run Rf Df Na) as [e [E AE]].
      exists [], h, (Some e). split.
      { exists 0%nat. intros fuel _. cbn [execute_from]. rewrite E. reflexivity. }
      split; [constructor; assumption|]. split; [auto|]. intros [|n] snap H; discriminate.
Qed.

(** The initial states. *)
Definition initial_tree : tree key val :=
  TNode [(k_global, TNode [(k_time, TNode [])]);
         (KScope SGame, TNode [(k_single, TNode [])]);
         (KScope SPlayer, TNode [(KPid 0, TNode []); (KPid 1, TNode []); (KPid 2, TNode []); (KPid 3, TNode [])]);
         (KScope SRecord, TNode [(k_single, TNode [])])].
Lemma start_spec : exists h root, (exists N, forall fuel, (N <= fuel)%nat -> enew fuel (mkHeap [] 0) None initial_states = Ok (h, root)) /\
  running h root initial_tree.
Proof.
  assert (St : stands_for key_eqb (mkHeap [] 0) [] (PDict initial_states) initial_tree).
  { unfold initial_states, initial_tree. repeat (constructor; cbn [fst snd]). }
  assert (Fr : fresh (@mkHeap key val [] 0)) by (intros a _; reflexivity).
  pose proof (stands_read key_eqb key_eqb_iff (mkHeap [] 0) [] (PDict initial_states) initial_tree Fr ltac:(intros r []) St) as P.
  apply pyreads_dict in P. destruct P as [kids [E P]]. 
  destruct (new_td_spec (depth (TNode kids)) (mkHeap [] 0) None initial_states kids Fr P (le_n _)) as [h [En [G1 G2]]].
  assert (Ru : runs (fun fuel => new_td fuel (mkHeap [] 0) None initial_states) (h, 0%nat)).
  { exists (depth (TNode kids)). intros fuel Hf. exact (new_td_more _ _ _ _ _ En fuel Hf). }
  exists h, 0%nat. split; [exact Ru|]. constructor.
  - exists [0%nat]. split; [|left; reflexivity]. eapply s_make; eauto. constructor.
  - rewrite E. exact (good_reads _ _ _ _ G2).
  - intros b [->|[p [Rp ->]]]; [eexists; reflexivity|].
    unfold base_of, real_place in *. destruct p as [[i|] v]; cbn [fst snd] in *.
    + destruct (scope_of v); try discriminate. destruct Rp as [j [L Q]]. injection Q as <-.
      assert (Ci : i = 0 \/ i = 1 \/ i = 2 \/ i = 3) by lia. destruct Ci as [->|[->|[->| ->]]]; eexists; reflexivity.
    + destruct (scope_of v); [eexists; reflexivity|destruct Rp as [j [_ Q]]; discriminate|eexists; reflexivity].
  - intros q v Q. exfalso. unfold initial_tree in Q. destruct q as [|k1 q]; cbn [at_path entry] in Q; [discriminate|].
    repeat match type of Q with context [if ?b then _ else _] => destruct b end;
      (destruct q as [|k2 q]; cbn [at_path entry] in Q; [discriminate|]);
      repeat match type of Q with context [if ?b then _ else _] => destruct b end;
      try discriminate Q; (destruct q as [|k3 q]; cbn [at_path entry] in Q; discriminate).
Qed.
Lemma initial_reflects : reflects initial_tree [].
Proof.
  intros p v Rp H. assert (v = None) by (inversion H; [reflexivity|destruct cs; discriminate|destruct cs; discriminate]). subst v.
  unfold path_of, real_place in *. destruct p as [[i|] w]; cbn [fst snd] in *.
  - destruct (scope_of w); try discriminate. destruct Rp as [j [L Q]]. injection Q as <-.
    assert (Ci : i = 0 \/ i = 1 \/ i = 2 \/ i = 3) by lia. destruct Ci as [->|[->|[->| ->]]]; reflexivity.
  - destruct (scope_of w); [reflexivity|destruct Rp as [j [_ Q]]; discriminate|reflexivity].
Qed.

Lemma execute_spec strict cmds :
  exists snaps h err, (exists N, forall fuel, (N <= fuel)%nat -> execute strict fuel cmds = (snaps, h, err)) /\
    progress strict [] cmds (length snaps) err /\
    (forall n snap, nth_error snaps n = Some snap -> exists T' c,
       nth_error cmds n = Some c /\ reads h snap T' /\ shows_state T' (firstn (S n) cmds) (c_time c)).
Proof.
  destruct start_spec as [h0 [root [[N0 E0] Run]]].
  destruct (run_spec strict cmds h0 root initial_tree [] Run initial_reflects defined_nil eq_refl) as [snaps [h [err [[N1 E1] [Pr [_ Sn]]]]]].
  exists snaps, h, err. split; [|split; [exact Pr|exact Sn]].
  exists (Nat.max N0 N1). intros fuel Hf. unfold execute. rewrite E0 by lia. apply E1. lia.
Qed.
