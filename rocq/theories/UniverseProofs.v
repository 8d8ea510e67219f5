From Verif Require Import Base Parse Text Value Universe Transfer Spec_Transfer TransferProofs Spec_Universe StateProofs.
From Coq Require Import String List ZArith Lia Bool Permutation.
Import ListNotations.
Open Scope list_scope.
Open Scope Z_scope.

(** * Equality of values *)
Lemma p10_pos k : 0 < p10 k. Proof. unfold p10. apply Z.pow_pos_nonneg; lia. Qed.
Lemma num_eqb_iff a b : num_eqb a b = true <-> num_m a * p10 (num_k b) = num_m b * p10 (num_k a).
Proof. unfold num_eqb. apply Z.eqb_eq. Qed.
Lemma num_eqb_refl a : num_eqb a a = true. Proof. apply num_eqb_iff. reflexivity. Qed.
Lemma num_eqb_sym a b : num_eqb a b = num_eqb b a.
Proof. unfold num_eqb. apply Z.eqb_sym. Qed.
Lemma num_eqb_trans a b c : num_eqb a b = true -> num_eqb b c = true -> num_eqb a c = true.
Proof.
  rewrite !num_eqb_iff. intros H1 H2. pose proof (p10_pos (num_k b)). 
  apply (Z.mul_reg_r _ _ (p10 (num_k b))); [lia|].
  transitivity (num_m a * p10 (num_k b) * p10 (num_k c)); [ring|]. rewrite H1.
  transitivity (num_m b * p10 (num_k c) * p10 (num_k a)); [ring|]. rewrite H2. ring.
Qed.

Fixpoint val_ind' (P : val -> Prop) (HN : P VNone) (HB : forall b, P (VBool b)) (Hn : forall n, P (VNum n))
  (HS : forall s, P (VStr s)) (HL : forall l, Forall P l -> P (VList l)) (v : val) : P v :=
  match v with
  | VNone => HN | VBool b => HB b | VNum n => Hn n | VStr s => HS s
  | VList l => HL l ((fix go l : Forall P l := match l with [] => Forall_nil _ | x :: r => Forall_cons x (val_ind' P HN HB Hn HS HL x) (go r) end) l)
  end.
Lemma val_eqb_list l m : val_eqb (VList l) (VList m) = true <-> Forall2 (fun a b => val_eqb a b = true) l m.
Proof.
  cbn. split.
  - revert m. induction l as [|x l IH]; intros [|y m] H; try discriminate; constructor.
    + apply andb_true_iff in H. apply H.
    + apply IH. apply andb_true_iff in H. apply H.
  - induction 1; [reflexivity|]. apply andb_true_iff. split; assumption.
Qed.
Lemma val_eqb_refl v : val_eqb v v = true.
Proof.
  induction v as [| | | |l IH] using val_ind'; cbn; auto using num_eqb_refl, text_eqb_refl.
  apply (proj2 (val_eqb_list l l)). induction IH; constructor; auto.
Qed.
Lemma val_eqb_sym a b : val_eqb a b = val_eqb b a.
Proof.
  revert b. induction a as [| | | |l IH] using val_ind'; intros b'; destruct b'; try reflexivity; try (cbn; apply num_eqb_sym).
  - cbn. destruct (text_eqb s s0) eqn:E, (text_eqb s0 s) eqn:E'; auto; apply text_eqb_iff in E || apply text_eqb_iff in E'; subst; rewrite text_eqb_refl in *; discriminate.
  - cbn. revert l0. induction IH as [|x l H F IHF]; intros [|y m]; try reflexivity. rewrite H. f_equal. apply IHF.
Qed.
Lemma val_eqb_num a b n : as_num a = Some n -> val_eqb a b = match as_num b with Some m => num_eqb n m | None => false end.
Proof.
  intro H. destruct a; cbn in H; try discriminate; injection H as <-; [|reflexivity].
  destruct b; reflexivity.
Qed.
Lemma val_eqb_trans a b c : val_eqb a b = true -> val_eqb b c = true -> val_eqb a c = true.
Proof.
  revert b c. induction a as [| | | |l IH] using val_ind'; intros b' c' H1 H2.
  - destruct b'; try discriminate. destruct c'; try discriminate. reflexivity.
  - rewrite (val_eqb_num (VBool b) b' _ eq_refl) in H1. destruct (as_num b') as [m|] eqn:E; [|discriminate].
    rewrite (val_eqb_num _ _ _ E) in H2. rewrite (val_eqb_num (VBool b) c' _ eq_refl).
    destruct (as_num c'); [|discriminate]. exact (num_eqb_trans _ _ _ H1 H2).
  - rewrite (val_eqb_num (VNum n) b' _ eq_refl) in H1. destruct (as_num b') as [m|] eqn:E; [|discriminate].
    rewrite (val_eqb_num _ _ _ E) in H2. rewrite (val_eqb_num (VNum n) c' _ eq_refl).
    destruct (as_num c'); [|discriminate]. exact (num_eqb_trans _ _ _ H1 H2).
  - destruct b'; try discriminate. destruct c'; try discriminate. cbn in *. apply text_eqb_iff in H1, H2. subst. apply text_eqb_refl.
  - destruct b' as [| | | |m]; try discriminate. destruct c' as [| | | |k]; try discriminate.
    apply val_eqb_list in H1, H2. apply val_eqb_list. clear -IH H1 H2. revert k m H1 H2.
    induction IH as [|x l Hx F IHF]; intros k m H1 H2; inversion H1; subst; inversion H2; subst; constructor; eauto.
Qed.

(** * Counting *)
Lemma count_app x a b : count_in x (a ++ b) = (count_in x a + count_in x b)%nat.
Proof. unfold count_in. rewrite filter_app, app_length. reflexivity. Qed.
Lemma count_cons x y l : count_in x (y :: l) = ((if val_eqb x y then 1 else 0) + count_in x l)%nat.
Proof. unfold count_in. cbn. destruct (val_eqb x y); reflexivity. Qed.
Lemma count_pos x l : (1 <= count_in x l)%nat -> exists a y b, l = a ++ y :: b /\ val_eqb x y = true.
Proof.
  induction l as [|y l IH]; [cbn; lia|]. rewrite count_cons. destruct (val_eqb x y) eqn:E.
  - intros _. exists [], y, l. auto.
  - intro H. destruct IH as [a [z [b [-> Z]]]]; [lia|]. exists (y :: a), z, b. auto.
Qed.
Lemma val_eqb_class x y : val_eqb x y = true -> forall z, val_eqb z x = val_eqb z y.
Proof.
  intros H z. destruct (val_eqb z x) eqn:A, (val_eqb z y) eqn:B; auto.
  - rewrite (val_eqb_trans _ _ _ A H) in B. discriminate.
  - rewrite val_eqb_sym in H. rewrite (val_eqb_trans _ _ _ B H) in A. discriminate.
Qed.
Lemma same_counts : forall a b, length a = length b -> (forall x, In x a -> count_in x a = count_in x b) -> same_things a b.
Proof.
  induction a as [|x a IH]; intros b L C.
  - destruct b; [|discriminate]. exists []. split; constructor.
  - destruct (count_pos x b) as [b1 [y [b2 [-> E]]]].
    + rewrite <- (C x (or_introl eq_refl)), count_cons, val_eqb_refl. lia.
    + destruct (IH (b1 ++ b2)) as [m [P F]].
      * rewrite app_length in *. cbn in L. lia.
      * intros z I. specialize (C z (or_intror I)). rewrite count_cons, !count_app, count_cons in C.
        rewrite <- (val_eqb_class _ _ E z) in C. rewrite count_app. lia.
      * exists (y :: m). split; [|constructor; assumption].
        apply Permutation_sym. apply Permutation_cons_app. apply Permutation_sym. exact P.
Qed.
Lemma count_same x l m : same_things l m -> count_in x l = count_in x m.
Proof.
  intros [m' [P F]].
  transitivity (count_in x m').
  - clear P. induction F as [|a b l m' E F IH].
    + reflexivity.
    + rewrite !count_cons, (val_eqb_class _ _ E x), IH. reflexivity.
  - clear F. induction P; rewrite ?count_cons in *; lia.
Qed.

Lemma same_length l m : same_things l m -> length l = length m.
Proof. intros [m' [P F]]. rewrite (Permutation_length P). clear P. induction F; cbn; congruence. Qed.

Lemma iter_val_iff v l : iter_val v = Ok l <-> consists_of v l.
Proof.
  split.
  - destruct v; try discriminate; intro H; injection H as <-; constructor.
  - intros []; reflexivity.
Qed.
Definition no_list (x : val) : bool := match x with VList _ => false | _ => true end.
Lemma no_list_iff l : forallb no_list l = true <-> Forall (fun x => forall k, x <> VList k) l.
Proof.
  rewrite forallb_forall, Forall_forall. split; intros H x I; specialize (H x I).
  - intros k ->. discriminate.
  - destruct x; try reflexivity. exfalso. eapply H. reflexivity.
Qed.
Lemma counted_iff v l : counted v = Ok l <-> countable v l.
Proof.
  unfold counted, countable. fold no_list. split.
  - destruct v; try discriminate; intro H.
    + injection H as <-. auto.
    + cbn [iter_val bindr] in H. right. split.
      * destruct (forallb _ _) in H; [|discriminate]. injection H as <-. constructor.
      * destruct (forallb _ _) eqn:E in H; [|discriminate]. injection H as <-. apply no_list_iff. exact E.
    + cbn [iter_val bindr] in H. right. destruct (forallb _ _) eqn:E in H; [|discriminate]. injection H as <-.
      split; [constructor|]. apply no_list_iff. exact E.
  - intros [[-> ->]|[C N]]; [reflexivity|]. apply no_list_iff in N. destruct C as [l|s]; cbn [iter_val bindr].
    + change (forallb (fun x => match x with VList _ => false | _ => true end) l) with (forallb no_list l). rewrite N. reflexivity.
    + change (forallb (fun x => match x with VList _ => false | _ => true end) (map (fun c => VStr [c]) s)) with (forallb no_list (map (fun c => VStr [c]) s)). rewrite N. reflexivity.
Qed.
Lemma countable_det v l m : countable v l -> countable v m -> l = m.
Proof. rewrite <- !counted_iff. congruence. Qed.
Lemma tiles_equal_spec a b l m : countable a l -> countable b m ->
  exists r, tiles_equal a b = Ok r /\ (r = true <-> same_things l m).
Proof.
  intros A B. unfold tiles_equal. rewrite (proj2 (counted_iff a l) A), (proj2 (counted_iff b m) B). cbn [bindr].
  eexists. split; [reflexivity|]. rewrite andb_true_iff, Nat.eqb_eq, forallb_forall. split.
  - intros [L C]. apply same_counts; [exact L|]. intros x I. apply Nat.eqb_eq. apply C. exact I.
  - intro S0. split; [apply same_length; exact S0|]. intros x _. apply Nat.eqb_eq. apply count_same. exact S0.
Qed.
Lemma tiles_equal_err a b : (exists r, tiles_equal a b = Ok r) -> (exists l, countable a l) /\ (exists m, countable b m).
Proof.
  intros [r H]. unfold tiles_equal in H. destruct (counted a) as [l|] eqn:A; cbn [bindr] in H; [|discriminate].
  destruct (counted b) as [m|] eqn:B; cbn [bindr] in H; [|discriminate]. split; eexists; apply counted_iff; eassumption.
Qed.

(** * Kinds of properties *)
Definition tiles_b (v : view) : bool := existsb (view_eqb v) [GV_dora_indicators; PV_hand; PV_discard_tiles; PV_meld_public_tiles; PV_bonus_tiles].
Lemma view_eqb_iff a b : view_eqb a b = true <-> a = b.
Proof. unfold view_eqb. destruct (view_eq_dec a b); split; congruence. Qed.
Lemma is_tiles_iff v : is_tiles v <-> tiles_b v = true.
Proof.
  unfold is_tiles, tiles_b. rewrite existsb_exists. split.
  - intro I0. exists v. split; [exact I0|]. apply view_eqb_iff. reflexivity.
  - intros [x [I0 E]]. apply view_eqb_iff in E. subst. exact I0.
Qed.
Lemma check_equal_prop v a b : prop_call [a; b] v M_check_equal =
  if tiles_b v then do r <- tiles_equal a b; Ok (VBool r) else Ok (VBool (val_eqb a b)).
Proof. destruct v; reflexivity. Qed.

Lemma remove_first_spec l x r : list_remove l x = Ok r <->
  exists a y b, l = a ++ y :: b /\ Forall (fun z => val_eqb z x = false) a /\ val_eqb y x = true /\ r = a ++ b.
Proof.
  revert r. induction l as [|z l IH]; intro r; cbn.
  - split; [discriminate|]. intros [a [y [b [E _]]]]. destruct a; discriminate.
  - destruct (val_eqb z x) eqn:E.
    + split.
      * intro H. injection H as <-. exists [], z, l. auto.
      * intros [a [y [b [E1 [F [E2 ->]]]]]]. destruct a as [|z' a]; cbn in *; injection E1 as -> ->; [reflexivity|].
        inversion F; congruence.
    + destruct (list_remove l x) as [r'|] eqn:R; cbn [bindr].
      * split.
        -- intro H. injection H as <-. destruct (proj1 (IH r') eq_refl) as [a [y [b [-> [F [E2 ->]]]]]].
           exists (z :: a), y, b. repeat split; auto.
        -- intros [a [y [b [E1 [F [E2 ->]]]]]]. destruct a as [|z' a]; cbn in *; injection E1 as -> ->; [congruence|].
           inversion F; subst. assert (Q : @Ok (list val) r' = Ok (a ++ b)) by (apply IH; exists a, y, b; auto).
           injection Q as ->. reflexivity.
      * split; [discriminate|]. intros [a [y [b [E1 [F [E2 ->]]]]]]. destruct a as [|z' a]; cbn in *; injection E1 as -> ->; [congruence|].
        inversion F; subst. assert (Q : @Err (list val) e = Ok (a ++ b)) by (apply IH; exists a, y, b; auto). discriminate.
Qed.
Lemma remove_all_spec vs : forall l n, list_remove_all l vs = Ok n <-> without l vs n.
Proof.
  induction vs as [|x vs IH]; intros l n; cbn.
  - split; [intro H; injection H as <-; constructor|]. inversion 1; reflexivity.
  - destruct (list_remove l x) as [r|] eqn:R; cbn [bindr].
    + rewrite IH. apply remove_first_spec in R. destruct R as [a [y [b [-> [F [E ->]]]]]]. split.
      * intro W. constructor; assumption.
      * intro W. inversion W as [|a' y' b' x' r' n' F' E' W' Q]; subst.
        assert (X : a' ++ b' = a ++ b).
        { assert (R1 : list_remove (a ++ y :: b) x = Ok (a ++ b)) by (apply remove_first_spec; exists a, y, b; auto).
          assert (R2 : list_remove (a ++ y :: b) x = Ok (a' ++ b')) by (apply remove_first_spec; exists a', y', b'; auto).
          rewrite R1 in R2. injection R2 as ->. reflexivity. }
        rewrite X in W'. exact W'.
    + split; [discriminate|]. intro W. inversion W as [|a' y' b' x' r' n' F' E' W' Q]; subst.
      assert (R2 : list_remove (a' ++ y' :: b') x = Ok (a' ++ b')) by (apply remove_first_spec; exists a', y', b'; auto).
      congruence.
Qed.

(** * The effect of a command *)
Definition list_b (v : view) : bool := tiles_b v || existsb (view_eqb v) [RV_using_tiles; PV_fixed_meld; PV_discard_from_hand; PV_faans].
Definition counter_b (v : view) : bool := existsb (view_eqb v) [RV_player_count; RV_play_wind_count; GV_wind; GV_round; GV_sub_round; GV_dealer; PV_round].
Lemma in_view_b v (l : list view) : In v l <-> existsb (view_eqb v) l = true.
Proof.
  rewrite existsb_exists. split.
  - intro I0. exists v. split; [exact I0|]. apply view_eqb_iff. reflexivity.
  - intros [x [I0 E]]. apply view_eqb_iff in E. subst. exact I0.
Qed.
Lemma is_list_iff v : is_list v <-> list_b v = true.
Proof. unfold is_list, list_b. rewrite orb_true_iff, is_tiles_iff, in_view_b. reflexivity. Qed.
Lemma is_counter_iff v : is_counter v <-> counter_b v = true.
Proof. unfold is_counter, counter_b. apply in_view_b. Qed.
Lemma default_prop v : prop_call [] v M_default_value = if counter_b v then Ok (VInt 0) else if list_b v then Ok (VList []) else Err ValueError.
Proof. destruct v; reflexivity. Qed.
Lemma add_prop v a b : prop_call [a; b] v (M_update U_ADD) = add_general a b.
Proof. destruct v; reflexivity. Qed.
Lemma remove_prop v a b : prop_call [a; b] v (M_update U_REMOVE) = if list_b v then remove_all a b else remove_general a b.
Proof. destruct v; reflexivity. Qed.

Lemma effect_iff c old w : execute_new_value c (or_none old) = Ok w <-> effect c old w.
Proof.
  unfold execute_new_value, effect. destruct (c_update c).
  - split; [intro H; injection H; auto|intros ->; reflexivity].
  - split; [discriminate|intros []].
  - rewrite add_prop. split.
    + intro H. destruct old as [o|]; cbn [or_none] in H.
      * unfold add_general in H. destruct (as_num o) as [x|] eqn:A.
        -- right. right. exists o, x. destruct (as_num (c_value c)) as [y|] eqn:B.
           ++ exists y. split; [reflexivity|]. split; [exact A|]. split; [reflexivity|].
              destruct o, (c_value c); cbn in A, B; try discriminate; injection H as <-; reflexivity.
           ++ destruct o, (c_value c); cbn in A, B; discriminate.
        -- destruct o as [| | |s|l]; cbn in A; try discriminate; destruct (c_value c) as [| | |t|m] eqn:V; cbn in H; try discriminate; injection H as <-.
           ++ left. exists s, t. auto.
           ++ right. left. exists l, m. auto.
      * destruct (c_value c); discriminate.
    + intros [[s [t [-> [-> ->]]]]|[[l [m [-> [-> ->]]]]|[o [x [y [-> [A [B ->]]]]]]]]; cbn [or_none]; [reflexivity|reflexivity|].
      unfold add_general. destruct o, (c_value c); cbn in A, B; try discriminate; injection A as <-; injection B as <-; reflexivity.
  - rewrite remove_prop. assert (D := is_list_iff (c_prop c)). destruct (list_b (c_prop c)).
    + assert (L : is_list (c_prop c)) by (apply D; reflexivity). split.
      * intro H. left. split; [exact L|]. destruct old as [[| | | |l]|]; cbn in H; try discriminate.
        destruct (iter_val (c_value c)) as [vs|] eqn:I0; cbn [bindr] in H; [|discriminate].
        destruct (list_remove_all l vs) as [n|] eqn:R; cbn [bindr] in H; [|discriminate].
        injection H as <-. exists l, vs, n. split; [reflexivity|]. split; [apply iter_val_iff; exact I0|].
        split; [apply remove_all_spec; exact R|reflexivity].
      * intros [[_ [l [vs [n [-> [I0 [R ->]]]]]]]|[N _]]; [|contradiction]. cbn.
        apply iter_val_iff in I0. rewrite I0. cbn [bindr]. apply remove_all_spec in R. rewrite R. reflexivity.
    + assert (L : ~ is_list (c_prop c)) by (rewrite D; discriminate). split.
      * intro H. right. split; [exact L|]. unfold remove_general in H. destruct old as [o|]; cbn [or_none] in H; [|discriminate].
        destruct (as_num o) as [x|] eqn:A; [|discriminate]. destruct (as_num (c_value c)) as [y|] eqn:B; [|discriminate].
        injection H as <-. exists o, x, y. auto.
      * intros [[N _]|[_ [o [x [y [-> [A [B ->]]]]]]]]; [contradiction|]. cbn [or_none]. unfold remove_general. rewrite A, B. reflexivity.
  - rewrite default_prop. assert (D1 := is_counter_iff (c_prop c)). assert (D2 := is_list_iff (c_prop c)).
    assert (X : counter_b (c_prop c) = true -> list_b (c_prop c) = false) by (destruct (c_prop c); cbn; congruence).
    destruct (counter_b (c_prop c)), (list_b (c_prop c)).
    + discriminate X. reflexivity.
    + split; [intro H; injection H as <-; left; split; [apply D1|]; reflexivity|].
      intros [[_ ->]|[H _]]; [reflexivity|]. apply D2 in H. discriminate.
    + split; [intro H; injection H as <-; right; split; [apply D2|]; reflexivity|].
      intros [[H _]|[_ ->]]; [|reflexivity]. apply D1 in H. discriminate.
    + split; [discriminate|]. intros [[H _]|[H _]]; [apply D1 in H|apply D2 in H]; discriminate.
  - split; [intro H; injection H; auto|intros ->; reflexivity].
Qed.

(** * Places *)
Lemma addressed_det c p q : addressed c p -> addressed c q -> p = q.
Proof.
  intros [A B] [A' B']. destruct p as [o v], q as [o' v']. cbn in *. subst. 
  destruct (scope_of (c_prop c)); [congruence| |congruence].
  destruct B as [i [_ [E ->]]], B' as [j [_ [E' ->]]]. congruence.
Qed.
Lemma addressed_real c p : addressed c p -> real_place p.
Proof.
  unfold addressed, real_place. destruct p as [o v]. cbn. intros [-> B]. destruct (scope_of (c_prop c)); auto.
  destruct B as [i [A [B C]]]. eauto.
Qed.
Lemma addressed_dec c p : addressed c p \/ ~ addressed c p.
Proof.
  destruct p as [o v]. unfold addressed. cbn.
  destruct (view_eq_dec v (c_prop c)) as [->|N]; [|right; intros [E _]; contradiction].
  destruct (scope_of (c_prop c)).
  - destruct o; [right; intros [_ H]; discriminate|left; auto].
  - destruct (c_sub c) as [t|i]; [right; intros [_ [i [_ [E _]]]]; discriminate|].
    destruct o as [j|]; [|right; intros [_ [k [_ [_ E]]]]; discriminate].
    destruct (Z.eq_dec i j) as [<-|N]; [|right; intros [_ [k [_ [E1 E2]]]]; congruence].
    destruct (Z_le_dec 0 i), (Z_le_dec i 3); [left; split; [reflexivity|]; exists i; auto| | |]; right; intros [_ [k [A [E1 E2]]]]; injection E1 as ->; lia.
  - destruct o; [right; intros [_ H]; discriminate|left; auto].
Qed.
Lemma effect_det c old w w' : effect c old w -> effect c old w' -> w = w'.
Proof. rewrite <- !effect_iff. congruence. Qed.
Lemma holds_det cs p v w : holds_after cs p v -> holds_after cs p w -> v = w.
Proof.
  intro H. revert w. induction H as [|cs c p v N H IH|cs c p v w A H IH E]; intros w' H'; inversion H' as [|cs' c' ? ? N' H'' Q|cs' c' ? ? ? A' H'' E' Q]; subst;
    try (destruct cs; discriminate); try (destruct cs'; discriminate); auto; apply app_inj_tail in Q; destruct Q; subst.
  - apply IH; assumption.
  - contradiction.
  - contradiction.
  - f_equal. rewrite (IH _ H'') in E. exact (effect_det _ _ _ _ E E').
Qed.
