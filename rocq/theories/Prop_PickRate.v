(** C122: the "accurate" pick rates. *)
From Verif Require Import Base Tile TileSet Spec_Tile TileSetFacts Win Spec_Win WinFacts WinProofs WaitingFacts TileSetOps Spec_Hand WaitingTop
  Parse Prop_Tile Prop_Parse Prop_Win Distribution Prop_Distribution WinRate Spec_WinRate Text Prop_WinRate PickRate Spec_PickRate.
From Coq Require Import List ZArith QArith Qabs Qfield Lqa Lia Bool Permutation Sorted.
From Coq Require String.
Import String.StringSyntax ListNotations.
Open Scope string_scope.
Open Scope list_scope.
Open Scope Z_scope.

(** ** Matrices whose columns add up to at most 1. *)
Lemma applied_sum : forall m v i, (applied m v i == add_up (fun p => nth i (fst p) 0 * snd p) (combine m v))%Q.
Proof. induction m as [|c m IH]; intros [|x v] i; try reflexivity. cbn [applied combine add_up fst snd]. now rewrite IH. Qed.
Lemma abs_sum A (f : A -> Q) l : (Qabs (add_up f l) <= add_up (fun a => Qabs (f a)) l)%Q.
Proof. induction l as [|a l IH]; cbn [add_up]; [discriminate|]. pose proof (Qabs_triangle (f a) (add_up f l)). lra. Qed.
Lemma combine_second A (m : list A) (v : list Q) (f : Q -> Q) : length v = length m -> (add_up (fun p => f (snd p)) (combine m v) == add_up f v)%Q.
Proof. revert v. induction m as [|c m IH]; intros [|x v] L; try discriminate L; [reflexivity|]. cbn [combine add_up snd]. rewrite IH by (cbn in L; lia). reflexivity. Qed.
Lemma nth_add_up (f : Q -> Q) v : (add_up (fun i => f (nth i v 0%Q)) (seq 0 (length v)) == add_up f v)%Q.
Proof.
  induction v as [|x v IH]; [reflexivity|]. cbn [length seq add_up nth]. rewrite <- seq_shift, add_up_map. cbn [nth]. now rewrite IH.
Qed.
Lemma zero_terms A (f : A -> Q) l : (forall a, In a l -> 0 <= f a)%Q -> (add_up f l <= 0)%Q -> forall a, In a l -> (f a == 0)%Q.
Proof. intros N S0 a I0. pose proof (add_up_member _ f l a N I0). pose proof (N a I0). lra. Qed.

Section Columns.
Variables (m : list (list Q)) (v : list Q).
Hypothesis Lm : Forall (fun c => length c = length m) m.
Hypothesis Nm : forall c x, In c m -> In x c -> (0 <= x)%Q.
Hypothesis Sm : forall c, In c m -> (sumQ c <= 1)%Q.
(** What is left as it is lives on columns that add up to 1. *)
Lemma full_columns : length v = length m -> (forall i, (i < length v)%nat -> (applied m v i == nth i v 0)%Q) ->
  forall c x, In (c, x) (combine m v) -> (x == 0 \/ sumQ c == 1)%Q.
Proof.
  intros Lv St c x I0.
  assert (Nth : forall i c, In c m -> (0 <= nth i c 0)%Q).
  { intros i c' Ic. destruct (nth_in_or_default i c' 0%Q) as [J|J]; [now apply (Nm c')|rewrite J; lra]. }
  assert (In1 : forall p, In p (combine m v) -> In (fst p) m) by (intros [c' x'] J; eapply in_combine_l; exact J).
  assert (A : (add_up Qabs v <= add_up (fun p => sumQ (fst p) * Qabs (snd p)) (combine m v))%Q).
  { rewrite <- (nth_add_up Qabs v).
    apply Qle_trans with (add_up (fun i => add_up (fun p => nth i (fst p) 0 * Qabs (snd p)) (combine m v)) (seq 0 (length v)))%Q.
    - apply add_up_le. intros i Ii. apply in_seq in Ii. rewrite <- (St i) by lia. rewrite applied_sum.
      eapply Qle_trans; [apply abs_sum|]. apply add_up_le. intros p Ip. rewrite Qabs_Qmult, (Qabs_pos (nth i (fst p) 0%Q)) by (apply Nth; auto). lra.
    - rewrite add_up_swap. apply add_up_le. intros p Ip. rewrite add_up_scale. rewrite Forall_forall in Lm.
      rewrite Lv, <- (Lm (fst p)) by auto. rewrite nth_sum. lra. }
  rewrite <- (combine_second _ m v Qabs Lv) in A.
  assert (T : forall p, In p (combine m v) -> ((1 - sumQ (fst p)) * Qabs (snd p) == 0)%Q).
  { apply zero_terms.
    - intros p Ip. apply Qmult_le_0_compat; [pose proof (Sm _ (In1 p Ip)); lra|apply Qabs_nonneg].
    - rewrite (add_up_ext _ _ (fun p => Qabs (snd p) + sumQ (fst p) * Qabs (snd p) * -1)%Q) by (intros; ring).
      rewrite add_up_plus, add_up_scale. lra. }
  specialize (T _ I0). cbn [fst snd] in T. apply Qmult_integral in T. destruct T as [T|T]; [right; lra|left].
  destruct (Qeq_dec x 0) as [E|E]; [exact E|]. exfalso. destruct (Qlt_le_dec x 0) as [K|K].
  - rewrite Qabs_neg in T by lra. lra.
  - rewrite Qabs_pos in T by lra. lra.
Qed.
End Columns.

(** A column that is 1 on the diagonal and 0 elsewhere is left as it is. *)
Definition unit_at (n j : nat) : list Q := replace_at j 1%Q (repeat 0%Q n).
Lemma replace_nth : forall l i j x, (j < length l)%nat -> nth i (replace_at j x l) 0%Q = if Nat.eqb i j then x else nth i l 0%Q.
Proof.
  induction l as [|y l IH]; intros i j x L; cbn [length] in L; [lia|]. destruct j as [|j], i as [|i]; cbn [replace_at nth Nat.eqb]; try reflexivity. apply IH. lia.
Qed.
Lemma nth_zero n i : nth i (repeat 0%Q n) 0%Q = 0%Q.
Proof. revert i. induction n; intros [|i]; cbn; auto. Qed.
Lemma applied_zero : forall m n i, (applied m (repeat 0%Q n) i == 0)%Q.
Proof. induction m as [|c m IH]; intros [|n] i; cbn [applied repeat]; try reflexivity. rewrite IH. lra. Qed.
Lemma applied_unit : forall m j c i, nth_error m j = Some c -> (applied m (unit_at (length m) j) i == nth i c 0)%Q.
Proof.
  unfold unit_at. induction m as [|d m IH]; intros j c i N; [destruct j; discriminate N|]. cbn [length repeat]. destruct j as [|j]; cbn [replace_at applied].
  - injection N as ->. rewrite applied_zero. lra.
  - rewrite (IH j c i N). lra.
Qed.

(** ** The matrix of the program. *)
Lemma one_share hand draws t : (forall d, In d draws -> NoDup (faces (won_by hand d))) -> NoDup (faces (map fst hand)) -> In t (map fst hand) ->
  (add_up (fun ws => if tile_in t ws then even_share ws else 0) (map (won_by hand) draws) ==
   inject_Z (sumZ (fun ws => Z.of_nat (length ws)) (map (won_by hand) draws)))%Q <->
  forall d u, In d draws -> In u (won_by hand d) -> u = t.
Proof.
  intros Nw Nk It. rewrite <- add_up_inject.
  assert (Le : forall ws, In ws (map (won_by hand) draws) -> ((if tile_in t ws then even_share ws else 0) <= inject_Z (Z.of_nat (length ws)))%Q).
  { intros ws _. destruct (tile_in t ws) eqn:E; [|change 0%Q with (inject_Z 0); apply inject_le; lia].
    destruct ws as [|w ws]; [discriminate E|]. assert (L : (1 <= inject_Z (Z.of_nat (length (w :: ws))))%Q) by (change 1%Q with (inject_Z 1); apply inject_le; cbn [length]; lia).
    unfold even_share. apply Qle_shift_div_r; [lra|]. nra. }
  assert (Same : forall u, In u (map fst hand) -> view u = view t -> u = t).
  { intros u Iu E. clear - Nk It Iu E. unfold faces in Nk. induction (map fst hand) as [|k ks IH]; [destruct It|]. cbn [map] in Nk. inversion Nk as [|? ? N1 N2]; subst.
    destruct It as [->|It], Iu as [->|Iu]; auto; exfalso; apply N1; [rewrite <- E|rewrite E]; now apply in_map. }
  split.
  - intros Q d u Id Iu. set (ws := won_by hand d) in *.
    assert (Iw : In ws (map (won_by hand) draws)) by now apply in_map.
    destruct (Qlt_le_dec (if tile_in t ws then even_share ws else 0) (inject_Z (Z.of_nat (length ws)))) as [K|K].
    { pose proof (add_up_lt _ _ _ _ ws Iw K Le). lra. }
    destruct (tile_in t ws) eqn:E.
    + assert (Lw : length ws = 1%nat).
      { destruct ws as [|w [|w2 ws']] eqn:Ew; [discriminate E|reflexivity|exfalso]. rewrite <- Ew in *.
        assert (L : (2 <= inject_Z (Z.of_nat (length ws)))%Q) by (change 2%Q with (inject_Z 2); apply inject_le; rewrite Ew; cbn [length]; lia).
        assert (even_share ws < 1)%Q; [|lra]. unfold even_share. apply Qlt_shift_div_r; lra. }
      destruct ws as [|w [|? ?]] eqn:Ew; try discriminate Lw. destruct Iu as [->|[]]. apply Same.
      * assert (In u (won_by hand d)) as J by (fold ws; rewrite Ew; now left). unfold won_by in J. now apply filter_In in J.
      * apply tile_in_iff in E. destruct E as [E|[]]. exact E.
    + destruct ws as [|w ws']; [destruct Iu|]. exfalso. assert (0 < inject_Z (Z.of_nat (length (w :: ws'))))%Q by (apply inject_pos; cbn [length]; lia). lra.
  - intros H. apply add_up_ext. intros ws Iw. apply in_map_iff in Iw as (d & <- & Id). specialize (Nw d Id). specialize (fun u => H d u Id).
    destruct (won_by hand d) as [|w [|w2 ws]]; [reflexivity| |].
    + rewrite (H w (or_introl eq_refl)). assert (tile_in t [t] = true) as -> by (apply tile_in_iff; now left). reflexivity.
    + exfalso. pose proof (H w (or_introl eq_refl)). pose proof (H w2 (or_intror (or_introl eq_refl))). subst. inversion Nw as [|? ? N1 _]; subst. apply N1. now left.
Qed.
Lemma outs_matrix hand source : the_matrix hand source = (do s <- experiments (remain_tiles hand) (possible_discard hand) source no_tally; condition_matrix (Z.of_nat (length source)) s (map fst hand)).
Proof. unfold the_matrix. now rewrite discard_keys. Qed.

Lemma matrix_facts lines hand n source draws outs : read_hand lines = Some hand -> tries_ok hand n source -> drawn_by hand source draws -> main hand source = Ok outs ->
  exists m, the_matrix hand source = Ok m /\ length m = length hand /\ Forall (fun c => length c = length m) m /\
    (forall c x, In c m -> In x c -> (0 <= x)%Q) /\ (forall c, In c m -> (sumQ c <= 1)%Q) /\
    (forall j c, nth_error m j = Some c -> exists t, nth_error (map fst hand) j = Some t /\
       ((sumQ c == 1)%Q <-> only_winner hand draws t) /\
       (only_winner hand draws t -> forall i, (i < length m)%nat -> (nth i c 0 == if Nat.eqb i j then 1 else 0)%Q)) /\
    exists d t, In d draws /\ In t (map fst hand) /\ winning (afterwards hand t d).
Proof.
  intros R T D Mn. destruct (typed_hand lines hand R) as (_ & S14 & G & A).
  destruct (run lines hand n source R T) as (draws' & D' & L & F & E). assert (draws' = draws) as -> by (eapply drawn_same; eauto).
  pose proof (wss_nodup hand draws G) as Nw. pose proof (keys_faces hand (proj1 G)) as Nk.
  rewrite outs_matrix. unfold main in Mn. cbv zeta in Mn. rewrite E, discard_keys in Mn. rewrite E. cbn [bindr] in Mn |- *.
  set (s := note_all _ _ _) in *.
  destruct (outcomes_cases (Z.of_nat (length source)) s (map fst hand) (hand_nonempty hand S14)) as [(Z0 & O)|(Z0 & m & outs' & Em & O & Ml & Mc & _)].
  - intros Z0. unfold s. destruct source; [|cbn [length] in Z0; lia]. destruct draws; [|discriminate L]. reflexivity.
  - congruence.
  - exists m. split; [exact Em|]. split; [now rewrite Ml, map_length|].
    assert (Tt : total_win_count s = sumZ (fun ws => Z.of_nat (length ws)) (map (won_by hand) draws)).
    { unfold s. rewrite note_all_total. reflexivity. }
    assert (Tp : 0 < total_win_count s).
    { assert (0 <= total_win_count s); [|lia]. rewrite Tt. apply sumZ_nonneg. intros; lia. }
    assert (Sp : (0 < 1 / inject_Z (Z.of_nat (length source)))%Q).
    { apply div_pos; [lra|]. apply inject_pos. rewrite <- L. destruct draws; [|cbn [length]; lia]. rewrite Tt in Tp. cbn in Tp. lia. }
    assert (Av : forall t, (fraction (avg_win_counter s) t == add_up (fun ws => if tile_in t ws then even_share ws else 0) (map (won_by hand) draws))%Q).
    { intros t. unfold s. rewrite note_all_avg by auto. cbn [no_tally avg_win_counter fraction]. lra. }
    assert (An : forall t, (0 <= fraction (avg_win_counter s) t)%Q).
    { intros t. rewrite Av. apply add_up_nonneg. intros ws _. destruct (tile_in t ws); [apply share_nonneg|lra]. }
    assert (As : (add_up (fraction (avg_win_counter s)) (map fst hand) <= inject_Z (total_win_count s))%Q).
    { rewrite (add_up_ext _ _ _ _ (fun t _ => Av t)), avg_sum by apply G. apply inject_le. rewrite Tt. apply some_le. }
    assert (Ow : forall t, In t (map fst hand) -> (fraction (entry (condition_win_counter s) t) t == 0)%Q).
    { intros t _. unfold s. rewrite note_all_cond by auto. cbn [no_tally condition_win_counter entry fraction].
      rewrite (add_up_ext _ _ (fun _ => 0%Q)); [rewrite add_up_zero; lra|]. intros ws _. destruct (tile_in t ws); cbn [negb]; rewrite ?andb_false_r; cbn [andb]; lra. }
    assert (Cf := column_facts (map fst hand) s _ Sp Tp An As Ow).
    split; [rewrite Ml; exact (matrix_lengths (map fst hand) s _ Sp Tp An As Ow m Mc)|].
    split. { intros c x Ic Ix. apply In_nth_error in Ic as (j & J). destruct (Mc j c J) as (t & Nt & C). destruct (Cf j t c Nt C) as (_ & P & _). auto. }
    split; [exact (column_le (map fst hand) s _ Sp Tp An As Ow m Mc)|].
    assert (Win : forall d u, In d draws -> In u (map fst hand) -> (winning (afterwards hand u d) <-> In u (won_by hand d))).
    { intros d u Id Iu. rewrite Forall_forall in F. destruct (F d Id) as [_ [Ld _]]. destruct (won_winners hand d G A Ld) as [_ W]. rewrite W. tauto. }
    split.
    + intros j c J. destruct (Mc j c J) as (t & Nt & C). exists t. split; [exact Nt|]. pose proof (nth_error_In _ _ Nt) as It.
      assert (One : (self_of s t == 1)%Q <-> only_winner hand draws t).
      { unfold self_of, only_winner. assert (Ip : (0 < inject_Z (total_win_count s))%Q) by now apply inject_pos.
        transitivity (forall d u, In d draws -> In u (won_by hand d) -> u = t).
        - rewrite <- (one_share hand draws t); auto.
          + rewrite <- Av, <- Tt. split; intro Q.
            * rewrite <- (Qmult_div_r (fraction (avg_win_counter s) t) (inject_Z (total_win_count s))) by lra. rewrite Q. lra.
            * rewrite Q. field. lra.
          + intros d Id. rewrite Forall_forall in Nw. apply Nw. now apply in_map.
        - split; intros H d u Id; [intros Iu W; apply (H d u Id); now apply Win|intros Iw].
          assert (In u (map fst hand)) as Iu by (unfold won_by in Iw; now apply filter_In in Iw). apply (H d u Id Iu). now apply Win. }
      destruct (Cf j t c Nt C) as (Lc & _ & S0 & Hs & _ & B). split.
      * rewrite <- One, B. clear - Sp Hs. set (mr := (1 / inject_Z (Z.of_nat (length source)))%Q) in *. clearbody mr. assert (Ni : (0 < / S0)%Q) by (apply Qinv_lt_0_compat; lra).
        split; intro Q; [|rewrite Q; unfold Qdiv; ring].
        assert (K : (mr * (1 - self_of s t) / S0 == 0)%Q) by lra. unfold Qdiv in K. apply Qmult_integral in K. destruct K as [K|K]; [|lra].
        apply Qmult_integral in K. destruct K as [K|K]; lra.
      * intros Ot i Li. apply One in Ot. unfold column, self_rate in C. destruct (total_win_count s =? 0) eqn:E0; [apply Z.eqb_eq in E0; lia|]. cbn [bindr] in C. cbv zeta in C.
        fold (self_of s t) in C. injection C as <-. rewrite replace_nth by (rewrite !map_length; rewrite <- (map_length fst); apply nth_error_Some; congruence).
        destruct (Nat.eqb i j); [exact Ot|]. set (raw := map (raw_entry _ s t) (map fst hand)) in *.
        destruct (nth_in_or_default i (map (fun x => x * ((1 - self_of s t) / sumQ raw))%Q raw) 0%Q) as [I1|I1]; [|rewrite I1; reflexivity].
        apply in_map_iff in I1 as (r & <- & _). unfold Qdiv. rewrite Ot. ring.
    + rewrite Tt in Tp. clear - Tp Win. induction draws as [|d draws IH]; [cbn in Tp; lia|]. cbn [map sumZ] in Tp.
      destruct (won_by hand d) as [|w ws] eqn:Ew.
      * destruct IH as (d' & t & I1 & I2 & I3); [cbn [length] in Tp; lia|intros d' u I1; apply Win; now right|]. exists d', t. split; [now right|auto].
      * assert (Iw : In w (won_by hand d)) by (rewrite Ew; now left). assert (In w (map fst hand)) as Iu by (unfold won_by in Iw; now apply filter_In in Iw).
        exists d, w. split; [now left|]. split; [exact Iu|]. apply Win; auto. now left.
Qed.

(** ** C122. There is a distribution to converge to only if all wins come from one discard, and then it is all on that. *)
Theorem C122_stationary : forall lines hand n source draws outs, read_hand lines = Some hand -> tries_ok hand n source -> drawn_by hand source draws ->
  main hand source = Ok outs -> exists m, the_matrix hand source = Ok m /\
    ((exists v, stationary m v) <-> exists t, In t (map fst hand) /\ only_winner hand draws t).
Proof.
  intros lines hand n source draws outs R T D Mn. destruct (matrix_facts _ _ _ _ _ _ R T D Mn) as (m & Em & Ml & Lc & Nc & Sc & Cf & _). exists m. split; [exact Em|]. split.
  - intros (v & Lv & (x & Ix & Nx) & St). apply In_nth_error in Ix as (j & J).
    assert (Lj : (j < length m)%nat) by (rewrite <- Lv; apply nth_error_Some; congruence). destruct (nth_error m j) as [c|] eqn:Jc; [|apply nth_error_None in Jc; lia].
    assert (I0 : In (c, x) (combine m v)).
    { clear - J Jc. revert v j J Jc. induction m as [|c' m IH]; intros v j J Jc; [destruct j; discriminate|]. destruct v as [|y v]; [destruct j; discriminate|]. destruct j as [|j]; cbn in J, Jc |- *; [left; congruence|right; eauto]. }
    destruct (full_columns m v Lc Nc Sc Lv St c x I0) as [Q|Q]; [contradiction|]. destruct (Cf j c Jc) as (t & Nt & One & _). exists t. split; [eapply nth_error_In; exact Nt|now apply One].
  - intros (t & It & Ot). apply In_nth_error in It as (j & J).
    assert (Lj : (j < length m)%nat) by (rewrite Ml, <- (map_length fst); apply nth_error_Some; congruence). destruct (nth_error m j) as [c|] eqn:Jc; [|apply nth_error_None in Jc; lia].
    destruct (Cf j c Jc) as (t' & Nt & _ & U). rewrite J in Nt. injection Nt as <-. specialize (U Ot). exists (unit_at (length m) j).
    assert (Lu : length (unit_at (length m) j) = length m) by (unfold unit_at; now rewrite replace_length, repeat_length).
    split; [exact Lu|]. split.
    + exists 1%Q. split; [|lra]. unfold unit_at. assert (Q : nth j (replace_at j 1%Q (repeat 0%Q (length m))) 0%Q = 1%Q) by (rewrite replace_nth by (now rewrite repeat_length); now rewrite Nat.eqb_refl).
      pose proof (nth_In (replace_at j 1%Q (repeat 0%Q (length m))) 0%Q (n := j)) as X. rewrite Q in X. apply X. now rewrite replace_length, repeat_length.
    + intros i Li. rewrite Lu in Li. rewrite (applied_unit m j c i Jc), (U i Li). unfold unit_at. rewrite replace_nth by (now rewrite repeat_length). rewrite nth_zero. destruct (Nat.eqb i j); reflexivity.
Qed.

Lemma sum_one : forall v j, (j < length v)%nat -> (forall i, (i < length v)%nat -> i <> j -> (nth i v 0 == 0)%Q) -> (sumQ v == nth j v 0)%Q.
Proof.
  induction v as [|x v IH]; intros j Lj Z0; [cbn in Lj; lia|]. cbn [sumQ fold_right]. fold (sumQ v). destruct j as [|j]; cbn [nth length] in *.
  - assert (Z1 : forall i, (i < length v)%nat -> (nth i v 0 == 0)%Q) by (intros i Li; apply (Z0 (S i)); lia).
    assert (sumQ v == 0)%Q as ->; [|lra]. clear - Z1. induction v as [|y v IH]; [reflexivity|]. cbn [sumQ fold_right length] in *. fold (sumQ v).
    rewrite IH by (intros i Li; apply (Z1 (S i)); lia). rewrite (Z1 0%nat) by lia. reflexivity.
  - rewrite (IH j) by (try lia; intros i Li Ne; apply (Z0 (S i)); lia). pose proof (Z0 0%nat ltac:(lia) ltac:(lia)) as Q. cbn [nth] in Q. rewrite Q. lra.
Qed.
Theorem C122_share : forall lines hand n source draws outs m v, read_hand lines = Some hand -> tries_ok hand n source -> drawn_by hand source draws ->
  main hand source = Ok outs -> the_matrix hand source = Ok m -> stationary m v ->
  exists j t, nth_error (map fst hand) j = Some t /\ only_winner hand draws t /\
    forall i, (i < length hand)%nat -> (nth i (infinite_pick v) 0 == if Nat.eqb i j then 1 else 0)%Q.
Proof.
  intros lines hand n source draws outs m v R T D Mn Em0 (Lv & (x & Ix & Nx) & St).
  destruct (matrix_facts _ _ _ _ _ _ R T D Mn) as (m' & Em & Ml & Lc & Nc & Sc & Cf & (d0 & t0 & Id0 & It0 & W0)). rewrite Em0 in Em. injection Em as <-.
  destruct (typed_hand lines hand R) as (_ & _ & G & _). pose proof (NoDup_map_inv _ _ (keys_faces hand (proj1 G))) as Nk.
  assert (Non : forall i, (i < length m)%nat -> ~ (nth i v 0 == 0)%Q -> exists t, nth_error (map fst hand) i = Some t /\ only_winner hand draws t).
  { intros i Li Ni. destruct (nth_error m i) as [c|] eqn:Jc; [|apply nth_error_None in Jc; lia].
    destruct (nth_error v i) as [y|] eqn:Jv; [|apply nth_error_None in Jv; lia].
    assert (I0 : In (c, y) (combine m v)).
    { clear - Jv Jc. revert v i Jv Jc. induction m as [|c' m IH]; intros v j J Jc; [destruct j; discriminate|]. destruct v as [|z v]; [destruct j; discriminate|]. destruct j as [|j]; cbn in J, Jc |- *; [left; congruence|right; eauto]. }
    rewrite (nth_error_nth v i 0%Q Jv) in Ni.
    destruct (full_columns m v Lc Nc Sc Lv St c y I0) as [Q|Q]; [contradiction|]. destruct (Cf i c Jc) as (t & Nt & One & _). exists t. split; [exact Nt|now apply One]. }
  apply In_nth_error in Ix as (j & J). assert (Lj : (j < length m)%nat) by (rewrite <- Lv; apply nth_error_Some; congruence).
  assert (Nj : ~ (nth j v 0 == 0)%Q) by now rewrite (nth_error_nth v j 0%Q J).
  destruct (Non j Lj Nj) as (t & Nt & Ot). exists j, t. split; [exact Nt|]. split; [exact Ot|].
  assert (Z0 : forall i, (i < length v)%nat -> i <> j -> (nth i v 0 == 0)%Q).
  { intros i Li Ne. destruct (Qeq_dec (nth i v 0%Q) 0) as [Q|Q]; [exact Q|]. exfalso. apply Ne. destruct (Non i ltac:(lia) Q) as (u & Nu & Ou).
    rewrite NoDup_nth_error in Nk. apply Nk; [apply nth_error_Some; congruence|]. rewrite Nu, Nt. f_equal. rewrite <- (Ou d0 t0), <- (Ot d0 t0); auto. }
  pose proof (sum_one v j ltac:(lia) Z0) as Sm. intros i Li. unfold infinite_pick.
  rewrite (nth_indep _ 0%Q (0 / sumQ v)%Q) by (rewrite map_length; lia). rewrite (map_nth (fun x => (x / sumQ v)%Q) v 0%Q i). rewrite Sm.
  destruct (Nat.eqb i j) eqn:Eij.
  - apply Nat.eqb_eq in Eij as ->. field. exact Nj.
  - apply Nat.eqb_neq in Eij. rewrite (Z0 i) by lia. unfold Qdiv. ring.
Qed.

(** ** C122. The rows: what C90 and C93 are about, with an accurate rate each, those with the highest first. *)
Lemma insert_perm : forall x l, Permutation (insert_row x l) (x :: l).
Proof.
  intros x. induction l as [|y l IH]; [reflexivity|]. cbn [insert_row]. destruct (Qle_bool _ _); [reflexivity|]. rewrite IH. constructor.
Qed.
Lemma sort_perm : forall l, Permutation (sort_rows l) l.
Proof. induction l as [|x l IH]; [reflexivity|]. cbn [sort_rows fold_right]. fold (sort_rows l). rewrite insert_perm. now constructor. Qed.
Definition no_less (x y : pick_row) : Prop := (pr_accurate y <= pr_accurate x)%Q.
Lemma insert_sorted : forall x l, StronglySorted no_less l -> StronglySorted no_less (insert_row x l).
Proof.
  intros x. induction l as [|y l IH]; intros H; [constructor; constructor|]. cbn [insert_row]. inversion H as [|? ? H1 H2]; subst. destruct (Qle_bool (pr_accurate y) (pr_accurate x)) eqn:E.
  - apply Qle_bool_iff in E. constructor; [exact H|]. constructor; [exact E|]. rewrite Forall_forall in *. intros z Iz. unfold no_less in *. eapply Qle_trans; [apply H2; exact Iz|exact E].
  - constructor; [auto|]. rewrite Forall_forall in *. intros z Iz. apply (Permutation_in _ (insert_perm x l)) in Iz. destruct Iz as [<-|Iz]; [|auto].
    unfold no_less. apply Qlt_le_weak. apply Qnot_le_lt. intros K. apply Qle_bool_iff in K. congruence.
Qed.
Lemma sort_sorted : forall l, StronglySorted no_less (sort_rows l).
Proof. induction l as [|x l IH]; [constructor|]. cbn [sort_rows fold_right]. apply insert_sorted, IH. Qed.
Definition rate_is (q : Q) (r : pick_row) : bool := Qeq_bool (pr_accurate r) q.
Lemma insert_filter : forall q x l, filter (rate_is q) (insert_row x l) = filter (rate_is q) (x :: l).
Proof.
  intros q x. induction l as [|y l IH]; [reflexivity|]. cbn [insert_row]. destruct (Qle_bool (pr_accurate y) (pr_accurate x)) eqn:E; [reflexivity|]. cbn [filter] in IH |- *. rewrite IH.
  destruct (rate_is q x) eqn:Ex, (rate_is q y) eqn:Ey; auto. unfold rate_is in *. apply Qeq_bool_iff in Ex, Ey. rewrite <- not_true_iff_false in E. exfalso. apply E. apply Qle_bool_iff. lra.
Qed.
Lemma sort_filter : forall q l, filter (rate_is q) (sort_rows l) = filter (rate_is q) l.
Proof. intros q. induction l as [|x l IH]; [reflexivity|]. cbn [sort_rows fold_right]. fold (sort_rows l). rewrite insert_filter. cbn [filter]. now rewrite IH. Qed.
Lemma pick_adds : forall v, ~ (sumQ v == 0)%Q -> (sumQ (infinite_pick v) == 1)%Q.
Proof.
  intros v N. unfold infinite_pick. assert (H : forall q l, (sumQ (map (fun x => x / q) l) == sumQ l / q)%Q).
  { intros q. induction l as [|x l IH]; cbn [map sumQ fold_right]; [unfold Qdiv; ring|]. fold (sumQ l). fold (sumQ (map (fun x => x / q)%Q l)). rewrite IH. unfold Qdiv. ring. }
  rewrite H. field. exact N.
Qed.

Lemma columns_length : forall mr s ks rest i m, columns_from mr s ks i rest = Ok m -> length m = length rest.
Proof.
  intros mr s ks. induction rest as [|t rest IH]; intros i m E; cbn [columns_from] in E; [now injection E as <-|].
  destruct (column mr s ks i t) as [c|e]; cbn [bindr] in E; [|discriminate]. destruct (columns_from mr s ks (S i) rest) as [cs|e] eqn:E2; cbn [bindr] in E; [|discriminate].
  injection E as <-. cbn [length]. now rewrite (IH _ _ E2).
Qed.
Lemma matrix_length n s ks m : condition_matrix n s ks = Ok m -> length m = length ks.
Proof. unfold condition_matrix. destruct (n =? 0); [discriminate|]. apply columns_length. Qed.
Lemma rough_length m n : length (rough_pick m n) = n.
Proof. unfold rough_pick. now rewrite map_length, seq_length. Qed.
(** What a row says apart from the accurate rate. *)
Definition as_outcome (r : pick_row) : outcome := mkOutcome (pr_tile r) (pr_wins r) (pr_tries r) (pr_rough r).
Lemma rows_outcomes s n : forall (l : list (tile * Q)) w, length w = length l ->
  map as_outcome (map (to_row s n) (combine l w)) = map (fun tr => mkOutcome (fst tr) (get (win_counter s) (fst tr)) n (snd tr)) l /\
  map pr_accurate (map (to_row s n) (combine l w)) = w.
Proof.
  induction l as [|[t q] l IH]; intros [|x w] L; cbn [length] in L; try discriminate; [split; reflexivity|]. destruct (IH w) as [I1 I2]; [lia|].
  cbn [combine map to_row as_outcome fst snd pr_tile pr_wins pr_tries pr_rough pr_accurate]. now rewrite I1, I2.
Qed.
Lemma sum_perm : forall a b, Permutation a b -> (sumQ a == sumQ b)%Q.
Proof.
  induction 1 as [|x a b _ IH|x y a|a b c _ IH1 _ IH2]; cbn [sumQ fold_right]; try reflexivity; try (fold (sumQ a)); try (fold (sumQ b)); [rewrite IH; reflexivity|ring|now rewrite IH1].
Qed.

Theorem C122_rows : forall eig hand source outs m, main hand source = Ok outs -> the_matrix hand source = Ok m ->
  length (eig m) = length m -> ~ (sumQ (eig m) == 0)%Q ->
  exists rows unsorted, pick_main eig hand source = Ok rows /\
    map as_outcome unsorted = outs /\ map pr_accurate unsorted = infinite_pick (eig m) /\
    Permutation rows unsorted /\ StronglySorted no_less rows /\ (forall q, filter (rate_is q) rows = filter (rate_is q) unsorted) /\
    (sumQ (map pr_accurate rows) == 1)%Q.
Proof.
  intros eig hand source outs m Mn Em Le Ns. unfold main in Mn. unfold the_matrix in Em. unfold pick_main. cbv zeta in *.
  destruct (experiments _ _ source no_tally) as [s|e]; cbn [bindr] in *; [|discriminate]. unfold outcomes in Mn. unfold pick_rows. rewrite Em in *. cbn [bindr] in *. injection Mn as <-.
  set (ks := map fst (possible_discard hand)) in *. set (l := combine ks (rough_pick m (length ks))).
  assert (Ll : length (infinite_pick (eig m)) = length l).
  { unfold infinite_pick, l. rewrite map_length, Le, combine_length, rough_length, (matrix_length _ _ _ _ Em). lia. }
  destruct (rows_outcomes s (Z.of_nat (length source)) l (infinite_pick (eig m)) Ll) as [R1 R2].
  exists (sort_rows (map (to_row s (Z.of_nat (length source))) (combine l (infinite_pick (eig m))))), (map (to_row s (Z.of_nat (length source))) (combine l (infinite_pick (eig m)))).
  split; [reflexivity|]. split; [exact R1|]. split; [exact R2|]. split; [apply sort_perm|]. split; [apply sort_sorted|]. split; [intros q; apply sort_filter|].
  rewrite (sum_perm _ _ (Permutation_map pr_accurate (sort_perm _))), R2. now apply pick_adds.
Qed.
Theorem C122_errors : forall eig hand source e, pick_main eig hand source = Err e <-> main hand source = Err e.
Proof.
  intros eig hand source e. unfold pick_main, main. cbv zeta. destruct (experiments _ _ source no_tally) as [s|e1]; cbn [bindr]; [|split; intros [= ->]; reflexivity].
  unfold pick_rows, outcomes. destruct (condition_matrix _ s _) as [m|e1]; cbn [bindr]; split; try discriminate; intros [= ->]; reflexivity.
Qed.

(** With a draw of 1p, 123456789m1122p3s wins only by the discard of 3s: all of the rate is on it, and its row is the first. *)
Definition on_last (m : list (list Q)) : list Q := unit_at (length m) (length m - 1).
Example C122_case : exists m, the_matrix ex_typed ex_source = Ok m /\ length m = 12%nat /\ stationary m (on_last m) /\
  match pick_main on_last ex_typed ex_source with
  | Ok (r :: rest) => pr_tile r = Plain 3 Cs /\ (pr_accurate r == 1)%Q /\ pr_wins r = 1 /\ map pr_tile rest = map fst (tile_set_from_string (t_ "123456789m1122p"))
  | _ => False
  end.
Proof.
  destruct (the_matrix ex_typed ex_source) as [m|e] eqn:E; [|exfalso; revert E; vm_compute; discriminate]. exists m. split; [reflexivity|].
  assert (L : match the_matrix ex_typed ex_source with Ok m => length m | Err _ => 0%nat end = 12%nat) by (vm_compute; reflexivity). rewrite E in L. split; [exact L|]. split.
  - unfold on_last. rewrite L. split; [now rewrite L|]. split; [exists 1%Q; split; [vm_compute; tauto|lra]|].
    assert (B : match the_matrix ex_typed ex_source with Ok m => forallb (fun i => Qeq_bool (applied m (unit_at 12 11) i) (nth i (unit_at 12 11) 0%Q)) (seq 0 12) | Err _ => false end = true)
      by (vm_compute; reflexivity). rewrite E in B. rewrite forallb_forall in B. intros i Li. apply Qeq_bool_iff, B, in_seq. cbn in Li. lia.
  - vm_compute. repeat split; reflexivity.
Qed.
(** With a draw of 2p, 123456789m11122p wins by the discard of 1p and by that of 2p: there is nothing to converge to. *)
Definition two_wins : tset := tile_set_from_string (t_ "123456789m11122p").
Theorem C122_converges_refuted : exists lines hand n source outs m, read_hand lines = Some hand /\ tries_ok hand n source /\ main hand source = Ok outs /\
  the_matrix hand source = Ok m /\ forall v, ~ stationary m v.
Proof.
  assert (L : left_over_size two_wins = 122) by (vm_compute; reflexivity).
  assert (R : read_hand [t_ "123456789m11122p"] = Some two_wins) by (vm_compute; reflexivity).
  assert (T : tries_ok two_wins 1 [[28]]). { unfold tries_ok. rewrite L. constructor; [|constructor]. split; [reflexivity|cbn; lia]. }
  assert (D : drawn_by two_wins [[28]] [[Plain 2 Cp]]). { constructor; [vm_compute; reflexivity|constructor]. }
  destruct (main two_wins [[28]]) as [outs|e] eqn:Mn; [|exfalso; revert Mn; vm_compute; discriminate].
  destruct (C122_stationary _ _ _ _ _ _ R T D Mn) as (m & Em & H).
  exists [t_ "123456789m11122p"], two_wins, 1%nat, [[28]], outs, m. split; [exact R|]. split; [exact T|]. split; [exact Mn|]. split; [exact Em|]. intros v St.
  destruct (proj1 H (ex_intro _ v St)) as (t & _ & Ot). destruct (typed_hand _ _ R) as (_ & _ & G & A).
  assert (Ld : Forall legal_tile [Plain 2 Cp]).
  { destruct (run _ _ _ _ R T) as (dr & D' & _ & F & _). rewrite (drawn_same _ _ _ _ D' D) in F. destruct (Forall_inv F) as [_ [Ld _]]. exact Ld. }
  destruct (won_winners two_wins [Plain 2 Cp] G A Ld) as [_ W].
  assert (P : forall u, In u (won_by two_wins [Plain 2 Cp]) -> u = t). { intros u Iu. destruct (proj1 (W u) Iu) as [Iu' Wu]. exact (Ot [Plain 2 Cp] u (or_introl eq_refl) Iu' Wu). }
  assert (E : won_by two_wins [Plain 2 Cp] = [Plain 1 Cp; Plain 2 Cp]) by (vm_compute; reflexivity). rewrite E in P.
  pose proof (P (Plain 1 Cp) ltac:(now left)). pose proof (P (Plain 2 Cp) ltac:(right; now left)). congruence.
Qed.

Print Assumptions C122_stationary.
Print Assumptions C122_share.
Print Assumptions C122_rows.
Print Assumptions C122_errors.
Print Assumptions C122_converges_refuted.
