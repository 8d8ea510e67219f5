(** C100: the recipe of README.md gives the exact state after each command. *)
From Verif Require Import Base Category Tile Parse Text Tenhou Prop_Meld Event Const Reader StateProofs Value Json Universe Translator TenhouCommands
  Transfer Spec_Transfer Spec_Universe UniverseProofs Prop_Executor CommandProofs Prop_Commands Spec_Record JsonProofs Prop_Record
  Csv Spec_Csv CsvProofs CsvValues CsvConverted Prop_Csv Readme Spec_Readme Spec_Log Spec_Seats SeatsProofs.
From Coq Require Import String List ZArith Lia Bool.
Import ListNotations.
Open Scope list_scope.
Open Scope Z_scope.

Lemma column_eqb_iff a b : column_eqb a b = true <-> a = b.
Proof. apply ikey_eqb_iff. Qed.
Lemma column_keys_in rows k : In k (column_keys rows) <-> In k (map fst rows).
Proof.
  induction rows as [|[a v] r IH]; cbn [column_keys map In fst]; [tauto|]. destruct (existsb (column_eqb a) (column_keys r)) eqn:E.
  - apply existsb_exists in E. destruct E as [b [I0 E]]. apply column_eqb_iff in E. subst b. rewrite IH. split; [auto|]. intros [->|X]; [apply IH; exact I0|exact X].
  - cbn [In]. rewrite IH. tauto.
Qed.
Lemma column_keys_nodup rows : NoDup (column_keys rows).
Proof.
  induction rows as [|[a v] r IH]; cbn [column_keys]; [constructor|]. destruct (existsb (column_eqb a) (column_keys r)) eqn:E; [exact IH|].
  constructor; [|exact IH]. intro I0. assert (X : existsb (column_eqb a) (column_keys r) = true) by (apply existsb_exists; exists a; split; [exact I0|apply column_eqb_iff; reflexivity]). congruence.
Qed.
(** The last filled cell. *)
Lemma ffill_len l : forall o, length (ffill o l) = length l.
Proof. induction l as [|[v|] l IH]; intro o; cbn; congruence. Qed.
Fixpoint last_some (o : option val) (l : list (option val)) : option val :=
  match l with [] => o | None :: r => last_some o r | Some v :: r => last_some (Some v) r end.
Lemma ffill_nth l : forall o n, (n < length l)%nat -> nth_error (ffill o l) n = Some (last_some o (firstn (S n) l)).
Proof.
  induction l as [|[v|] l IH]; intros o n L; cbn [length] in L; [lia| |]; cbn [ffill]; destruct n as [|n]; cbn [nth_error firstn last_some]; try reflexivity; apply IH; lia.
Qed.
Lemma last_some_app a b : forall o, last_some o (a ++ b) = last_some (last_some o a) b.
Proof. induction a as [|[v|] a IH]; intro o; cbn [app last_some]; auto. Qed.
Lemma last_none l : forall o, Forall (fun x => x = None) l -> last_some o l = o.
Proof. induction l as [|x l IH]; intros o F; [reflexivity|]. inversion F; subst. cbn [last_some]. auto. Qed.

(** The last command of a list that is addressed to a place. *)
Definition last_for (cmds : list command) (p : place) (m : nat) (c : command) : Prop :=
  nth_error cmds m = Some c /\ addressed c p /\ forall m' c', (m < m')%nat -> nth_error cmds m' = Some c' -> ~ addressed c' p.

Lemma well_key c p : well_addressed c -> real_place p -> addressed c p <-> (c_sub c, c_prop c) = place_column p.
Proof.
  intros W R. destruct (well_addressed_at c W) as [q [A K]]. rewrite <- K. split.
  - intro A'. destruct A as [A1 A2], A' as [B1 B2]. unfold key_of, place_column. rewrite A1, B1. f_equal.
    destruct (scope_of (c_prop c)); [rewrite A2, B2; reflexivity| |rewrite A2, B2; reflexivity].
    destruct A2 as (i & _ & E1 & ->), B2 as (j & _ & E2 & ->). congruence.
  - intro E. assert (q = p) as <-; [|exact A]. apply key_of_inj; [eapply addressed_real; exact A|exact R|exact E].
Qed.
Lemma holds_fun cs p v : holds_after cs p v -> forall v', holds_after cs p v' -> (v = None <-> v' = None).
Proof.
  induction 1 as [p|cs c p v N H IH|cs c p v w A H IH E]; intros v' H'.
  - inversion H' as [|? ? ? ? ? ? Q|? ? ? ? ? ? ? ? Q]; subst; [tauto|destruct cs; discriminate Q|destruct cs; discriminate Q].
  - inversion H' as [? Q|? ? ? ? N' H1 Q|? ? ? ? ? A' H1 E' Q]; subst; [destruct cs; discriminate Q|apply app_inj_tail in Q; destruct Q as [-> ->]; apply IH; exact H1|apply app_inj_tail in Q; destruct Q as [-> ->]; contradiction].
  - inversion H' as [? Q|? ? ? ? N' H1 Q|? ? ? ? ? A' H1 E' Q]; subst; [destruct cs; discriminate Q|apply app_inj_tail in Q; destruct Q as [-> ->]; contradiction|]. split; discriminate.
Qed.
(** What a place holds is the state written beside the last command for it. *)
Lemma holds_last cmds : forall s s' cs, states_ok s cmds s' -> mirrors s cs -> Forall well_addressed cmds -> forall p, real_place p ->
  forall n, (n <= length cmds)%nat -> holds_after (cs ++ firstn n cmds) p (last_some (iget s (key_of p)) (map (fun c => if column_eqb (c_sub c, c_prop c) (place_column p) then Some (c_state c) else None) (firstn n cmds))).
Proof.
  induction cmds as [|c cmds IH]; intros s s' cs H M W p R n L.
  - rewrite firstn_nil, app_nil_r. apply M. exact R.
  - destruct n as [|n]; [cbn [firstn map last_some]; rewrite app_nil_r; apply M; exact R|].
    inversion H as [|? ? ? s1 ? I0 S1]; subst. inversion W as [|? ? Wc Wr]; subst.
    destruct (interpret_mirrors _ _ _ _ _ M Wc I0) as [M1 [q [A [_ G]]]]. cbn [firstn map]. change (c :: firstn n cmds) with ([c] ++ firstn n cmds). rewrite app_assoc.
    cbn [length] in L. specialize (IH s1 s' (cs ++ [c]) S1 M1 Wr p R n ltac:(lia)).
    destruct (column_eqb (c_sub c, c_prop c) (place_column p)) eqn:E; cbn [last_some].
    + apply column_eqb_iff in E. apply (well_key c p Wc R) in E.
      assert (q = p) as ->. { pose proof (addressed_real _ _ A) as Rq. apply (well_key c q Wc Rq) in A. apply (well_key c p Wc R) in E. apply key_of_inj; [exact Rq|exact R|]. unfold key_of. unfold place_column in *. congruence. }
      rewrite G in IH. exact IH.
    + assert (X : iget s1 (key_of p) = iget s (key_of p)).
      { unfold interpret in I0. cbv zeta in I0. peelb I0. apply Ok_inj in I0. injection I0 as Q1 Q2. rewrite Q1, iget_iput. cbn [fst snd].
        unfold column_eqb in E. cbn [fst snd] in E. unfold key_of. unfold place_column in E. cbn [fst snd] in *. rewrite E. reflexivity. }
      rewrite X in IH. exact IH.
Qed.

(** States of converted logs are never None. *)
Lemma interpret_some s c s' w : sound c -> interpret s c = Ok (s', w) -> w <> VNone.
Proof.
  intros (_ & _ & Z) H. unfold interpret in H. cbv zeta in H. peelb H. apply Ok_inj in H. injection H as -> ->.
  revert E. generalize (or_none (iget s (c_sub c, c_prop c))). intros o H Q. subst v. unfold execute_new_value in H. destruct (c_update c) eqn:U; try discriminate.
  - apply Ok_inj in H. specialize (Z (eq_sym H)). discriminate.
  - assert (A : add_general o (c_value c) = Ok VNone) by (rewrite <- H; destruct (c_prop c); reflexivity).
    unfold add_general in A. destruct o, (c_value c); cbn [as_num] in A; try discriminate; apply Ok_inj in A; discriminate.
  - assert (A : remove_general o (c_value c) = Ok VNone \/ remove_all o (c_value c) = Ok VNone) by (rewrite <- !H; destruct (c_prop c); auto).
    destruct A as [A|A].
    + unfold remove_general in A. destruct (as_num o), (as_num (c_value c)); try discriminate; apply Ok_inj in A; discriminate.
    + unfold remove_all in A. destruct o; try discriminate. peelb A. apply Ok_inj in A. discriminate.
  - destruct (c_prop c); vm_compute in H; discriminate.
  - apply Ok_inj in H. specialize (Z (eq_sym H)). discriminate.
Qed.
Lemma states_some cmds : forall s s', states_ok s cmds s' -> Forall sound cmds -> Forall (fun c => c_state c <> VNone) cmds.
Proof.
  induction cmds as [|c cmds IH]; intros s s' H K; [constructor|]. inversion H; subst. inversion K; subst. constructor; [eapply interpret_some; eassumption|eapply IH; eassumption].
Qed.
Lemma recovered_some v w : recovered v w -> v <> VNone -> w <> VNone.
Proof. intros R N ->. inversion R as [? ? Sv| | |]; subst. inversion Sv; subst. contradiction. Qed.
Lemma text_read p x v : text_property p -> cell_value p x = Ok v -> exists s, v = VStr s.
Proof.
  intros T H. apply text_property_b in T. destruct p; try discriminate T; destruct x; cbn in H; try (apply Ok_inj in H; subst; eauto);
    destruct n; cbn in H; apply Ok_inj in H; subst; eauto.
Qed.

(** The rows read back, with their states. *)
Definition row_read (c d : command) : Prop :=
  c_sub d = c_sub c /\ c_prop d = c_prop c /\ c_state d <> VNone /\ (~ text_property (c_prop c) -> recovered (c_state c) (c_state d)) /\
  (text_property (c_prop c) -> exists s, c_state d = VStr s).
Lemma last_read p l l' : Forall2 row_read l l' -> forall o o',
  (match o, o' with None, None => True | Some w, Some w' => (~ text_property (snd p) -> recovered w w') /\ (text_property (snd p) -> exists s, w' = VStr s) | _, _ => False end) ->
  match last_some o (map (fun c => if column_eqb (c_sub c, c_prop c) (place_column p) then Some (c_state c) else None) l),
        last_some o' (unstacked (df_state l') (place_column p)) with
  | None, None => True
  | Some w, Some w' => (~ text_property (snd p) -> recovered w w') /\ (text_property (snd p) -> exists s, w' = VStr s)
  | _, _ => False
  end.
Proof.
  induction 1 as [|c d l l' R F IH]; intros o o' H; [exact H|]. destruct R as (R1 & R2 & R3 & R4 & R5).
  unfold df_state, unstacked. cbn [map fst snd]. rewrite R1, R2. destruct (column_eqb (c_sub c, c_prop c) (place_column p)) eqn:E; cbn [last_some].
  - apply column_eqb_iff in E. injection E as _ E. rewrite E in *. destruct (c_state d) eqn:Q; [contradiction|..]; apply IH; auto.
  - apply IH. exact H.
Qed.
Lemma table_shows cmds k n o : (n < length cmds)%nat -> last_some None (firstn (S n) (unstacked (df_state cmds) k)) = o -> shown (readme_states cmds) k n o.
Proof.
  intros L H. assert (D : In k (column_keys (df_state cmds)) \/ ~ In k (column_keys (df_state cmds))).
  { destruct (existsb (column_eqb k) (column_keys (df_state cmds))) eqn:X; [left|right].
    - apply existsb_exists in X. destruct X as [b [I0 X]]. apply column_eqb_iff in X. subst b. exact I0.
    - intro I0. assert (Y : existsb (column_eqb k) (column_keys (df_state cmds)) = true) by (apply existsb_exists; exists k; split; [exact I0|apply column_eqb_iff; reflexivity]). congruence. }
  destruct D as [I0|N].
  - apply (shown_cell _ _ _ (ffill None (unstacked (df_state cmds) k))).
    + unfold readme_states. apply in_map_iff. exists k. auto.
    + rewrite <- H. apply ffill_nth. unfold unstacked, df_state. rewrite !map_length. exact L.
  - assert (Z : last_some None (firstn (S n) (unstacked (df_state cmds) k)) = None).
    { apply last_none. apply Forall_forall. intros x X.
      assert (X' : In x (unstacked (df_state cmds) k)) by (rewrite <- (firstn_skipn (S n)); apply in_or_app; left; exact X).
      unfold unstacked in X'. apply in_map_iff in X'. destruct X' as [[a v] [<- I1]]. cbn [fst snd]. destruct (column_eqb a k) eqn:E; [|reflexivity].
      apply column_eqb_iff in E. subst a. exfalso. apply N. apply column_keys_in. apply in_map_iff. exists (k, v). auto. }
    rewrite <- H, Z. apply shown_none. unfold readme_states. rewrite map_map. cbn [fst]. rewrite map_id. exact N.
Qed.
Lemma forall2_firstn {A B} (P : A -> B -> Prop) l m : Forall2 P l m -> forall n, Forall2 P (firstn n l) (firstn n m).
Proof. induction 1; intros [|n]; cbn; constructor; auto. Qed.

(** C100. *)
Theorem C100_recipe : forall unquote so strict none_too cast cuts events cmds file cmds',
  Forall (clean_event unquote) events -> Z.of_nat (length events) <= 2 ^ 63 ->
  to_commands (tenhou_command unquote so) strict events = Ok cmds -> Forall seated events ->
  to_csv cmds = Ok file -> read_clean_csv none_too cast cuts file = Ok cmds' ->
  forall n p, (n < length cmds)%nat -> real_place p ->
  exists state, holds_after (firstn (S n) cmds) p state /\
    match state with
    | None => shown (readme_states cmds') (place_column p) n None
    | Some v => exists w, shown (readme_states cmds') (place_column p) n (Some w) /\
        (~ text_property (snd p) -> recovered v w) /\ (text_property (snd p) -> exists s, w = VStr s)
    end.
Proof.
  intros unquote so strict none_too cast cuts events cmds file cmds' C L H Se W R n p Ln Rp.
  apply (seated_only _ _ _ _ _ Se) in H as Q. clear Se. rename Q into Se. pose proof (converted_filed _ _ _ _ _ C L H Se) as F.
  unfold to_commands in H. peelb H. destruct v as [l x]. apply Ok_inj in H. cbn [fst] in H. subst l.
  destruct (call_all_facts _ _ _ _ _ _ _ _ E) as [A B]. pose proof (call_all_sound _ _ _ _ _ _ _ _ C E) as G.
  pose proof (states_some _ _ _ A G) as Sm.
  assert (Wl : Forall well_addressed cmds).
  { apply Forall_forall. intros c I0. rewrite Forall_forall in B, Se. destruct (B c I0) as [S0 _]. unfold well_addressed.
    destruct (scope_of (c_prop c)); try exact S0. destruct S0 as [i S0]. exists i. split; [exact (Se c I0 i S0)|exact S0]. }
  destruct (C98_commands none_too cast cuts cmds ltac:(intros ->; cbn in Ln; lia) F) as (file2 & cmds2 & W2 & R2 & Hd & Rc).
  rewrite W in W2. apply Ok_inj in W2. subst file2. rewrite R in R2. apply Ok_inj in R2. subst cmds2.
  destruct (back_row none_too cast cuts cmds file cmds' F W R) as [_ Br].
  assert (RR : Forall2 row_read cmds cmds').
  { assert (RN : forall i c d, nth_error cmds i = Some c -> nth_error cmds' i = Some d -> row_read c d).
    { intros i c d Ci Di. pose proof (forall2_nth _ _ _ Hd i c d Ci Di) as (P1 & _ & P3 & _). pose proof (forall2_nth _ _ _ Rc i c d Ci Di) as Q.
      destruct (Br true i c d Ci Di) as (y & _ & _ & V). cbn [field_of] in V. rewrite Forall_forall in Sm. specialize (Sm c (nth_error_In _ _ Ci)).
      split; [exact P3|]. split; [exact P1|]. split; [|split; [intro N; apply (Q N)|intro T; eapply text_read; eassumption]].
      destruct (is_text (c_prop c)) eqn:T.
      - apply text_property_b in T. destruct (text_read _ _ _ T V) as [s ->]. discriminate.
      - eapply recovered_some; [apply Q|exact Sm]. rewrite text_property_b. fold (is_text (c_prop c)). congruence. }
    clear -Hd RN. induction Hd as [|c d l l' S1 Hd IH]; constructor; [apply (RN 0%nat); reflexivity|]. apply IH. intro i. apply (RN (S i)). }
  pose proof (holds_last cmds _ _ [] A mirrors_nil Wl p Rp (S n) ltac:(lia)) as HL. change (iget (x_vals empty_ctx) (key_of p)) with (@None val) in HL. cbn [app] in HL. eexists. split; [exact HL|].
  pose proof (last_read p _ _ (forall2_firstn _ _ _ RR (S n)) None None Logic.I) as K.
  assert (Ln' : (n < length cmds')%nat) by (rewrite <- (forall2_length _ _ _ Hd); exact Ln).
  assert (FU : unstacked (df_state (firstn (S n) cmds')) (place_column p) = firstn (S n) (unstacked (df_state cmds') (place_column p))) by (unfold unstacked, df_state; rewrite !firstn_map; reflexivity).
  rewrite FU in K. destruct (last_some None (map _ (firstn (S n) cmds))) as [v|], (last_some None (firstn (S n) (unstacked _ _))) as [w|] eqn:Q; try contradiction.
  - exists w. split; [apply table_shows; assumption|exact K].
  - apply table_shows; assumption.
Qed.
(** The table: every column once, for a place, with a cell for each row. *)
Theorem C100_columns : forall cmds, NoDup (map fst (readme_states cmds)) /\
  forall k cells, In (k, cells) (readme_states cmds) -> length cells = length cmds /\ exists c, In c cmds /\ k = (c_sub c, c_prop c).
Proof.
  intro cmds. unfold readme_states. split.
  - rewrite map_map. cbn [fst]. rewrite map_id. apply column_keys_nodup.
  - intros k cells H. apply in_map_iff in H. destruct H as [k' [Q H]]. injection Q as -> <-. split; [rewrite ffill_len; unfold unstacked, df_state; rewrite !map_length; reflexivity|].
    apply column_keys_in in H. unfold df_state in H. rewrite map_map in H. apply in_map_iff in H. destruct H as [c [<- I0]]. exists c. auto.
Qed.

(** The record of 85 commands: the discards of seat 1 before and after the last commands. *)
Definition or_empty {A} (r : res (list A)) : list A := match r with Ok l => l | Err _ => [] end.
Definition cells_at (table : list ((sub * view) * list (option val))) (k : sub * view) (ns : list nat) : list (option val) :=
  match find (fun kc => column_eqb (fst kc) k) table with Some kc => map (fun n => nth n (snd kc) None) ns | None => [] end.
Definition example_read : list command := or_empty (bindr (to_csv csv_commands) (read_clean_csv false false [30%nat])).
Example C100_example : length example_read = 85%nat /\ cells_at (readme_states example_read) (SId 1, PV_discard_tiles) [3; 70; 84]%nat = [None; Some (VList []); Some (VList [VStr (t_ "5p")])] /\ cells_at (readme_states example_read) (sub_all, RV_player_count) [0; 40; 84]%nat = [None; Some (VInt 4); Some (VInt 4)].
Proof. vm_compute. auto. Qed.
Print Assumptions C100_recipe.
Print Assumptions C100_columns.
