(** C99 and C100: ordinary texts survive the CSV file of commands and are shown by the recipe of README.md. *)
From Verif Require Import Base Category Tile Parse Text Tenhou Prop_Meld Event Const Reader StateProofs Value Json Universe Translator TenhouCommands
  Transfer Spec_Transfer Spec_Universe UniverseProofs ExecutorProofs Prop_Executor CommandProofs Prop_Commands Record Spec_Record JsonProofs Prop_Record Prop_Flatten
  Csv Spec_Csv CsvProofs CsvValues CsvConverted Prop_Csv Readme Spec_Readme Prop_Readme StateCsv Spec_StateCsv StateCsvProofs Prop_StateCsv Spec_Log Spec_Seats SeatsProofs.
From Coq Require Import String List ZArith Lia Bool.
Import ListNotations.
Open Scope list_scope.
Open Scope Z_scope.

(** C99: a text that looks like no number, truth value or missing value is kept, whatever else is in the file. *)
Theorem C99_words : forall none_too cast cuts cmds file cmds', Forall filed cmds -> to_csv cmds = Ok file -> read_clean_csv none_too cast cuts file = Ok cmds' ->
  forall i c d s, nth_error cmds i = Some c -> nth_error cmds' i = Some d -> text_property (c_prop c) -> clear_text none_too s ->
  (c_value c = VStr s -> c_value d = VStr s) /\ (c_state c = VStr s -> c_state d = VStr s).
Proof.
  intros none_too cast cuts cmds file cmds' F W R i c d s C D T Cl.
  assert (K : forall state, field_of state c = VStr s -> field_of state d = VStr s).
  { intros state V0. destruct (back_row none_too cast cuts cmds file cmds' F W R) as [_ B]. destruct (B state i c d C D) as (x & X & Rd & V).
    assert (TX : vtext (c_prop c) (field_of state c) = s). { unfold vtext. pose proof T as T'. apply text_property_b in T'. fold (is_text (c_prop c)) in T'. rewrite T', V0. reflexivity. }
    rewrite TX in Rd. apply wordy_in in Rd; [|apply clear_wordy; exact Cl]. subst x. rewrite text_cell_text in V by exact T. apply Ok_inj in V. exact V. }
  split; [exact (K false)|exact (K true)].
Qed.

Lemma last_related p (P : val -> val -> Prop) l l' :
  Forall2 (fun c d => c_sub d = c_sub c /\ c_prop d = c_prop c /\ c_state d <> VNone /\ (c_prop c = snd p -> P (c_state c) (c_state d))) l l' ->
  forall o o', (match o, o' with None, None => True | Some w, Some w' => P w w' | _, _ => False end) ->
  match last_some o (map (fun c => if column_eqb (c_sub c, c_prop c) (place_column p) then Some (c_state c) else None) l),
        last_some o' (unstacked (df_state l') (place_column p)) with
  | None, None => True
  | Some w, Some w' => P w w'
  | _, _ => False
  end.
Proof.
  induction 1 as [|c d l l' R F IH]; intros o o' H; [exact H|]. destruct R as (R1 & R2 & R3 & R4).
  unfold df_state, unstacked. cbn [map fst snd]. rewrite R1, R2. destruct (column_eqb (c_sub c, c_prop c) (place_column p)) eqn:E; cbn [last_some].
  - apply column_eqb_iff in E. injection E as _ E. rewrite E in *. destruct (c_state d) eqn:Q; [contradiction|..]; apply IH; auto.
  - apply IH. exact H.
Qed.
(** C100, for texts: the table of the recipe shows every such text that is the state of a property. *)
Theorem C100_texts : forall unquote so strict none_too cast cuts events cmds file cmds',
  Forall (clean_event unquote) events -> Z.of_nat (length events) <= 2 ^ 63 ->
  to_commands (tenhou_command unquote so) strict events = Ok cmds -> Forall seated events ->
  to_csv cmds = Ok file -> read_clean_csv none_too cast cuts file = Ok cmds' ->
  forall n p s, (n < length cmds)%nat -> text_property (snd p) -> holds_after (firstn (S n) cmds) p (Some (VStr s)) -> clear_text none_too s ->
  shown (readme_states cmds') (place_column p) n (Some (VStr s)).
Proof.
  intros unquote so strict none_too cast cuts events cmds file cmds' C L H Se W R n p s Ln Tp Ho Cl. pose proof (holds_real _ _ _ Ho) as Rp.
  apply (seated_only _ _ _ _ _ Se) in H as Q. clear Se. rename Q into Se. pose proof (converted_filed _ _ _ _ _ C L H Se) as F.
  unfold to_commands in H. peelb H. destruct v as [l x]. apply Ok_inj in H. cbn [fst] in H. subst l.
  destruct (call_all_facts _ _ _ _ _ _ _ _ E) as [A B]. pose proof (call_all_sound _ _ _ _ _ _ _ _ C E) as G.
  pose proof (states_some _ _ _ A G) as Sm.
  assert (Wl : Forall well_addressed cmds).
  { apply Forall_forall. intros c I0. rewrite Forall_forall in B, Se. destruct (B c I0) as [S0 _]. unfold well_addressed.
    destruct (scope_of (c_prop c)); try exact S0. destruct S0 as [i S0]. exists i. split; [exact (Se c I0 i S0)|exact S0]. }
  destruct (C98_commands none_too cast cuts cmds ltac:(intros ->; cbn in Ln; lia) F) as (file2 & cmds2 & W2 & R2 & Hd & Rc).
  rewrite W in W2. apply Ok_inj in W2. subst file2. rewrite R in R2. apply Ok_inj in R2. subst cmds2.
  destruct (back_row none_too cast cuts cmds file cmds' F W R) as [_ Br].
  set (P := fun v w : val => forall s, v = VStr s -> clear_text none_too s -> w = VStr s).
  assert (RR : Forall2 (fun c d => c_sub d = c_sub c /\ c_prop d = c_prop c /\ c_state d <> VNone /\ (c_prop c = snd p -> P (c_state c) (c_state d))) cmds cmds').
  { assert (RN : forall i c d, nth_error cmds i = Some c -> nth_error cmds' i = Some d -> c_sub d = c_sub c /\ c_prop d = c_prop c /\ c_state d <> VNone /\ (c_prop c = snd p -> P (c_state c) (c_state d))).
    { intros i c d Ci Di. pose proof (forall2_nth _ _ _ Hd i c d Ci Di) as (P1 & _ & P3 & _). pose proof (forall2_nth _ _ _ Rc i c d Ci Di) as Q.
      destruct (Br true i c d Ci Di) as (y & _ & _ & V). cbn [field_of] in V. rewrite Forall_forall in Sm. specialize (Sm c (nth_error_In _ _ Ci)).
      split; [exact P3|]. split; [exact P1|]. split.
      - destruct (is_text (c_prop c)) eqn:T.
        + apply text_property_b in T. destruct (text_read _ _ _ T V) as [t ->]. discriminate.
        + eapply recovered_some; [apply Q|exact Sm]. rewrite text_property_b. fold (is_text (c_prop c)). congruence.
      - intros Pp t Ct Clt. rewrite <- Pp in Tp. apply (C99_words none_too cast cuts cmds file cmds' F W R i c d t Ci Di Tp Clt). exact Ct. }
    clear -Hd RN. induction Hd as [|c d l l' S1 Hd IH]; constructor; [apply (RN 0%nat); reflexivity|]. apply IH. intro i. apply (RN (S i)). }
  pose proof (holds_last cmds _ _ [] A mirrors_nil Wl p Rp (S n) ltac:(lia)) as HL. change (iget (x_vals empty_ctx) (key_of p)) with (@None val) in HL. cbn [app] in HL.
  pose proof (holds_det _ _ _ _ Ho HL) as Eq.
  pose proof (last_related p P _ _ (forall2_firstn _ _ _ RR (S n)) None None Logic.I) as K.
  assert (Ln' : (n < length cmds')%nat) by (rewrite <- (forall2_length _ _ _ Hd); exact Ln).
  assert (FU : unstacked (df_state (firstn (S n) cmds')) (place_column p) = firstn (S n) (unstacked (df_state cmds') (place_column p))) by (unfold unstacked, df_state; rewrite !firstn_map; reflexivity).
  rewrite FU, <- Eq in K. apply table_shows; [assumption|]. destruct (last_some None (firstn (S n) (unstacked _ _))) as [w|]; [|contradiction].
  f_equal. apply K; auto.
Qed.
(** An ordinary name is such a text; a name of digits is not. *)
Example clear_text_case : clear_text true (t_ "ASAPIN") /\ ~ clear_text true (t_ "1e5").
Proof.
  split.
  - split; [exists 65; vm_compute; repeat split; intuition discriminate|]. split; [vm_compute; intuition discriminate|]. rewrite looks_missing_b. vm_compute. discriminate.
  - intros ((c & I0 & N & _) & _). vm_compute in I0. apply N. vm_compute. intuition.
Qed.
Example C100_texts_case : cells_at (readme_states example_read) (SId 0, PV_name) [0; 84]%nat = [None; Some (VStr (t_ "A"))].
Proof. vm_compute. reflexivity. Qed.
Print Assumptions C99_words.
Print Assumptions C100_texts.
