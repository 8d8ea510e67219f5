(** C101 and C102: the CSV file of the table of states. *)
From Verif Require Import Base Category Tile Parse Text Tenhou Prop_Meld Event Const Reader StateProofs Value Json Universe Translator TenhouCommands
  Transfer Spec_Transfer Spec_Universe UniverseProofs ExecutorProofs Prop_Executor CommandProofs Prop_Commands Record Spec_Record JsonProofs Prop_Record Prop_Flatten
  Csv Spec_Csv CsvProofs CsvValues CsvConverted Prop_Csv Readme Spec_Readme Prop_Readme StateCsv Spec_StateCsv StateCsvProofs Spec_Log Spec_Seats SeatsProofs.
From Coq Require Import String List ZArith Lia Bool.
Import ListNotations.
Open Scope list_scope.
Open Scope Z_scope.

(** ** The rows. *)
Lemma runs_mapM {A B} (f : nat -> A -> res B) (P : A -> B -> Prop) l : (forall a, In a l -> exists r, runs (fun fuel => f fuel a) r /\ P a r) ->
  exists rs, runs (fun fuel => mapM (f fuel) l) rs /\ Forall2 P l rs.
Proof.
  induction l as [|a l IH]; intro H; [exists []; split; [exists O; reflexivity|constructor]|].
  destruct (H a (or_introl eq_refl)) as [r [[N1 R] Pr]]. destruct IH as [rs [[N2 Rs] Ps]]; [intros b I0; apply H; right; exact I0|].
  exists (r :: rs). split; [|constructor; assumption]. exists (Nat.max N1 N2). intros fuel L. cbn [mapM]. rewrite R by lia. cbn [bindr]. rewrite Rs by lia. reflexivity.
Qed.
Lemma last_some_in l : forall o v, last_some o l = Some v -> o = Some v \/ In (Some v) l.
Proof. induction l as [|[w|] l IH]; intros o v H; cbn [last_some] in H; [auto| |]; destruct (IH _ _ H) as [E|E]; cbn [In]; auto. Qed.
Lemma holds_real cs p v : holds_after cs p (Some v) -> real_place p.
Proof.
  intro H. remember (Some v) as o eqn:E. revert v E. induction H as [p|cs c p o N H IH|cs c p o w A H IH F]; intros v E; [discriminate| |].
  - eapply IH. exact E.
  - eapply addressed_real. exact A.
Qed.
(** What a place holds is the state of a command. *)
Lemma holds_state cmds s' n p v : states_ok [] cmds s' -> Forall well_addressed cmds -> (n <= length cmds)%nat -> holds_after (firstn n cmds) p (Some v) ->
  exists c, In c cmds /\ c_prop c = snd p /\ v = c_state c.
Proof.
  intros A W L H. pose proof (holds_real _ _ _ H) as R. pose proof (holds_last cmds _ _ [] A mirrors_nil W p R n L) as HL. cbn [app] in HL.
  pose proof (holds_det _ _ _ _ H HL) as E. symmetry in E. apply last_some_in in E. destruct E as [E|E]; [discriminate|]. apply in_map_iff in E. destruct E as [c [E I0]].
  destruct (column_eqb (c_sub c, c_prop c) (place_column p)) eqn:K; [|discriminate]. injection E as <-. apply column_eqb_iff in K. injection K as _ K.
  exists c. split; [|auto]. rewrite <- (firstn_skipn n cmds). apply in_or_app. left. exact I0.
Qed.
Definition row_fits (cmds : list command) (n : nat) (row : state_row) : Prop :=
  NoDup (map fst row) /\ forall q t, In (q, t) row <->
    (q = time_path /\ exists c, nth_error cmds n = Some c /\ t = VStr (time_text (c_time c))) \/
    (exists p v, real_place p /\ q = path_of p /\ holds_after (firstn (S n) cmds) p (Some v) /\ prop_call [v] (snd p) M_to_str = Ok t).
Lemma rows_exist cmds snaps h : replay false cmds snaps h None -> length snaps = length cmds ->
  (forall n p l, text_property (snd p) -> ~ holds_after (firstn (S n) cmds) p (Some (VList l))) ->
  exists rows, runs (fun fuel => state_rows fuel cmds) rows /\ length rows = length cmds /\ forall n row, nth_error rows n = Some row -> row_fits cmds n row.
Proof.
  intros R L NL.
  assert (X : exists rows, runs (fun fuel => mapM (flatten fuel h) snaps) rows /\ Forall2 (fun a row => forall n, nth_error snaps n = Some a -> True) snaps rows /\
    forall n a row, nth_error snaps n = Some a -> nth_error rows n = Some row -> row_fits cmds n row).
  { assert (E : forall n a, nth_error snaps n = Some a -> exists row, runs (fun fuel => flatten fuel h a) row /\ row_fits cmds n row).
    { intros n a A. assert (Ln : (n < length cmds)%nat) by (rewrite <- L; apply nth_error_Some; congruence).
      destruct (nth_error cmds n) as [c|] eqn:C; [|apply nth_error_None in C; lia].
      destruct (C62_cells false cmds snaps h None n a c R A C (NL n)) as (cells & Ru & ND & I0). exists cells. split; [exact Ru|]. split; [exact ND|].
      intros q t. rewrite I0. split.
      - intros [[-> ->]|K]; [left; split; [auto|exists c; rewrite C; auto]|right; exact K].
      - intros [[-> [c' [C' ->]]]|K]; [left; split; [auto|congruence]|right; exact K]. }
    clear R L NL. generalize (row_fits cmds) E. clear E. intros P E. revert P E. induction snaps as [|a snaps IH]; intros P E.
    - exists []. split; [exists O; reflexivity|]. split; [constructor|]. intros [|n] a row H; discriminate H.
    - destruct (E O a eq_refl) as [row [[N1 R1] P1]]. destruct (IH (fun n => P (S n)) (fun n b H => E (S n) b H)) as [rows [[N2 R2] [F P2]]].
      exists (row :: rows). split; [|split].
      + exists (Nat.max N1 N2). intros fuel Lf. cbn [mapM]. rewrite R1 by lia. cbn [bindr]. rewrite R2 by lia. reflexivity.
      + constructor; [auto|]. eapply forall2_weaken; [|exact F]. auto.
      + intros [|n] b r Hb Hr; cbn [nth_error] in *; [injection Hb as <-; injection Hr as <-; exact P1|eapply P2; eassumption]. }
  destruct X as [rows [[N Ru] [F P]]]. exists rows. split; [|split].
  - destruct R as [M R]. exists (Nat.max N M). intros fuel Lf. unfold state_rows. rewrite R by lia. apply Ru. lia.
  - rewrite <- L. symmetry. exact (forall2_length _ _ _ F).
  - intros n row H. destruct (nth_error snaps n) as [a|] eqn:A; [eapply P; eassumption|]. apply nth_error_None in A. rewrite (forall2_length _ _ _ F) in A. apply nth_error_None in A. unfold state_row in H. rewrite A in H. discriminate.
Qed.

Lemma path_inj p p' : path_of p = path_of p' -> p = p'.
Proof. unfold path_of. destruct p as [[i|] v], p' as [[j|] w]; cbn [fst snd]; intro H; try discriminate H; injection H; intros; subst; reflexivity. Qed.
Lemma path_not_time p : path_of p <> time_path.
Proof. unfold path_of, time_path. destruct (fst p); discriminate. Qed.

(** ** Cells. *)
Lemma dumps_head v : hd 0 (dumps v) <> 32.
Proof.
  destruct v as [|b|n|s|l]; [vm_compute; discriminate|destruct b; vm_compute; discriminate| |vm_compute; discriminate|vm_compute; discriminate].
  cbn [dumps]. pose proof (num_chars n) as C. pose proof (num_nonempty n) as E. destruct (num_repr n) as [|c r]; [contradiction|]. cbn [hd]. cbn [forallb] in C.
  apply andb_true_iff in C. destruct C as [C _]. intros ->. discriminate C.
Qed.
Definition good (p : view) (t : text) : Prop := t = [] \/ exists v, writable p v /\ t = seen (vtext p v).
Lemma json_seen p v : is_text p = false -> seen (vtext p v) = dumps v.
Proof. intro E. unfold vtext. rewrite E. apply seen_head. apply dumps_head. Qed.
Lemma empty_cell none_too x : reading_in none_too [] x -> x = CNaN.
Proof. intros [[[_ H]|[M _]]|[M _]]; [exact H|destruct none_too; discriminate M..]. Qed.
Lemma good_cell none_too p t x : good p t -> reading_in none_too t x -> exists w, cell_value p x = Ok w.
Proof.
  intros [->|[v [W ->]]] R.
  - apply empty_cell in R. subst x. rewrite nan_value. eauto.
  - destruct (is_text p) eqn:E; [apply text_cell, text_property_b; exact E|]. rewrite json_seen in R by exact E.
    apply (readable_cell none_too p v x W). unfold vtext. rewrite E. exact R.
Qed.
(** The text of a place in a row. *)
Lemma cell_of_place cmds n row p o : row_fits cmds n row -> real_place p -> holds_after (firstn (S n) cmds) p o ->
  (forall v, o = Some v -> writable (snd p) v) -> cell_written (table_cell (path_of p) row) = match o with Some v => vtext (snd p) v | None => [] end.
Proof.
  intros [ND F] R H W. destruct o as [v|].
  - rewrite (table_cell_in (path_of p) row (VStr (vtext (snd p) v)) ND); [reflexivity|]. apply F. right. exists p, v. split; [exact R|]. split; [reflexivity|].
    split; [exact H|apply written_value; apply W; reflexivity].
  - rewrite table_cell_none; [reflexivity|]. intro I0. apply in_map_iff in I0. destruct I0 as [[q t] [Q I0]]. cbn [fst] in Q. subst q. apply F in I0.
    destruct I0 as [[X _]|(p' & v & R' & Q & H' & _)]; [exact (path_not_time p X)|]. apply path_inj in Q. subst p'. pose proof (holds_det _ _ _ _ H H'). discriminate.
Qed.
Lemma cell_of_time cmds n row c : row_fits cmds n row -> nth_error cmds n = Some c -> cell_written (table_cell time_path row) = time_text (c_time c).
Proof.
  intros [ND F] C. rewrite (table_cell_in time_path row (VStr (time_text (c_time c))) ND); [reflexivity|]. apply F. left. split; [reflexivity|]. exists c. auto.
Qed.

(** ** Words. *)
Lemma in_skip c s : space c = false -> In c s -> In c (skip_space s).
Proof. intros S0. induction s as [|d s IH]; cbn [skip_space]; [auto|]. intros [->|H]; [rewrite S0; left; reflexivity|]. destruct (space d); [auto|right; exact H]. Qed.
Lemma in_strip c s : space c = false -> In c s -> In c (strip s).
Proof. intros S0 H. unfold strip. apply in_rev. rewrite rev_involutive. apply in_skip; [exact S0|]. apply -> in_rev. apply in_skip; assumption. Qed.
Lemma in_sign c s : c <> 45 -> c <> 43 -> In c s -> In c (snd (take_sign s)).
Proof.
  intros A B H. destruct s as [|d s]; [exact H|]. cbn [take_sign]. destruct (Z.eqb_spec d 45); [destruct H; [congruence|exact H]|]. destruct (Z.eqb_spec d 43); [destruct H; [congruence|exact H]|exact H].
Qed.
Lemma in_span c s a b : ch_digit c = false -> span_digits s = (a, b) -> In c s -> In c b.
Proof.
  revert a b. induction s as [|d s IH]; intros a b D H I0; [destruct I0|]. cbn [span_digits] in H. destruct (ch_digit d) eqn:E.
  - destruct (span_digits s) as [a' b']. injection H as <- <-. destruct I0 as [->|I0]; [congruence|]. eapply IH; eauto.
  - injection H as <- <-. exact I0.
Qed.
Lemma lower_in c l : In c (map lower l) -> exists d, In d l /\ c = lower d.
Proof. intro H. apply in_map_iff in H. destruct H as [d [<- H]]. eauto. Qed.
Lemma clear_wordy none_too s : clear_text none_too s -> wordy none_too s.
Proof.
  intros ((c & I0 & NC & NB & NS) & BO & M).
  assert (S0 : space c = false). { unfold space. apply orb_false_iff. split; [apply Z.eqb_neq; exact NB|]. apply andb_false_iff. destruct (Z.leb_spec 9 c); [|auto]. right. apply Z.leb_gt. lia. }
  assert (D0 : ch_digit c = false). { unfold ch_digit. apply andb_false_iff. destruct (Z.leb_spec 48 c); [|auto]. right. apply Z.leb_gt. destruct (Z.le_gt_cases c 57); [|lia]. exfalso. apply NC.
    assert (c = 48 \/ c = 49 \/ c = 50 \/ c = 51 \/ c = 52 \/ c = 53 \/ c = 54 \/ c = 55 \/ c = 56 \/ c = 57) by lia. vm_compute. intuition. }
  assert (N : forall d, In d (t_ "+-.eEiInNfFtTyY") -> c <> d). { intros d Hd ->. apply NC. vm_compute in Hd. vm_compute. intuition. }
  pose proof (in_sign c (strip s) (N 45 ltac:(vm_compute; tauto)) (N 43 ltac:(vm_compute; tauto)) (in_strip c s S0 I0)) as I1.
  split; [rewrite looks_missing_b in M; apply not_true_is_false; exact M|]. split; [|split].
  - unfold int_token. destruct (take_sign (strip s)) as [neg d]. cbn [snd] in I1. destruct d as [|d0 d]; [destruct I1|].
    destruct (forallb ch_digit (d0 :: d)) eqn:F; [|reflexivity]. rewrite forallb_forall in F. rewrite (F c I1) in D0. discriminate.
  - unfold float_token. destruct (take_sign (strip s)) as [neg d]. cbn [snd] in I1. destruct (span_digits d) as [ip r1] eqn:S1. pose proof (in_span c d ip r1 D0 S1 I1) as I2.
    assert (X : exists fp r2, (match r1 with c0 :: r => if c0 =? 46 then span_digits r else ([], r1) | [] => ([], []) end) = (fp, r2) /\ In c r2).
    { destruct r1 as [|c0 r]; [destruct I2|]. destruct (Z.eqb_spec c0 46) as [->|].
      - destruct (span_digits r) as [fp r2] eqn:S2. exists fp, r2. split; [reflexivity|]. eapply in_span; [exact D0|exact S2|]. destruct I2 as [I2|I2]; [|exact I2]. exfalso. apply (N 46); [vm_compute; tauto|congruence].
      - eauto. }
    destruct X as (fp & r2 & -> & I3).
    assert (EX : forall e, scan_exp r2 <> (Some e, [])).
    { intros e E. unfold scan_exp in E. destruct r2 as [|x r]; [discriminate|]. destruct ((x =? 101) || (x =? 69)) eqn:Q; [|discriminate].
      assert (I4 : In c r). { destruct I3 as [<-|I3]; [|exact I3]. exfalso. apply orb_true_iff in Q. rewrite !Z.eqb_eq in Q. destruct Q as [Q|Q]; [apply (N 101)|apply (N 69)]; try (vm_compute; tauto); exact Q. }
      assert (Y : exists sg r1', (match r with d0 :: r' => if d0 =? 45 then (-1, r') else if d0 =? 43 then (1, r') else (1, r) | [] => (1, r) end) = (sg, r1') /\ In c r1').
      { destruct r as [|d0 r']; [destruct I4|]. destruct (Z.eqb_spec d0 45) as [->|]; [|destruct (Z.eqb_spec d0 43) as [->|]].
        - exists (-1), r'. split; [reflexivity|]. destruct I4 as [I4|I4]; [|exact I4]. exfalso. apply (N 45); [vm_compute; tauto|congruence].
        - exists 1, r'. split; [reflexivity|]. destruct I4 as [I4|I4]; [|exact I4]. exfalso. apply (N 43); [vm_compute; tauto|congruence].
        - eauto. }
      destruct Y as (sg & r1' & Y & I5). rewrite Y in E. destruct (span_digits r1') as [ds r'] eqn:S3. pose proof (in_span c _ _ _ D0 S3 I5) as I6. destruct ds; [discriminate|]. injection E as _ ->. destruct I6. }
    assert (IN : forall w, In w (map t_ ["inf"; "infinity"]%string) -> text_eqb (map lower d) w = false).
    { intros w Hw. destruct (text_eqb (map lower d) w) eqn:Q; [|reflexivity]. exfalso. apply text_eqb_iff in Q. pose proof (in_map lower d c I1) as I4. rewrite Q in I4.
      assert (K : In (lower c) (t_ "infty")). { cbn in Hw. destruct Hw as [<-|[<-|[]]]; vm_compute in I4; vm_compute; intuition. }
      unfold lower in K. destruct ((65 <=? c) && (c <=? 90)) eqn:Z0.
      - apply NC. change (t_ "infty") with [105; 110; 102; 116; 121] in K. cbn [In] in K. assert (c = 73 \/ c = 78 \/ c = 70 \/ c = 84 \/ c = 89) as V by lia. clear -V. vm_compute. intuition.
      - apply NC. vm_compute in K. vm_compute. intuition. }
    assert (INF : (text_eqb (map lower d) (t_ "inf") || text_eqb (map lower d) (t_ "infinity")) = false) by (rewrite !IN by (cbn; tauto); reflexivity).
    destruct (ip ++ fp) as [|d0 ds]; [rewrite INF; reflexivity|]. destruct r2 as [|x r2]; [destruct I3|].
    destruct (scan_exp (x :: r2)) as [[e|] [|y r]] eqn:Q; try reflexivity. exfalso. exact (EX e eq_refl).
  - unfold bool_token. assert (B : forall l, (forall w, In w l -> In w (map t_ ["True"; "TRUE"; "true"; "False"; "FALSE"; "false"]%string)) -> existsb (text_eqb s) l = false).
    { intros l Hl. destruct (existsb (text_eqb s) l) eqn:Q; [|reflexivity]. exfalso. apply existsb_exists in Q. destruct Q as [w [Iw Q]]. apply text_eqb_iff in Q. subst w. apply BO. apply Hl. exact Iw. }
    rewrite !B; [reflexivity| |]; intros w Hw; cbn in Hw; cbn; tauto.
Qed.

(** ** The table read back. *)
Lemma list_same {T} : forall l m : list T, (forall n, nth_error l n = nth_error m n) -> l = m.
Proof.
  induction l as [|a l IH]; intros [|b m] H; [reflexivity|specialize (H O); discriminate H|specialize (H O); discriminate H|].
  pose proof (H O) as H0. cbn in H0. injection H0 as ->. f_equal. apply IH. intro n. exact (H (S n)).
Qed.
Lemma mapM_each {X Y} (f : X -> res Y) l : forall r, mapM f l = Ok r -> length r = length l /\ forall n x, nth_error l n = Some x -> exists y, f x = Ok y /\ nth_error r n = Some y.
Proof.
  induction l as [|a l IH]; intros r H; cbn [mapM] in H; [apply Ok_inj in H; subst; split; [reflexivity|intros [|n] x K; discriminate K]|]. peelb H. apply Ok_inj in H. subst r.
  destruct (IH _ eq_refl) as [I1 I2]. split; [cbn; congruence|]. intros [|n] x K; cbn [nth_error] in *; [injection K as <-; eauto|exact (I2 n x K)].
Qed.
Section Table.
Context (none_too cast : bool) (cuts : list nat) (cmds : list command) (s' : istate) (snaps : list nat) (h : edict).
Context (NE : cmds <> []) (A : states_ok [] cmds s') (Wl : Forall well_addressed cmds) (F : Forall filed cmds)
  (R : replay false cmds snaps h None) (L : length snaps = length cmds).
Lemma held_writable n p v : (n <= length cmds)%nat -> holds_after (firstn n cmds) p (Some v) -> writable (snd p) v.
Proof.
  intros Ln H. destruct (holds_state cmds s' n p v A Wl Ln H) as (c & I0 & P & ->). rewrite Forall_forall in F. destruct (F c I0) as (_ & W & _). rewrite <- P. exact W.
Qed.
Lemma held_some n p : (n <= length cmds)%nat -> real_place p -> exists o, holds_after (firstn n cmds) p o.
Proof. intros Ln Rp. eexists. exact (holds_last cmds _ _ [] A mirrors_nil Wl p Rp n Ln). Qed.
Definition written (p : place) (o : option val) : text := match o with Some v => seen (vtext (snd p) v) | None => [] end.
Definition table_fits (table : list (list key * column)) : Prop :=
  NoDup (map fst table) /\
  (forall p col, real_place p -> In (path_of p, col) table -> exists l, col = CValues l /\ length l = length cmds /\
     forall n o, (n < length cmds)%nat -> holds_after (firstn (S n) cmds) p o -> exists x w, reading_in none_too (written p o) x /\ cell_value (snd p) x = Ok w /\ nth_error l n = Some w) /\
  (forall p n v, (n < length cmds)%nat -> holds_after (firstn (S n) cmds) p (Some v) -> exists col, In (path_of p, col) table) /\
  In (time_path, CCells (map (fun c => CInt (time_of c)) cmds)) table.
Lemma table_read : exists rows table, runs (fun fuel => state_rows fuel cmds) rows /\ length rows = length cmds /\
  read_state_csv none_too cast cuts (state_csv rows) = Ok table /\ table_fits table.
Proof.
  destruct (rows_exist cmds snaps h R L) as (rows & Ru & Lr & Fit).
  { intros n p l T H. destruct (Nat.le_gt_cases (S n) (length cmds)) as [G|G].
    - destruct (held_writable (S n) p _ G H) as [_ W]. destruct (W T) as [NL _]. apply NL. exists l. reflexivity.
    - rewrite firstn_all2 in H by lia. rewrite <- (firstn_all cmds) in H. destruct (held_writable (length cmds) p _ ltac:(lia) H) as [_ W]. destruct (W T) as [NL _]. apply NL. exists l. reflexivity. }
  destruct (table_columns_spec rows) as [ND IC].
  assert (Row : forall n, (n < length cmds)%nat -> exists row c, nth_error rows n = Some row /\ nth_error cmds n = Some c /\ row_fits cmds n row).
  { intros n Ln. destruct (nth_error rows n) as [row|] eqn:E; [|apply nth_error_None in E; lia]. destruct (nth_error cmds n) as [c|] eqn:C; [|apply nth_error_None in C; lia]. exists row, c. auto. }
  assert (RowOf : forall row, In row rows -> exists n c, (n < length cmds)%nat /\ nth_error rows n = Some row /\ nth_error cmds n = Some c /\ row_fits cmds n row).
  { intros row I0. apply In_nth_error in I0. destruct I0 as [n E]. assert (Ln : (n < length cmds)%nat) by (rewrite <- Lr; apply nth_error_Some; congruence).
    destruct (Row n Ln) as (row' & c & E' & C & Ft). assert (row' = row) by congruence. subst row'. exists n, c. auto. }
  assert (PO : Forall path_ok (table_columns rows)).
  { apply Forall_forall. intros q Iq. apply IC in Iq. destruct Iq as [row [Ir Iq]]. destruct (RowOf row Ir) as (n & c & _ & _ & _ & [_ Ft]). apply in_map_iff in Iq. destruct Iq as [[q' t] [Q Iq]].
    cbn [fst] in Q. subst q'. apply Ft in Iq. destruct Iq as [[-> _]|(p & v & Rp & -> & _)]; [left; reflexivity|right; eauto]. }
  assert (TimeIn : In time_path (table_columns rows)).
  { assert (L0 : (0 < length cmds)%nat) by (destruct cmds; [contradiction|cbn; lia]). destruct (Row O L0) as (row & c & E & C & [_ Ft]). apply IC. exists row.
    split; [eapply nth_error_In; exact E|]. apply in_map_iff. exists (time_path, VStr (time_text (c_time c))). split; [reflexivity|]. apply Ft. left. split; [reflexivity|]. exists c. auto. }
  assert (CellP : forall p n row o, real_place p -> (n < length cmds)%nat -> nth_error rows n = Some row -> holds_after (firstn (S n) cmds) p o ->
    cell_written (table_cell (path_of p) row) = match o with Some v => vtext (snd p) v | None => [] end).
  { intros p n row o Rp Ln E H. destruct (Row n Ln) as (row' & c & E' & C & Ft). assert (row' = row) by congruence. subst row'. apply (cell_of_place cmds n row p o Ft Rp H).
    intros v ->. apply (held_writable (S n) p v ltac:(lia) H). }
  assert (TimeT : map (fun row => cell_written (table_cell time_path row)) rows = map str_int (map time_of cmds)).
  { apply list_same. intro n. rewrite !nth_error_map. destruct (Nat.lt_ge_cases n (length cmds)) as [Ln|G].
    - destruct (Row n Ln) as (row & c & E & C & Ft). rewrite E, C. cbn [option_map]. f_equal. rewrite (cell_of_time cmds n row c Ft C).
      rewrite Forall_forall in F. destruct (F c (nth_error_In _ _ C)) as (_ & _ & _ & t & T & _). unfold time_of. rewrite T. reflexivity.
    - rewrite (proj2 (nth_error_None cmds n) G), (proj2 (nth_error_None rows n)) by lia. reflexivity. }
  assert (Good : forall p q row, q = path_of p -> real_place p -> In row rows -> good (snd p) (seen (cell_written (table_cell q row)))).
  { intros p q row -> Rp Ir. destruct (RowOf row Ir) as (n & c & Ln & E & C & Ft). destruct (held_some (S n) p ltac:(lia) Rp) as [o H]. rewrite (CellP p n row o Rp Ln E H).
    destruct o as [v|]; [right; exists v; split; [apply (held_writable (S n) p v ltac:(lia) H)|reflexivity]|left; reflexivity]. }
  destruct (file_read none_too cast cuts rows) as (index & table & Rd & NI & T2).
  - intros ->. destruct cmds; [contradiction|discriminate Lr].
  - intro K. rewrite K in TimeIn. destruct TimeIn.
  - exact PO.
  - intros row q Ir Iq. rewrite Forall_forall in PO. destruct (RowOf row Ir) as (n & c & Ln & E & C & Ft). destruct (PO q Iq) as [->|[p [Rp ->]]].
    + rewrite (cell_of_time cmds n row c Ft C). destruct (c_time c); cbn [time_text]; [apply number_field|vm_compute; intuition lia].
    + destruct (held_some (S n) p ltac:(lia) Rp) as [o H]. rewrite (CellP p n row o Rp Ln E H). destruct o as [v|]; [|intros []]. apply written_cr. apply (held_writable (S n) p v ltac:(lia) H).
  - intros q Iq. rewrite Forall_forall in PO. destruct (PO q Iq) as [->|[p [Rp ->]]]; [eexists; reflexivity|]. unfold state_series_apply. rewrite last_path.
    destruct (mapM_total (cell_value (snd p)) (fun _ _ => True) (read_column none_too cast cuts (texts_in (path_of p) rows))) as [ys [M _]].
    + intros x Ix. pose proof (read_reading none_too cast cuts (texts_in (path_of p) rows)) as RR. apply In_nth_error in Ix. destruct Ix as [n Ix].
      destruct (nth_error (texts_in (path_of p) rows) n) as [t|] eqn:Et.
      * apply (good_cell none_too (snd p) t x); [|exact (forall2_nth _ _ _ RR n t x Et Ix)]. apply nth_error_In in Et. unfold texts_in in Et. apply in_map_iff in Et. destruct Et as [row [<- Ir]].
        apply (Good p); auto.
      * apply nth_error_None in Et. rewrite (forall2_length _ _ _ RR) in Et. apply nth_error_None in Et. congruence.
    + rewrite M. eexists. reflexivity.
  - exists rows, (index :: table). split; [exact Ru|]. split; [exact Lr|]. split; [exact Rd|].
    assert (MF : map fst table = table_columns rows). { clear -T2. induction T2 as [|q e l m [E _] T2 IH]; [reflexivity|]. cbn [map]. rewrite E, IH. reflexivity. }
    assert (Ent : forall q col, In (q, col) table -> state_series_apply q (read_column none_too cast cuts (texts_in q rows)) = Ok col).
    { intros q col I0. clear -T2 I0. induction T2 as [|q' e l m [E1 E2] T2 IH]; [destruct I0|]. destruct I0 as [->|I0]; [cbn [fst snd] in *; subst q'; exact E2|exact (IH I0)]. }
    assert (Has : forall q, In q (table_columns rows) -> exists col, In (q, col) table).
    { intros q Iq. rewrite <- MF in Iq. apply in_map_iff in Iq. destruct Iq as [[q' col] [<- I0]]. eauto. }
    split; [|split; [|split]].
    + cbn [map]. rewrite MF. constructor; [|exact ND]. intro I0. apply NI. rewrite Forall_forall in PO. apply PO. exact I0.
    + intros p col Rp [I0|I0]; [exfalso; apply NI; rewrite I0; right; exists p; auto|]. apply Ent in I0. unfold state_series_apply in I0. rewrite last_path in I0. peelb I0. apply Ok_inj in I0. subst col.
      exists v. split; [reflexivity|]. pose proof (read_reading none_too cast cuts (texts_in (path_of p) rows)) as RR.
      destruct (mapM_each _ _ _ E) as [LE EE].
      assert (LC : length (read_column none_too cast cuts (texts_in (path_of p) rows)) = length cmds).
      { rewrite <- (forall2_length _ _ _ RR). unfold texts_in. rewrite map_length. exact Lr. }
      split; [lia|]. intros n o Ln H. destruct (Row n Ln) as (row & c & Er & C & Ft).
      assert (Et : nth_error (texts_in (path_of p) rows) n = Some (written p o)).
      { unfold texts_in. rewrite nth_error_map, Er. cbn [option_map]. rewrite (CellP p n row o Rp Ln Er H). destruct o; reflexivity. }
      destruct (forall2_some _ _ _ RR n _ Et) as [x X]. pose proof (forall2_nth _ _ _ RR n _ x Et X) as Rx.
      destruct (EE n x X) as (w & W1 & W2). exists x, w. auto.
    + intros p n v Ln H. destruct (Row n Ln) as (row & c & Er & C & [_ Ft]). pose proof (holds_real _ _ _ H) as Rp. destruct (Has (path_of p)) as [col I0].
      * apply IC. exists row. split; [eapply nth_error_In; exact Er|]. apply in_map_iff. exists (path_of p, VStr (vtext (snd p) v)). split; [reflexivity|]. apply Ft. right. exists p, v.
        split; [exact Rp|]. split; [reflexivity|]. split; [exact H|]. apply written_value. apply (held_writable (S n) p v ltac:(lia) H).
      * exists col. right. exact I0.
    + right. destruct (Has time_path TimeIn) as [col I0]. pose proof (Ent _ _ I0) as K. unfold state_series_apply in K. cbn [last time_path] in K. cbv iota in K. apply Ok_inj in K. subst col.
      assert (Q : read_column none_too cast cuts (texts_in time_path rows) = map (fun c => CInt (time_of c)) cmds); [|rewrite Q in I0; exact I0].
      assert (TT : texts_in time_path rows = map str_int (map time_of cmds)).
      { rewrite <- TimeT. unfold texts_in. rewrite <- (map_map (fun row => cell_written (table_cell time_path row)) seen), TimeT. rewrite !map_map. apply map_ext. intro c.
        apply seen_head. exact (dumps_head (VInt (time_of c))). }
      rewrite TT, read_ints, map_map; [reflexivity|]. apply Forall_map. eapply Forall_impl; [|exact F]. intros c (_ & _ & _ & t & Tt & Rt). unfold time_of. rewrite Tt.
      destruct (number_facts none_too t) as [N1 N2]. split; [|split; assumption]. unfold fits_64. apply andb_true_iff. rewrite Z.leb_le, Z.ltb_lt. lia.
Qed.
End Table.

Lemma not_text_b p : is_text p = false -> ~ text_property p.
Proof. intros E T. apply text_property_b in T. unfold is_text in E. congruence. Qed.
Lemma converted_table unquote so strict none_too cast cuts events cmds :
  Forall (clean_event unquote) events -> Z.of_nat (length events) <= 2 ^ 63 ->
  to_commands (tenhou_command unquote so) strict events = Ok cmds -> Forall seated events -> cmds <> [] ->
  (exists rows table, runs (fun fuel => state_rows fuel cmds) rows /\ length rows = length cmds /\
     read_state_csv none_too cast cuts (state_csv rows) = Ok table /\ table_fits none_too cmds table) /\
  Forall filed cmds /\ Forall well_addressed cmds /\ exists s', states_ok [] cmds s'.
Proof.
  intros C L H Se NE. apply (seated_only _ _ _ _ _ Se) in H as Q. clear Se. rename Q into Se. pose proof (converted_filed _ _ _ _ _ C L H Se) as F. destruct (C38_record _ _ _ _ _ H Se) as (snaps & h & R & Ls & _).
  unfold to_commands in H. peelb H. destruct v as [l x]. apply Ok_inj in H. cbn [fst] in H. subst l.
  destruct (call_all_facts _ _ _ _ _ _ _ _ E) as [A B].
  assert (Wl : Forall well_addressed cmds).
  { apply Forall_forall. intros c I0. rewrite Forall_forall in B, Se. destruct (B c I0) as [S0 _]. unfold well_addressed.
    destruct (scope_of (c_prop c)); try exact S0. destruct S0 as [i S0]. exists i. split; [exact (Se c I0 i S0)|exact S0]. }
  split; [|eauto]. exact (table_read none_too cast cuts cmds _ snaps h NE A Wl F R Ls).
Qed.

(** C101. *)
Theorem C101_states : forall unquote so strict none_too cast cuts events cmds,
  Forall (clean_event unquote) events -> Z.of_nat (length events) <= 2 ^ 63 ->
  to_commands (tenhou_command unquote so) strict events = Ok cmds -> Forall seated events -> cmds <> [] ->
  exists rows table, runs (fun fuel => state_rows fuel cmds) rows /\ length rows = length cmds /\
    read_state_csv none_too cast cuts (state_csv rows) = Ok table /\ NoDup (map fst table) /\
    (exists times, In (time_path, CCells (map CInt times)) table /\ Forall2 (fun c t => c_time c = Some t) cmds times) /\
    forall n p, (n < length cmds)%nat -> real_place p ->
    exists state, holds_after (firstn (S n) cmds) p state /\
      match state with
      | Some v => exists w, value_shown table (path_of p) n w /\ (~ text_property (snd p) -> recovered v w) /\ (text_property (snd p) -> exists s, w = VStr s)
      | None => forall w, value_shown table (path_of p) n w -> (~ text_property (snd p) -> w = VNone) /\ (text_property (snd p) -> w = VStr (t_ "nan"))
      end.
Proof.
  intros unquote so strict none_too cast cuts events cmds C L H Se NE.
  destruct (converted_table unquote so strict none_too cast cuts events cmds C L H Se NE) as ((rows & table & Ru & Lr & Rd & ND & Cl & Has & Tm) & F & Wl & s' & A).
  exists rows, table. repeat (split; [assumption|]). split.
  - exists (map time_of cmds). split; [rewrite map_map; exact Tm|]. clear -F. induction F as [|c l (_ & _ & _ & t & T & _) F IH]; constructor; [unfold time_of; rewrite T; reflexivity|exact IH].
  - intros n p Ln Rp. destruct (held_some cmds s' A Wl (S n) p ltac:(lia) Rp) as [o Ho]. exists o. split; [exact Ho|]. destruct o as [v|].
    + destruct (Has p n v Ln Ho) as [col I0]. destruct (Cl p col Rp I0) as (l & -> & Ll & Vs). destruct (Vs n (Some v) Ln Ho) as (x & w & Rx & Cx & W). exists w.
      split; [exists l; auto|]. pose proof (held_writable cmds s' A Wl F (S n) p v ltac:(lia) Ho) as Wr. split.
      * intro NT. cbn [written] in Rx. rewrite json_seen in Rx by (apply not_text; exact NT). destruct (json_cell none_too (snd p) v x (proj1 Wr) NT Rx) as (w' & W1 & W2). assert (w = w') by congruence. subst w'. exact (proj1 W2).
      * intro T. eapply text_read; eassumption.
    + intros w (l & I0 & W). destruct (Cl p _ Rp I0) as (l' & E & Ll & Vs). injection E as <-. destruct (Vs n None Ln Ho) as (x & w' & Rx & Cx & W').
      assert (w' = w) by congruence. subst w'. cbn [written] in Rx. apply empty_cell in Rx. subst x. rewrite nan_value in Cx. apply Ok_inj in Cx. fold (is_text (snd p)) in Cx.
      split; intro T; [rewrite (not_text _ T) in Cx; exact Cx|]. apply text_property_b in T. fold (is_text (snd p)) in T. rewrite T in Cx. exact Cx.
Qed.
(** C102: texts. *)
Lemma text_shown : forall unquote so strict none_too cast cuts events cmds rows table,
  Forall (clean_event unquote) events -> Z.of_nat (length events) <= 2 ^ 63 ->
  to_commands (tenhou_command unquote so) strict events = Ok cmds -> Forall seated events -> cmds <> [] ->
  runs (fun fuel => state_rows fuel cmds) rows -> read_state_csv none_too cast cuts (state_csv rows) = Ok table ->
  forall n p s s', (n < length cmds)%nat -> text_property (snd p) -> holds_after (firstn (S n) cmds) p (Some (VStr s)) ->
  (forall x w, reading_in none_too (seen s) x -> cell_value (snd p) x = Ok w -> w = VStr s') ->
  value_shown table (path_of p) n (VStr s') /\ forall w, value_shown table (path_of p) n w -> w = VStr s'.
Proof.
  intros unquote so strict none_too cast cuts events cmds rows table C L H Se NE Ru0 Rd0 n p s s' Ln T Ho K.
  destruct (converted_table unquote so strict none_too cast cuts events cmds C L H Se NE) as ((rows' & table' & Ru & Lr & Rd & ND & Cl & Has & Tm) & F & Wl & st & A).
  assert (rows' = rows). { destruct Ru as [N1 R1], Ru0 as [N2 R2]. specialize (R1 (Nat.max N1 N2) ltac:(lia)). specialize (R2 (Nat.max N1 N2) ltac:(lia)). congruence. } subst rows'.
  rewrite Rd0 in Rd. apply Ok_inj in Rd. subst table'. pose proof (holds_real _ _ _ Ho) as Rp.
  assert (Each : forall col, In (path_of p, col) table -> exists l, col = CValues l /\ nth_error l n = Some (VStr s')).
  { intros col I0. destruct (Cl p col Rp I0) as (l & -> & Ll & Vs). destruct (Vs n _ Ln Ho) as (x & w & Rx & Cx & W). exists l. split; [reflexivity|].
    cbn [written] in Rx. unfold vtext in Rx. apply text_property_b in T. fold (is_text (snd p)) in T. rewrite T in Rx. cbn [py_str] in Rx.
    rewrite (K x w Rx Cx) in W. exact W. }
  split.
  - destruct (Has p n _ Ln Ho) as [col I0]. destruct (Each col I0) as (l & -> & W). exists l. auto.
  - intros w (l & I0 & W). destruct (Each _ I0) as (l' & E & W'). injection E as <-. congruence.
Qed.
Theorem C102_texts_partial : forall unquote so strict none_too cast cuts events cmds rows table,
  Forall (clean_event unquote) events -> Z.of_nat (length events) <= 2 ^ 63 ->
  to_commands (tenhou_command unquote so) strict events = Ok cmds -> Forall seated events -> cmds <> [] ->
  runs (fun fuel => state_rows fuel cmds) rows -> read_state_csv none_too cast cuts (state_csv rows) = Ok table ->
  forall n p s, (n < length cmds)%nat -> text_property (snd p) -> holds_after (firstn (S n) cmds) p (Some (VStr s)) -> plain_word none_too s ->
  value_shown table (path_of p) n (VStr s) /\ forall w, value_shown table (path_of p) n w -> w = VStr s.
Proof.
  intros unquote so strict none_too cast cuts events cmds rows table C L H Se NE Ru Rd n p s Ln T Ho Pw.
  refine (text_shown unquote so strict none_too cast cuts events cmds rows table C L H Se NE Ru Rd n p _ _ Ln T Ho _). intros x w Rx Cx.
  rewrite (seen_head s (proj2 Pw)) in Rx. apply wordy_in in Rx; [|apply clear_wordy; apply Pw]. subst x. rewrite text_cell_text in Cx by exact T. now apply Ok_inj in Cx.
Qed.
(** Blanks at the beginning are lost, unless a comma, a quotation mark or a line break makes the text quoted. *)
Theorem C102_blanks : forall unquote so strict none_too cast cuts events cmds rows table,
  Forall (clean_event unquote) events -> Z.of_nat (length events) <= 2 ^ 63 ->
  to_commands (tenhou_command unquote so) strict events = Ok cmds -> Forall seated events -> cmds <> [] ->
  runs (fun fuel => state_rows fuel cmds) rows -> read_state_csv none_too cast cuts (state_csv rows) = Ok table ->
  forall n p k s, (n < length cmds)%nat -> text_property (snd p) -> holds_after (firstn (S n) cmds) p (Some (VStr (repeat 32 k ++ s))) -> plain_word none_too s /\ (forall c, In c [44; 34; 10; 13] -> ~ In c s) ->
  value_shown table (path_of p) n (VStr s) /\ forall w, value_shown table (path_of p) n w -> w = VStr s.
Proof.
  intros unquote so strict none_too cast cuts events cmds rows table C L H Se NE Ru Rd n p k s Ln T Ho Pw.
  refine (text_shown unquote so strict none_too cast cuts events cmds rows table C L H Se NE Ru Rd n p _ _ Ln T Ho _). intros x w Rx Cx.
  destruct Pw as [Pw Nq].
  assert (E : seen (repeat 32 k ++ s) = s).
  { unfold seen. replace (needs_quotes (repeat 32 k ++ s)) with false.
    - rewrite <- (drop_head s (proj2 Pw)) at 2. clear. induction k as [|k IH]; [reflexivity|]. exact IH.
    - symmetry. unfold needs_quotes. apply not_true_iff_false. intro X. apply existsb_exists in X. destruct X as (c & I0 & X). apply in_app_or in I0. destruct I0 as [I0|I0].
      + apply repeat_spec in I0. subst c. discriminate X.
      + apply (Nq c); [|exact I0]. cbn [In]. lia. }
  rewrite E in Rx. apply wordy_in in Rx; [|apply clear_wordy; apply Pw]. subst x. rewrite text_cell_text in Cx by exact T. now apply Ok_inj in Cx.
Qed.
(** The texts taken for a missing value are lost. *)
Theorem C102_missing : forall unquote so strict none_too cast cuts events cmds rows table,
  Forall (clean_event unquote) events -> Z.of_nat (length events) <= 2 ^ 63 ->
  to_commands (tenhou_command unquote so) strict events = Ok cmds -> Forall seated events -> cmds <> [] ->
  runs (fun fuel => state_rows fuel cmds) rows -> read_state_csv none_too cast cuts (state_csv rows) = Ok table ->
  forall n p s, (n < length cmds)%nat -> text_property (snd p) -> holds_after (firstn (S n) cmds) p (Some (VStr s)) -> looks_missing none_too s ->
  value_shown table (path_of p) n (VStr (t_ "nan")) /\ forall w, value_shown table (path_of p) n w -> w = VStr (t_ "nan").
Proof.
  intros unquote so strict none_too cast cuts events cmds rows table C L H Se NE Ru Rd n p s Ln T Ho Pw.
  refine (text_shown unquote so strict none_too cast cuts events cmds rows table C L H Se NE Ru Rd n p _ _ Ln T Ho _). intros x w Rx Cx.
  assert (Hd : hd 0 s <> 32) by (destruct Pw as [Pw|[_ ->]]; [|vm_compute; discriminate]; revert Pw; apply Forall_forall with (P := fun s => hd 0 s <> 32); repeat (constructor; [vm_compute; discriminate|]); constructor).
  rewrite (seen_head s Hd) in Rx. apply looks_missing_b in Pw. destruct Rx as [[[_ ->]|[M2 _]]|[M2 _]]; [|congruence..].
  rewrite nan_value in Cx. apply text_property_b in T. apply Ok_inj in Cx. rewrite T in Cx. exact Cx.
Qed.
Lemma held_at cmds s' n p o : states_ok [] cmds s' -> Forall well_addressed cmds -> real_place p -> (n <= length cmds)%nat ->
  last_some None (map (fun c => if column_eqb (c_sub c, c_prop c) (place_column p) then Some (c_state c) else None) (firstn n cmds)) = o -> holds_after (firstn n cmds) p o.
Proof. intros A Wl Rp L <-. exact (holds_last cmds _ _ [] A mirrors_nil Wl p Rp n L). Qed.
(** A text that looks like a missing value is lost, and is shown just as a text that was not announced. *)
Definition na_place : place := (Some 0, PV_name).
Theorem C102_texts_refuted : forall none_too cast cuts, exists cmds rows table p,
  to_commands (tenhou_command (fun s => s) (fun l => l)) false na_record = Ok cmds /\
  runs (fun fuel => state_rows fuel cmds) rows /\ read_state_csv none_too cast cuts (state_csv rows) = Ok table /\ snd p = PV_name /\
  holds_after (firstn 1 cmds) p None /\ holds_after (firstn 9 cmds) p (Some (VStr (t_ "NA"))) /\
  value_shown table (path_of p) 0 (VStr (t_ "nan")) /\ value_shown table (path_of p) 8 (VStr (t_ "nan")).
Proof.
  intros none_too cast cuts.
  assert (H : to_commands (tenhou_command (fun s => s) (fun l => l)) false na_record = Ok na_commands) by (unfold na_commands; destruct (to_commands _ _ _) eqn:E; [reflexivity|vm_compute in E; discriminate E]).
  destruct (converted_table (fun s => s) (fun l => l) false none_too cast cuts na_record na_commands) as ((rows & table & Ru & Lr & Rd & ND & Cl & Has & Tm) & F & Wl & s' & A).
  { apply clean_b; vm_compute; reflexivity. } { vm_compute; discriminate. } { exact H. } { apply seated_b; vm_compute; reflexivity. } { vm_compute; discriminate. }
  assert (Rp : real_place na_place) by (exists 0; split; [lia|reflexivity]).
  assert (Len : length na_commands = 23%nat) by (vm_compute; reflexivity).
  assert (H0 : holds_after (firstn 1 na_commands) na_place None) by (apply (held_at _ s'); [assumption..|rewrite Len; lia|vm_compute; reflexivity]).
  assert (H8 : holds_after (firstn 9 na_commands) na_place (Some (VStr (t_ "NA")))) by (apply (held_at _ s'); [assumption..|rewrite Len; lia|vm_compute; reflexivity]).
  exists na_commands, rows, table, na_place. repeat (split; [assumption || reflexivity|]).
  destruct (Has na_place 8%nat _ ltac:(rewrite Len; lia) H8) as [col I0]. destruct (Cl na_place col Rp I0) as (l & -> & Ll & Vs).
  destruct (Vs 0%nat None ltac:(rewrite Len; lia) H0) as (x & w & Rx & Cx & W). destruct (Vs 8%nat _ ltac:(rewrite Len; lia) H8) as (x' & w' & Rx' & Cx' & W').
  cbn [written] in Rx. apply empty_cell in Rx. subst x. rewrite nan_value in Cx. apply Ok_inj in Cx.
  assert (M : missing none_too (written na_place (Some (VStr (t_ "NA")))) = true) by (destruct none_too; vm_compute; reflexivity).
  destruct Rx' as [[[_ ->]|[M2 _]]|[M2 _]]; [|congruence..]. rewrite nan_value in Cx'. apply Ok_inj in Cx'.
  split; exists l; (split; [exact I0|]); [subst w; exact W|subst w'; exact W'].
Qed.
(** ** Examples: the record of 85 commands, and a small file. *)
Example C101_example : forall none_too cast cuts, exists rows table w, runs (fun fuel => state_rows fuel csv_commands) rows /\ length rows = 85%nat /\
  read_state_csv none_too cast cuts (state_csv rows) = Ok table /\ value_shown table (path_of (Some 1, PV_discard_tiles)) 84 w /\ recovered (VList [VStr (t_ "5p")]) w.
Proof.
  intros none_too cast cuts.
  assert (H : to_commands (tenhou_command (fun s => s) (fun l => l)) false ex_record = Ok csv_commands) by (unfold csv_commands; destruct (to_commands _ _ _) eqn:E; [reflexivity|vm_compute in E; discriminate E]).
  assert (Len : length csv_commands = 85%nat) by (vm_compute; reflexivity).
  destruct (C101_states (fun s => s) (fun l => l) false none_too cast cuts ex_record csv_commands) as (rows & table & Ru & Lr & Rd & _ & _ & Sh).
  { apply clean_b; vm_compute; reflexivity. } { vm_compute; discriminate. } { exact H. } { apply seated_b; vm_compute; reflexivity. } { intro K. rewrite K in Len. discriminate Len. }
  assert (Rp : real_place (Some 1, PV_discard_tiles)) by (exists 1; split; [lia|reflexivity]).
  assert (Wl : Forall well_addressed csv_commands /\ exists s', states_ok [] csv_commands s').
  { destruct (converted_table (fun s => s) (fun l => l) false none_too cast cuts ex_record csv_commands) as (_ & _ & Wl & A); [..|split; assumption].
    { apply clean_b; vm_compute; reflexivity. } { vm_compute; discriminate. } { exact H. } { apply seated_b; vm_compute; reflexivity. } { intro K. rewrite K in Len. discriminate Len. } }
  destruct Wl as [Wl [s' A]].
  assert (H0 : holds_after (firstn 85 csv_commands) (Some 1, PV_discard_tiles) (Some (VList [VStr (t_ "5p")]))) by (apply (held_at _ s'); [assumption..|rewrite Len; lia|vm_compute; reflexivity]).
  destruct (Sh 84%nat _ ltac:(rewrite Len; lia) Rp) as (st & Hs & V). pose proof (holds_det _ _ _ _ H0 Hs) as <-. destruct V as (w & V & Rc & _).
  exists rows, table, w. split; [exact Ru|]. split; [congruence|]. split; [exact Rd|]. split; [exact V|]. apply Rc. cbn. intuition discriminate.
Qed.
Definition small_rows : list state_row :=
  [[(time_path, VStr (t_ "0")); (path_of (Some 1, PV_hand), VStr (t_ "[""1m"", ""2m""]"))];
   [(time_path, VStr (t_ "1")); (path_of (Some 1, PV_hand), VStr (t_ "[""1m""]")); (path_of (Some 1, PV_name), VStr (t_ "B"))]].
Example C101_small : state_csv small_rows = t_ ",global,ViewScope.player,ViewScope.player
,time,PlayerId.second,PlayerId.second
,timestamp,PlayerView.hand,PlayerView.name
0,0,""[""""1m"""", """"2m""""]"",
1,1,""[""""1m""""]"",B
" /\ exists index, read_state_csv false false [] (state_csv small_rows) =
  Ok [index; (time_path, CCells [CInt 0; CInt 1]); (path_of (Some 1, PV_hand), CValues [VList [VStr (t_ "1m"); VStr (t_ "2m")]; VList [VStr (t_ "1m")]]);
      (path_of (Some 1, PV_name), CValues [VStr (t_ "nan"); VStr (t_ "B")])].
Proof. split; [vm_compute; reflexivity|]. eexists. vm_compute. reflexivity. Qed.
Example C102_word : plain_word true (t_ "B").
Proof.
  split; [|vm_compute; discriminate]. split; [exists 66; split; [left; reflexivity|]; split; [vm_compute; intuition discriminate|lia]|]. split; [vm_compute; intuition discriminate|].
  rewrite looks_missing_b; vm_compute; discriminate.
Qed.
(** The hypotheses of C102_blanks are met by a player whose name has two blanks before it; those of C102_missing by the player of C102_texts_refuted. *)
Definition blank_record : list event :=
  [ev "GO" [("type", "169"); ("lobby", "0")];
   ev "UN" [("n0", "  B"); ("n1", "B"); ("n2", "C"); ("n3", "D"); ("dan", "11,12,13,14"); ("rate", "1500.00,1600.50,1700.00,1800.00"); ("sx", "M,M,F,M")]]%string.
Definition blank_commands : list command := match to_commands (tenhou_command (fun s => s) (fun l => l)) false blank_record with Ok l => l | _ => [] end.
Example C102_blanks_case : forall none_too cast cuts, Forall (clean_event (fun s => s)) blank_record /\ Forall seated blank_record /\
  to_commands (tenhou_command (fun s => s) (fun l => l)) false blank_record = Ok blank_commands /\ blank_commands <> [] /\
  holds_after (firstn 9 blank_commands) na_place (Some (VStr (repeat 32 2 ++ t_ "B"))) /\
  exists rows table, runs (fun fuel => state_rows fuel blank_commands) rows /\ read_state_csv none_too cast cuts (state_csv rows) = Ok table /\
  value_shown table (path_of na_place) 8 (VStr (t_ "B")).
Proof.
  intros none_too cast cuts.
  assert (C : Forall (clean_event (fun s => s)) blank_record) by (apply clean_b; vm_compute; reflexivity).
  assert (Se : Forall seated blank_record) by (apply seated_b; vm_compute; reflexivity).
  assert (H : to_commands (tenhou_command (fun s => s) (fun l => l)) false blank_record = Ok blank_commands) by (unfold blank_commands; destruct (to_commands _ _ _) eqn:E; [reflexivity|vm_compute in E; discriminate E]).
  assert (Len : length blank_commands = 23%nat) by (vm_compute; reflexivity).
  assert (NE : blank_commands <> []) by (intro K; rewrite K in Len; discriminate Len).
  assert (L : Z.of_nat (length blank_record) <= 2 ^ 63) by (vm_compute; discriminate).
  destruct (converted_table (fun s => s) (fun l => l) false none_too cast cuts blank_record blank_commands C L H Se NE) as ((rows & table & Ru & Lr & Rd & _) & F & Wl & s' & A).
  assert (Rp : real_place na_place) by (exists 0; split; [lia|reflexivity]).
  assert (H8 : holds_after (firstn 9 blank_commands) na_place (Some (VStr (repeat 32 2 ++ t_ "B")))) by (apply (held_at _ s'); [assumption..|rewrite Len; lia|vm_compute; reflexivity]).
  repeat (split; [assumption|]). exists rows, table. repeat (split; [assumption|]).
  apply (C102_blanks (fun s => s) (fun l => l) false none_too cast cuts blank_record blank_commands rows table C L H Se NE Ru Rd 8 na_place 2 (t_ "B") ltac:(rewrite Len; lia)); [apply text_property_b; reflexivity|exact H8|].
  split; [|vm_compute; intuition congruence].
  split; [|vm_compute; discriminate]. split; [exists 66; split; [left; reflexivity|]; split; [vm_compute; intuition discriminate|lia]|]. split; [vm_compute; intuition discriminate|].
  rewrite looks_missing_b. destruct none_too; vm_compute; discriminate.
Qed.
Print Assumptions C101_states.
Print Assumptions C102_texts_partial.
Print Assumptions C102_blanks.
Print Assumptions C102_missing.
Print Assumptions C102_texts_refuted.
