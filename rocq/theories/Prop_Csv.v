(** C98: the CSV file of commands. *)
From Verif Require Import Base Parse Text Value Json Transfer Universe Record Csv Prop_Meld StateProofs JsonProofs UniverseProofs
  Spec_Universe Spec_Record Prop_Record Spec_Csv CsvProofs CsvValues
  Event Translator TenhouCommands CommandProofs Prop_Commands CsvConverted Spec_Log Spec_Seats SeatsProofs.
From Coq Require Import String List ZArith Lia Bool.
Import ListNotations.
Open Scope list_scope.
Open Scope Z_scope.

(** ** Columns of texts and whole numbers. *)
Section Mixed.
Context (none_too cast : bool).
Definition number_text (s : text) : Prop := exists z, fits_64 z = true /\ s = str_int z.
Lemma number_facts z : missing none_too (str_int z) = false /\ int_token (str_int z) = Some z.
Proof. split; [apply missing_number; [apply (num_nonempty (NInt z))|apply int_chars]|apply int_token_int]. Qed.
Lemma mixed_piece l : Forall (fun s => wordy none_too s \/ number_text s) l ->
  convert none_too l = map CText l \/ exists zs, l = map str_int zs /\ convert none_too l = map CInt zs.
Proof.
  intro F. destruct (Exists_dec (wordy none_too) l) as [E|N].
  { intro s. unfold wordy. destruct (missing none_too s); [right; intros (? & _); discriminate|]. destruct (int_token s); [right; intros (_ & ? & _); discriminate|].
    destruct (float_token s); [right; intros (_ & _ & ? & _); discriminate|]. destruct (bool_token s); [right; intros (_ & _ & _ & ?); discriminate|left; auto]. }
  - left. apply Exists_exists in E. destruct E as [w [I0 W]]. rewrite (convert_texts none_too l w I0 W). apply map_ext_in. intros s I1.
    rewrite Forall_forall in F. destruct (F s I1) as [[M _]|[z [_ ->]]]; [now rewrite M|]. now rewrite (proj1 (number_facts z)).
  - right. assert (X : exists zs, l = map str_int zs /\ Forall (fun z => fits_64 z = true) zs).
    { induction F as [|s l [W|[z [B ->]]] F IH]; [exists []; split; [reflexivity|constructor]| exfalso; apply N; left; exact W |].
      destruct IH as [zs [-> G]]; [intro E; apply N; right; exact E|]. exists (z :: zs). split; [reflexivity|constructor; auto]. }
    destruct X as [zs [-> G]]. exists zs. split; [reflexivity|]. apply convert_ints. eapply Forall_impl; [|exact G]. intros z B. split; [exact B|apply number_facts].
Qed.
Definition kept (s : text) (c : cell) : Prop := c = CText s \/ exists z, s = str_int z /\ c = CInt z.
Lemma texts_kind l : l <> [] -> kind_of (map CText l) = KObject.
Proof. destruct l; [congruence|]. reflexivity. Qed.
Lemma ints_kind zs : kind_of (map CInt zs) = KInt.
Proof.
  unfold kind_of. assert (A : existsb (fun c => match c with CText _ => true | _ => false end) (map CInt zs) = false) by (induction zs; auto).
  assert (B : existsb (fun c => match c with CBool _ => true | _ => false end) (map CInt zs) = false) by (induction zs; auto).
  assert (C : forallb (fun c => match c with CInt _ => true | _ => false end) (map CInt zs) = true) by (induction zs; auto).
  rewrite A, B, C. reflexivity.
Qed.
Lemma read_mixed cuts l : Forall (fun s => wordy none_too s \/ number_text s) l -> Forall2 kept l (read_column none_too cast cuts l).
Proof.
  intro F. unfold read_column. rewrite concat_filled.
  assert (X : Forall2 kept l (concat (map (convert none_too) (by_pieces cuts l))) /\
              forall q, In q (map (convert none_too) (by_pieces cuts l)) -> q <> [] -> kind_of q = KObject \/ kind_of q = KInt).
  { revert l F. assert (P : forall l, Forall (fun s => wordy none_too s \/ number_text s) l -> Forall2 kept l (convert none_too l) /\
      (convert none_too l <> [] -> kind_of (convert none_too l) = KObject \/ kind_of (convert none_too l) = KInt)).
    { intros l F. destruct (mixed_piece l F) as [->|[zs [-> ->]]].
      - split; [clear; induction l; cbn [map]; constructor; auto; left; reflexivity|]. intro N. left. apply texts_kind. intros ->. apply N. reflexivity.
      - split; [clear; induction zs; cbn [map]; constructor; auto; right; eauto|]. intros _. right. apply ints_kind. }
    induction cuts as [|n cuts IH]; intros l F; cbn [by_pieces map concat].
    - rewrite app_nil_r. destruct (P l F) as [A B]. split; [exact A|]. intros q [<-|[]]. exact B.
    - assert (Y : Forall (fun s => wordy none_too s \/ number_text s) (firstn n l) /\ Forall (fun s => wordy none_too s \/ number_text s) (skipn n l)).
      { rewrite <- (firstn_skipn n l) in F. apply Forall_app in F. exact F. }
      destruct Y as [F1 F2]. destruct (P _ F1) as [A1 B1]. destruct (IH _ F2) as [A2 B2]. split.
      + rewrite <- (firstn_skipn n l) at 1. apply Forall2_app; assumption.
      + intros q [<-|I0]; auto. }
  destruct X as [X K].
  assert (NF : existsb (kind_eqb KFloat) (map kind_of (filter (fun q : list cell => match q with [] => false | _ => true end)
    (map (convert none_too) (by_pieces cuts l)))) = false).
  { destruct (existsb _ _) eqn:E; [|reflexivity]. apply existsb_exists in E. destruct E as [k [I0 E]]. apply in_map_iff in I0. destruct I0 as [q [<- I0]].
    apply filter_In in I0. destruct I0 as [I0 N]. destruct (K q I0) as [Q|Q]; [destruct q; discriminate| |]; rewrite Q in E; discriminate. }
  eapply forall2_map; [|exact X]. intros s c [->|[z [-> ->]]]; unfold unify.
  - left. destruct (_ || _ || _); reflexivity.
  - right. exists z. split; [reflexivity|]. destruct (_ || _ || _); [reflexivity|]. rewrite NF. reflexivity.
Qed.
End Mixed.

(** ** What is written. *)
Definition is_text (p : view) : bool := existsb (view_eqb p) [RV_play_level; RV_seed; GV_extra_reason; PV_name; PV_level; PV_extra_level].
Definition vtext (p : view) (v : val) : text :=
  if is_text p then match py_str v with Ok t => t | Err _ => [] end else dumps v.
Lemma py_str_ok v : ~ is_list_value v -> exists t, py_str v = Ok t.
Proof. destruct v as [|b|n|s|l]; cbn [py_str]; intro N; eauto. exfalso. apply N. eexists; reflexivity. Qed.
Lemma written_value p v : writable p v -> prop_call [v] p M_to_str = Ok (VStr (vtext p v)).
Proof.
  intros [U L]. rewrite to_str_prop. unfold vtext. fold (is_text p). destruct (is_text p) eqn:E; [|reflexivity].
  apply text_property_b in E. destruct (py_str_ok v (proj1 (L E))) as [t T]. unfold plain_str. rewrite T. reflexivity.
Qed.
Lemma written_cr p v : writable p v -> ~ In 13 (vtext p v).
Proof.
  intros [U L] I0. unfold vtext in I0. destruct (is_text p) eqn:E.
  - apply text_property_b in E. destruct (L E) as [N C]. destruct v as [|b|n|s|l]; cbn [py_str] in I0.
    + vm_compute in I0. intuition lia.
    + destruct b; vm_compute in I0; intuition lia.
    + exact (number_no_cr _ (num_chars n) I0).
    + exact (proj1 (C s eq_refl) I0).
    + destruct I0.
  - pose proof (dumps_printable v U) as P. rewrite Forall_forall in P. specialize (P 13 I0). lia.
Qed.
Definition time_of (c : command) : Z := match c_time c with Some t => t | None => 0 end.
Definition record_of (c : command) : row :=
  mkRow (c_time c) (option_map event_name (c_event c)) (scope_name (scope_of (c_prop c))) (c_sub c) (view_name (c_prop c)) (update_name (c_update c))
    (VStr (vtext (c_prop c) (c_value c))) (VStr (vtext (c_prop c) (c_state c))).
Definition event_text (c : command) : text := match c_event c with Some e => event_name e | None => [] end.
Definition fields (c : command) : list text :=
  [str_int (time_of c); event_text c; scope_name (scope_of (c_prop c)); sub_written (c_sub c); view_name (c_prop c); update_name (c_update c);
   vtext (c_prop c) (c_value c); vtext (c_prop c) (c_state c)].
Lemma records cmds : Forall filed cmds -> mapM to_record cmds = Ok (map record_of cmds).
Proof.
  induction 1 as [|c cmds [W1 [W2 _]] F IH]; [reflexivity|]. cbn [mapM map]. unfold to_record at 1. rewrite (written_value _ _ W1), (written_value _ _ W2).
  cbn [bindr]. rewrite IH. reflexivity.
Qed.
Lemma times cmds : Forall filed cmds -> times_written (map r_time (map record_of cmds)) = map (fun c => str_int (time_of c)) cmds.
Proof.
  intro F. unfold times_written. rewrite map_map. cbn [record_of r_time].
  assert (A : forallb (fun t => match t with Some _ => true | None => false end) (map (fun x => c_time x) cmds) = true).
  { induction F as [|c cmds (_ & _ & _ & t & T & _) F IH]; [reflexivity|]. cbn [map forallb]. now rewrite T. }
  rewrite A, map_map. apply map_ext_in. intros c I0. rewrite Forall_forall in F. destruct (F c I0) as (_ & _ & _ & t & T & _). unfold time_of. now rewrite T.
Qed.
Fixpoint lines_of (i : nat) (cmds : list command) : list (list text) :=
  match cmds with [] => [] | c :: r => (str_int (Z.of_nat i) :: fields c) :: lines_of (S i) r end.
Lemma rows_lines cmds : forall i, rows_written i (map (fun c => str_int (time_of c)) cmds) (map record_of cmds) = lines_of i cmds.
Proof.
  induction cmds as [|c cmds IH]; intro i; [reflexivity|]. cbn [map rows_written lines_of]. rewrite IH. f_equal. unfold row_written, fields, event_text.
  cbn [record_of r_event r_scope r_sub r_prop r_update r_value r_state value_written]. destruct (c_event c); reflexivity.
Qed.
Definition file_of (cmds : list command) : text := write_csv (([] :: command_field_names) :: lines_of 0 cmds).
Lemma to_csv_file cmds : Forall filed cmds -> to_csv cmds = Ok (file_of cmds).
Proof. intro F. unfold to_csv. rewrite (records cmds F). cbn [bindr]. rewrite (times cmds F), rows_lines. reflexivity. Qed.
Lemma number_field z : ~ In 13 (str_int z).
Proof. apply number_no_cr. apply int_chars. Qed.
Lemma name_field (s : text) : forallb (fun d => 32 <=? d) s = true -> ~ In 13 s.
Proof. intros F I0. rewrite forallb_forall in F. specialize (F 13 I0). discriminate. Qed.
Lemma sub_field c : c_sub c = sub_all \/ (exists i, 0 <= i <= 3 /\ c_sub c = SId i) -> ~ In 13 (sub_written (c_sub c)).
Proof. intros [->|[i [_ ->]]]; [apply name_field; reflexivity|apply number_field]. Qed.
Lemma fields_ok c : filed c -> line_ok false (fields c).
Proof.
  intros (W1 & W2 & Sb & t & T & _). unfold line_ok, fields.
  assert (NB : forall f, no_blank_head false f) by (intros f K; discriminate).
  repeat (constructor; [split; [|apply NB]|]); [..|constructor].
  - apply number_field.
  - unfold event_text. destruct (c_event c) as [e|]; [|intros []]. apply name_field. destruct e; reflexivity.
  - apply name_field. destruct (scope_of (c_prop c)); reflexivity.
  - apply sub_field. exact Sb.
  - apply name_field. destruct (c_prop c); reflexivity.
  - apply name_field. destruct (c_update c); reflexivity.
  - apply written_cr. exact W1.
  - apply written_cr. exact W2.
Qed.
Lemma lines_ok cmds : Forall filed cmds -> forall i, Forall (fun l => line_ok false l /\ (2 <= length l)%nat) (lines_of i cmds).
Proof.
  induction 1 as [|c cmds K F IH]; intro i; cbn [lines_of]; constructor; auto. split; [|cbn [length fields]; lia].
  constructor; [split; [apply number_field|intro X; discriminate]|]. apply fields_ok. exact K.
Qed.
Lemma lines_len cmds : forall i, forallb (fun l => (length l <=? 9)%nat) (lines_of i cmds) = true.
Proof. induction cmds as [|c cmds IH]; intro i; [reflexivity|]. cbn [lines_of forallb]. rewrite IH. reflexivity. Qed.
Lemma lines_pad cmds : forall i, map (pad 9) (lines_of i cmds) = lines_of i cmds.
Proof. induction cmds as [|c cmds IH]; intro i; [reflexivity|]. cbn [lines_of map]. rewrite IH. reflexivity. Qed.
Lemma lines_length cmds : forall i, length (lines_of i cmds) = length cmds.
Proof. induction cmds as [|c cmds IH]; intro i; [reflexivity|]. cbn [lines_of length]. now rewrite IH. Qed.
Lemma table cmds : Forall filed cmds -> read_table (file_of cmds) = Ok ([] :: command_field_names, lines_of 0 cmds).
Proof.
  intro F. unfold read_table, file_of. rewrite read_write.
  - change (length ([] :: command_field_names)) with 9%nat. rewrite lines_len, lines_pad. reflexivity.
  - constructor; [|apply lines_ok; exact F]. split; [|cbn; lia]. apply Forall_forall. intros f I0. split; [|intro X; discriminate].
    assert (K : forallb (fun s => forallb (fun d => 32 <=? d) s) ([] :: command_field_names) = true) by reflexivity.
    rewrite forallb_forall in K. apply name_field. auto.
Qed.
Lemma column_texts j cmds : forall i, map (nth_text (S j)) (lines_of i cmds) = map (fun c => nth_text j (fields c)) cmds.
Proof. induction cmds as [|c cmds IH]; intro i; [reflexivity|]. cbn [lines_of map]. rewrite IH. reflexivity. Qed.
Section Back.
Context (none_too cast : bool) (cuts : list nat).
Definition col (j : nat) (cmds : list command) : list cell := read_column none_too cast cuts (map (fun c => nth_text j (fields c)) cmds).
Lemma columns_read cmds : mapM (column_of none_too cast cuts ([] :: command_field_names) (lines_of 0 cmds)) command_field_names =
  Ok [col 0 cmds; col 1 cmds; col 2 cmds; col 3 cmds; col 4 cmds; col 5 cmds; col 6 cmds; col 7 cmds].
Proof.
  assert (K : forall name j, position name ([] :: command_field_names) 0 = Ok (S j) ->
    column_of none_too cast cuts ([] :: command_field_names) (lines_of 0 cmds) name = Ok (col j cmds)).
  { intros name j P. unfold column_of. rewrite P. cbn [bindr]. rewrite column_texts. reflexivity. }
  set (h := [] :: command_field_names) in *. unfold command_field_names. cbn [map mapM].
  rewrite (K (t_ "timestamp") 0%nat) by reflexivity. rewrite (K (t_ "event") 1%nat) by reflexivity. rewrite (K (t_ "scope") 2%nat) by reflexivity.
  rewrite (K (t_ "sub_scope_id") 3%nat) by reflexivity. rewrite (K (t_ "property") 4%nat) by reflexivity. rewrite (K (t_ "update_method") 5%nat) by reflexivity.
  rewrite (K (t_ "value") 6%nat) by reflexivity. rewrite (K (t_ "state") 7%nat) by reflexivity. reflexivity.
Qed.
(** ** Rows put together. *)
Lemma rows_back cmds c0 c1 c2 c3 c4 c5 c6 c7 :
  Forall2 (fun c x => cell_time x = Ok (c_time c)) cmds c0 -> Forall2 (fun c x => cell_event x = Ok (c_event c)) cmds c1 ->
  Forall2 (fun c x => x = CText (scope_name (scope_of (c_prop c)))) cmds c2 -> Forall2 (fun c x => cell_sub x = Ok (c_sub c)) cmds c3 ->
  Forall2 (fun c x => x = CText (view_name (c_prop c))) cmds c4 -> Forall2 (fun c x => x = CText (update_name (c_update c))) cmds c5 ->
  Forall2 (fun c x => exists w, cell_value (c_prop c) x = Ok w) cmds c6 -> Forall2 (fun c x => exists w, cell_value (c_prop c) x = Ok w) cmds c7 ->
  exists cmds', mapM command_from_cells (transpose (length cmds) [c0; c1; c2; c3; c4; c5; c6; c7]) = Ok cmds' /\ Forall2 same_header cmds cmds' /\
    Forall2 (fun d x => cell_value (c_prop d) x = Ok (c_value d)) cmds' c6 /\ Forall2 (fun d x => cell_value (c_prop d) x = Ok (c_state d)) cmds' c7.
Proof.
  intro H0. revert c1 c2 c3 c4 c5 c6 c7. induction H0 as [|c x0 cmds c0 A0 F0 IH]; intros c1 c2 c3 c4 c5 c6 c7 H1 H2 H3 H4 H5 H6 H7.
  - inversion H6; subst. inversion H7; subst. exists []. split; [reflexivity|]. split; [constructor|]. split; constructor.
  - inversion H1 as [|? x1 ? d1 A1 B1]; subst. inversion H2 as [|? x2 ? d2 A2 B2]; subst. inversion H3 as [|? x3 ? d3 A3 B3]; subst.
    inversion H4 as [|? x4 ? d4 A4 B4]; subst. inversion H5 as [|? x5 ? d5 A5 B5]; subst. inversion H6 as [|? x6 ? d6 A6 B6]; subst. inversion H7 as [|? x7 ? d7 A7 B7]; subst.
    destruct (IH _ _ _ _ _ _ _ B1 B2 B3 B4 B5 B6 B7) as (cmds' & E & S1 & S2 & S3). destruct A6 as [w6 A6]. destruct A7 as [w7 A7].
    exists (mkCmd (c_prop c) (c_update c) (c_sub c) w6 (c_time c) w7 (c_event c) :: cmds').
    split; [|split; [|split]].
    + cbn [length transpose map hd tl mapM command_from_cells cell_key bindr]. rewrite view_names. cbn [bindr]. rewrite A1. cbn [bindr]. rewrite update_names. cbn [bindr].
      rewrite A3. cbn [bindr]. rewrite A6. cbn [bindr]. rewrite A0. cbn [bindr]. rewrite A7. cbn [bindr]. rewrite E. reflexivity.
    + constructor; [|exact S1]. repeat split.
    + constructor; [exact A6|exact S2].
    + constructor; [exact A7|exact S3].
Qed.
Lemma col_each j cmds (P : command -> cell -> Prop) : (forall c x, In c cmds -> reading_in none_too (nth_text j (fields c)) x -> P c x) -> Forall2 P cmds (col j cmds).
Proof.
  intro H. unfold col. pose proof (read_reading none_too cast cuts (map (fun c => nth_text j (fields c)) cmds)) as R.
  remember (read_column none_too cast cuts (map (fun c => nth_text j (fields c)) cmds)) as cs eqn:E. clear E. revert cs R.
  induction cmds as [|c cmds IH]; intros cs R; inversion R; subst; constructor.
  - apply H; [left; reflexivity|assumption].
  - apply IH; [|assumption]. intros d x I0. apply H. right. exact I0.
Qed.
Lemma col_kept j cmds (P : command -> cell -> Prop) : (forall c, In c cmds -> wordy none_too (nth_text j (fields c)) \/ number_text (nth_text j (fields c))) ->
  (forall c x, In c cmds -> kept (nth_text j (fields c)) x -> P c x) -> Forall2 P cmds (col j cmds).
Proof.
  intros K H. unfold col. assert (K2 : Forall (fun s => wordy none_too s \/ number_text s) (map (fun c => nth_text j (fields c)) cmds)).
  { apply Forall_forall. intros s I0. apply in_map_iff in I0. destruct I0 as [c [<- I0]]. auto. }
  pose proof (read_mixed none_too cast cuts _ K2) as R.
  remember (read_column none_too cast cuts (map (fun c => nth_text j (fields c)) cmds)) as cs eqn:E. clear E K K2. revert cs R.
  induction cmds as [|c cmds IH]; intros cs R; inversion R; subst; constructor.
  - apply H; [left; reflexivity|assumption].
  - apply IH; [|assumption]. intros d x I0. apply H. right. exact I0.
Qed.
Lemma wordy_all : wordy none_too (t_ "all").
Proof. destruct none_too; repeat split. Qed.
Lemma readable_cell p v x : writable p v -> reading_in none_too (vtext p v) x -> exists w, cell_value p x = Ok w.
Proof.
  intros [U _] R. unfold vtext in R. destruct (is_text p) eqn:E.
  - apply text_cell. apply text_property_b. exact E.
  - assert (NT : ~ text_property p). { rewrite text_property_b. unfold is_text in E. congruence. }
    destruct (json_cell none_too p v x U NT R) as (w & W & _). eauto.
Qed.
Lemma back cmds : Forall filed cmds -> exists cmds', read_clean_csv none_too cast cuts (file_of cmds) = Ok cmds' /\ Forall2 same_header cmds cmds' /\
  Forall2 (fun d x => cell_value (c_prop d) x = Ok (c_value d)) cmds' (col 6 cmds) /\ Forall2 (fun d x => cell_value (c_prop d) x = Ok (c_state d)) cmds' (col 7 cmds).
Proof.
  intro F. rewrite Forall_forall in F. unfold read_clean_csv. rewrite table by (apply Forall_forall; exact F). cbn [bindr fst snd]. rewrite columns_read. cbn [bindr]. rewrite lines_length.
  apply rows_back.
  - unfold col. cbn [nth_text nth fields]. rewrite <- map_map with (g := str_int), read_ints.
    + rewrite map_map. assert (G : forall c, In c cmds -> cell_time (CInt (time_of c)) = Ok (c_time c)).
      { intros c I0. destruct (F c I0) as (_ & _ & _ & t & T & B). cbn [cell_time]. unfold time_of. now rewrite T. }
      clear F. induction cmds as [|c cmds IH]; cbn [map]; constructor; [apply G; left; reflexivity|]. apply IH. intros d I0. apply G. right. exact I0.
    + apply Forall_forall. intros z I0. apply in_map_iff in I0. destruct I0 as [c [<- I0]]. split; [|apply number_facts].
      destruct (F c I0) as (_ & _ & _ & t & T & B). unfold time_of, fits_64. rewrite T. apply andb_true_iff. rewrite Z.leb_le, Z.ltb_lt. lia.
  - apply col_each. intros c x I0 R. cbn [nth_text nth fields] in R. unfold event_text in R. destruct (c_event c) as [e|].
    + rewrite (wordy_in none_too _ _ (event_wordy none_too e) R). cbn [cell_event]. rewrite event_names. reflexivity.
    + destruct R as [[[_ ->]|[M _]]|[M _]]; [reflexivity| |]; destruct none_too; discriminate M.
  - apply col_each. intros c x I0 R. apply (wordy_in none_too _ _ (scope_wordy none_too _) R).
  - apply col_kept.
    + intros c I0. cbn [nth_text nth fields]. destruct (F c I0) as (_ & _ & [->|[i [B ->]]] & _); cbn [sub_written sub_all]; [left; apply wordy_all|]. right. exists i. split; [|reflexivity].
      unfold fits_64. apply andb_true_iff. rewrite Z.leb_le, Z.ltb_lt. lia.
    + intros c x I0 K. cbn [nth_text nth fields] in K. destruct (F c I0) as (_ & _ & [E|[i [B E]]] & _); rewrite E in *.
      * destruct K as [->|[z [Q ->]]]; [reflexivity|]. exfalso. cbn [sub_written sub_all] in Q. pose proof (int_token_int z) as X. rewrite <- Q in X. discriminate X.
      * cbn [sub_written] in K. assert (V : i = 0 \/ i = 1 \/ i = 2 \/ i = 3) by lia. destruct K as [->|[z [Q ->]]].
        -- destruct V as [->|[->|[->| ->]]]; reflexivity.
        -- cbn [cell_sub]. pose proof (int_token_int z) as X. rewrite <- Q, int_token_int in X. congruence.
  - apply col_each. intros c x I0 R. apply (wordy_in none_too _ _ (view_wordy none_too _) R).
  - apply col_each. intros c x I0 R. apply (wordy_in none_too _ _ (update_wordy none_too _) R).
  - apply col_each. intros c x I0 R. cbn [nth_text nth fields] in R. destruct (F c I0) as (W & _). exact (readable_cell _ _ _ W R).
  - apply col_each. intros c x I0 R. cbn [nth_text nth fields] in R. destruct (F c I0) as (_ & W & _). exact (readable_cell _ _ _ W R).
Qed.
End Back.

(** Values and states of rows. *)
Definition field_of (state : bool) (c : command) : val := if state then c_state c else c_value c.
Definition field_col (state : bool) : nat := if state then 7%nat else 6%nat.
Lemma forall2_nth {A B} (P : A -> B -> Prop) l m : Forall2 P l m -> forall i a b, nth_error l i = Some a -> nth_error m i = Some b -> P a b.
Proof.
  induction 1 as [|x y l m Pxy F IH]; intros [|i] a b Ha Hb; try discriminate; cbn [nth_error] in *; [congruence|eauto].
Qed.
Lemma forall2_some {A B} (P : A -> B -> Prop) l m : Forall2 P l m -> forall i a, nth_error l i = Some a -> exists b, nth_error m i = Some b.
Proof.
  induction 1 as [|x y l m Pxy F IH]; intros [|i] a Ha; try discriminate; cbn [nth_error] in *; eauto.
Qed.
Lemma back_row none_too cast cuts cmds file cmds' : Forall filed cmds -> to_csv cmds = Ok file -> read_clean_csv none_too cast cuts file = Ok cmds' ->
  Forall2 same_header cmds cmds' /\ forall state i c d, nth_error cmds i = Some c -> nth_error cmds' i = Some d ->
    exists x, nth_error (col none_too cast cuts (field_col state) cmds) i = Some x /\ reading_in none_too (vtext (c_prop c) (field_of state c)) x /\
      cell_value (c_prop c) x = Ok (field_of state d).
Proof.
  intros F W R. rewrite (to_csv_file cmds F) in W. apply Ok_inj in W. subst file.
  destruct (back none_too cast cuts cmds F) as (cmds2 & R2 & H & V & T). rewrite R in R2. apply Ok_inj in R2. subst cmds2.
  split; [exact H|]. intros state i c d C D.
  assert (X : exists x, nth_error (col none_too cast cuts (field_col state) cmds) i = Some x /\ cell_value (c_prop d) x = Ok (field_of state d)).
  { destruct state; cbn [field_col field_of].
    - destruct (forall2_some _ _ _ T i d D) as [x X]. exists x. split; [exact X|]. exact (forall2_nth _ _ _ T i d x D X).
    - destruct (forall2_some _ _ _ V i d D) as [x X]. exists x. split; [exact X|]. exact (forall2_nth _ _ _ V i d x D X). }
  destruct X as [x [X E]]. exists x. split; [exact X|]. pose proof (forall2_nth _ _ _ H i c d C D) as (P & _). rewrite P in E. split; [|exact E].
  pose proof (read_reading none_too cast cuts (map (fun c => nth_text (field_col state) (fields c)) cmds)) as Rd.
  assert (G : nth_error (map (fun c => nth_text (field_col state) (fields c)) cmds) i = Some (vtext (c_prop c) (field_of state c))).
  { rewrite nth_error_map, C. cbn [option_map]. destruct state; reflexivity. }
  exact (forall2_nth _ _ _ Rd i _ x G X).
Qed.
Lemma filed_writable cmds state i c : Forall filed cmds -> nth_error cmds i = Some c -> writable (c_prop c) (field_of state c).
Proof. intros F C. rewrite Forall_forall in F. destruct (F c (nth_error_In _ _ C)) as (A & B & _). destruct state; assumption. Qed.
Lemma not_text p : ~ text_property p -> is_text p = false.
Proof. rewrite text_property_b. apply not_true_is_false. Qed.

(** C98: a written table of commands is read back. *)
Theorem C98_commands : forall none_too cast cuts cmds, cmds <> [] -> Forall filed cmds ->
  exists file cmds', to_csv cmds = Ok file /\ read_clean_csv none_too cast cuts file = Ok cmds' /\ Forall2 same_header cmds cmds' /\
    Forall2 (fun c d => ~ text_property (c_prop c) -> recovered (c_value c) (c_value d) /\ recovered (c_state c) (c_state d)) cmds cmds'.
Proof.
  intros none_too cast cuts cmds _ F. destruct (back none_too cast cuts cmds F) as (cmds' & R & H & _). exists (file_of cmds), cmds'.
  pose proof (to_csv_file cmds F) as W. split; [exact W|]. split; [exact R|]. split; [exact H|].
  destruct (back_row none_too cast cuts cmds _ cmds' F W R) as [_ B].
  assert (G : forall i c d, nth_error cmds i = Some c -> nth_error cmds' i = Some d -> ~ text_property (c_prop c) ->
    recovered (c_value c) (c_value d) /\ recovered (c_state c) (c_state d)).
  { intros i c d C D N. assert (K : forall state, recovered (field_of state c) (field_of state d)).
    { intro state. destruct (B state i c d C D) as (x & _ & Rd & E). unfold vtext in Rd. rewrite (not_text _ N) in Rd.
      destruct (json_cell none_too (c_prop c) (field_of state c) x (proj1 (filed_writable cmds state i c F C)) N Rd) as (w & W1 & W2 & _). congruence. }
    split; [exact (K false)|exact (K true)]. }
  clear -H G. induction H as [|c d cmds cmds' S1 H IH]; constructor.
  - apply (G 0%nat); reflexivity.
  - apply IH. intros i. apply (G (S i)).
Qed.
(** JSON texts are not taken for missing values, but null. *)
Lemma json_missing b v : missing b (dumps v) = true -> v = VNone.
Proof.
  intro M. destruct v as [|bb|n|s|l]; [reflexivity| | | |].
  - destruct b, bb; discriminate M.
  - cbn [dumps] in M. rewrite missing_number in M; [discriminate|apply num_nonempty|apply num_chars].
  - destruct (wordy_text_value b (VStr s) ltac:(left; eauto)) as [X _]. congruence.
  - destruct (wordy_text_value b (VList l) ltac:(right; eauto)) as [X _]. congruence.
Qed.
Lemma looks_missing_b b s : looks_missing b s <-> missing b s = true.
Proof.
  unfold looks_missing, missing. rewrite existsb_exists. split.
  - intro H. exists s. split; [|apply text_eqb_refl]. unfold missing_texts. apply in_or_app. destruct H as [H|[-> ->]]; [left|right; left; reflexivity].
    cbn [map In] in H |- *. tauto.
  - intros [x [I0 E]]. apply text_eqb_iff in E. subst x. unfold missing_texts in I0. apply in_app_or in I0. destruct I0 as [H|H].
    + left. cbn [map In] in H |- *. tauto.
    + destruct b; [|destruct H]. destruct H as [<-|[]]. right. auto.
Qed.
(** A list in the same column and piece keeps everything as it was written. *)
Lemma list_keeps none_too cast cuts cmds state i j c e : Forall filed cmds -> nth_error cmds i = Some c -> nth_error cmds j = Some e ->
  piece cuts i = piece cuts j -> is_list_value (field_of state e) -> missing none_too (vtext (c_prop c) (field_of state c)) = false ->
  nth_error (col none_too cast cuts (field_col state) cmds) i = Some (CText (vtext (c_prop c) (field_of state c))).
Proof.
  intros F C E P L M. assert (NE : is_text (c_prop e) = false).
  { destruct (is_text (c_prop e)) eqn:Q; [|reflexivity]. apply text_property_b in Q. destruct (filed_writable cmds state j e F E) as [_ X]. destruct (X Q) as [Y _]. contradiction. }
  unfold col. assert (G : forall i c, nth_error cmds i = Some c -> nth_error (map (fun c => nth_text (field_col state) (fields c)) cmds) i = Some (vtext (c_prop c) (field_of state c))).
  { intros k d D. rewrite nth_error_map, D. cbn [option_map]. destruct state; reflexivity. }
  apply (read_texts none_too cast cuts _ i j _ (vtext (c_prop e) (field_of state e)) (G i c C) (G j e E) P); [|exact M].
  unfold vtext. rewrite NE. apply wordy_text_value. right. exact L.
Qed.
Theorem C98_exact : forall none_too cast cuts cmds file cmds', Forall filed cmds -> to_csv cmds = Ok file -> read_clean_csv none_too cast cuts file = Ok cmds' ->
  forall i j c d e, nth_error cmds i = Some c -> nth_error cmds' i = Some d -> nth_error cmds j = Some e -> piece cuts i = piece cuts j ->
  ~ text_property (c_prop c) ->
  (is_list_value (c_value e) -> same_value (c_value c) (c_value d)) /\ (is_list_value (c_state e) -> same_value (c_state c) (c_state d)).
Proof.
  intros none_too cast cuts cmds file cmds' F W R i j c d e C D E P N.
  assert (K : forall state, is_list_value (field_of state e) -> same_value (field_of state c) (field_of state d)).
  { intros state L. destruct (back_row none_too cast cuts cmds file cmds' F W R) as [_ B]. destruct (B state i c d C D) as (x & X & Rd & V).
    pose proof (proj1 (filed_writable cmds state i c F C)) as U. 
    destruct (missing none_too (vtext (c_prop c) (field_of state c))) eqn:M.
    - unfold vtext in M. rewrite (not_text _ N) in M. pose proof (json_missing none_too _ M) as Z. rewrite Z in *.
      destruct Rd as [[[_ ->]|[M2 _]]|[M2 _]]; [|unfold vtext in M2; rewrite (not_text _ N) in M2; congruence..].
      rewrite nan_value in V. fold (is_text (c_prop c)) in V. rewrite (not_text _ N) in V. apply Ok_inj in V. rewrite V. constructor.
    - rewrite (list_keeps none_too cast cuts cmds state i j c e F C E P L M) in X. injection X as <-. unfold vtext in *. rewrite (not_text _ N) in *.
      destruct (json_cell none_too (c_prop c) (field_of state c) _ U N Rd) as (w & W1 & _ & W3). rewrite W1 in V. apply Ok_inj in V. subst w. apply W3. reflexivity. }
  split; [exact (K false)|exact (K true)].
Qed.
(** C99: texts. *)
Theorem C99_texts_partial : forall none_too cast cuts cmds file cmds', Forall filed cmds -> to_csv cmds = Ok file -> read_clean_csv none_too cast cuts file = Ok cmds' ->
  forall i j c d e, nth_error cmds i = Some c -> nth_error cmds' i = Some d -> nth_error cmds j = Some e -> piece cuts i = piece cuts j ->
  text_property (c_prop c) ->
  (is_list_value (c_value e) -> forall s, c_value c = VStr s -> ~ looks_missing none_too s -> c_value d = VStr s) /\
  (is_list_value (c_state e) -> forall s, c_state c = VStr s -> ~ looks_missing none_too s -> c_state d = VStr s).
Proof.
  intros none_too cast cuts cmds file cmds' F W R i j c d e C D E P T.
  assert (K : forall state, is_list_value (field_of state e) -> forall s, field_of state c = VStr s -> ~ looks_missing none_too s -> field_of state d = VStr s).
  { intros state L s V0 NM. rewrite looks_missing_b in NM. apply not_true_is_false in NM.
    destruct (back_row none_too cast cuts cmds file cmds' F W R) as [_ B]. destruct (B state i c d C D) as (x & X & Rd & V).
    assert (TX : vtext (c_prop c) (field_of state c) = s). { unfold vtext. apply text_property_b in T. fold (is_text (c_prop c)) in T. rewrite T, V0. reflexivity. }
    rewrite (list_keeps none_too cast cuts cmds state i j c e F C E P L) in X by (rewrite TX; exact NM). injection X as <-. rewrite TX in V.
    rewrite text_cell_text in V by exact T. apply Ok_inj in V. exact V. }
  split; [exact (K false)|exact (K true)].
Qed.
Theorem C99_missing : forall none_too cast cuts cmds file cmds', Forall filed cmds -> to_csv cmds = Ok file -> read_clean_csv none_too cast cuts file = Ok cmds' ->
  forall i c d s, nth_error cmds i = Some c -> nth_error cmds' i = Some d -> text_property (c_prop c) -> looks_missing none_too s ->
  (c_value c = VStr s -> c_value d = VStr (t_ "nan")) /\ (c_state c = VStr s -> c_state d = VStr (t_ "nan")).
Proof.
  intros none_too cast cuts cmds file cmds' F W R i c d s C D T L. apply looks_missing_b in L.
  assert (K : forall state, field_of state c = VStr s -> field_of state d = VStr (t_ "nan")).
  { intros state V0. destruct (back_row none_too cast cuts cmds file cmds' F W R) as [_ B]. destruct (B state i c d C D) as (x & X & Rd & V).
    apply text_property_b in T. fold (is_text (c_prop c)) in T. unfold vtext in Rd. rewrite T, V0 in Rd. cbn [py_str] in Rd.
    destruct Rd as [[[_ ->]|[M2 _]]|[M2 _]]; [|congruence..]. rewrite nan_value in V. fold (is_text (c_prop c)) in V. rewrite T in V. apply Ok_inj in V. exact V. }
  split; [exact (K false)|exact (K true)].
Qed.

(** Logs: every log that is converted and names no seat but 0 to 3 can be written, and is read back. *)
Theorem C98_converted : forall unquote so strict none_too cast cuts events cmds,
  Forall (clean_event unquote) events -> Z.of_nat (length events) <= 2 ^ 63 ->
  to_commands (tenhou_command unquote so) strict events = Ok cmds -> Forall seated events -> cmds <> [] ->
  exists file cmds', to_csv cmds = Ok file /\ read_clean_csv none_too cast cuts file = Ok cmds' /\ Forall2 same_header cmds cmds' /\
    Forall2 (fun c d => ~ text_property (c_prop c) -> recovered (c_value c) (c_value d) /\ recovered (c_state c) (c_state d)) cmds cmds'.
Proof.
  intros unquote so strict none_too cast cuts events cmds C L H Se N. apply C98_commands; [exact N|]. apply (seated_only _ _ _ _ _ Se) in H as Q. eapply converted_filed; eassumption.
Qed.

(** ** Examples *)
Lemma clean_b (l : list event) : forallb (fun e => forallb (fun a => forallb (fun c => (14 <=? c) && (c <? 55296)) (snd a)) (attrib e)) l = true -> Forall (clean_event (fun s => s)) l.
Proof.
  intro F. rewrite forallb_forall in F. apply Forall_forall. intros e I0. specialize (F e I0). rewrite forallb_forall in F. apply Forall_forall. intros a I1. specialize (F a I1). rewrite forallb_forall in F.
  assert (U : unicode (snd a)). { apply Forall_forall. intros c I2. specialize (F c I2). rewrite andb_true_iff, Z.leb_le, Z.ltb_lt in F. lia. }
  assert (O : one_line_break (snd a)). { split; intro K; specialize (F _ K); rewrite andb_true_iff, Z.leb_le, Z.ltb_lt in F; lia. }
  cbv beta. auto.
Qed.
Lemma seats_b cmds : forallb (fun c => match c_sub c with SId i => (0 <=? i) && (i <=? 3) | _ => true end) cmds = true -> Forall seats_only cmds.
Proof.
  intro F. rewrite forallb_forall in F. apply Forall_forall. intros c I0 i E. specialize (F c I0). rewrite E in F. rewrite andb_true_iff, !Z.leb_le in F. exact F.
Qed.
Definition csv_commands : list command := match to_commands (tenhou_command (fun s => s) (fun l => l)) false ex_record with Ok l => l | Err _ => [] end.
Lemma csv_filed : Forall filed csv_commands.
Proof.
  apply (converted_filed (fun s => s) (fun l => l) false ex_record); [apply clean_b; vm_compute; reflexivity|vm_compute; discriminate| |apply seats_b; vm_compute; reflexivity].
  unfold csv_commands. destruct (to_commands _ _ _) eqn:E; [reflexivity|vm_compute in E; discriminate E].
Qed.
(** The first lines of the file, and what the file is read as: all 85 commands with equal values. *)
Example C98_example : exists file cmds', to_csv csv_commands = Ok file /\ read_clean_csv false false [30%nat] file = Ok cmds' /\
  firstn 5 (split_on 10 file) =
    [t_ ",timestamp,event,scope,sub_scope_id,property,update_method,value,state";
     t_ "0,0,record_init,record,all,seed,REPLACE,""mt19937ar-sha512-n288-base64,AAAA"",""mt19937ar-sha512-n288-base64,AAAA""";
     t_ "1,1,record_init,record,all,play_level,REPLACE," ++ [40179] ++ t_ "," ++ [40179];
     t_ "2,1,record_init,record,all,show_discard_shadow,REPLACE,false,false";
     t_ "3,1,record_init,record,all,play_wind_count,REPLACE,2,2"] /\
  length cmds' = 85%nat /\ map c_sub cmds' = map c_sub csv_commands /\ map c_prop cmds' = map c_prop csv_commands /\
  forallb (fun cd => (val_eqb (c_value (fst cd)) (c_value (snd cd)) || view_eqb (c_prop (fst cd)) PV_extra_level)) (combine csv_commands cmds') = true.
Proof. eexists. eexists. split; [vm_compute; reflexivity|]. split; [vm_compute; reflexivity|]. vm_compute. repeat split. Qed.

(** A player may be called NA. *)
Definition na_record : list event :=
  [ev "GO" [("type", "169"); ("lobby", "0")];
   ev "UN" [("n0", "NA"); ("n1", "B"); ("n2", "C"); ("n3", "D"); ("dan", "11,12,13,14"); ("rate", "1500.00,1600.50,1700.00,1800.00"); ("sx", "M,M,F,M")]]%string.
Definition na_commands : list command := match to_commands (tenhou_command (fun s => s) (fun l => l)) false na_record with Ok l => l | Err _ => [] end.
Lemma na_filed : Forall filed na_commands.
Proof.
  apply (converted_filed (fun s => s) (fun l => l) false na_record); [apply clean_b; vm_compute; reflexivity|vm_compute; discriminate| |apply seats_b; vm_compute; reflexivity].
  unfold na_commands. destruct (to_commands _ _ _) eqn:E; [reflexivity|vm_compute in E; discriminate E].
Qed.
Theorem C99_texts_refuted : forall none_too cast cuts, exists cmds file cmds' i c d,
  to_commands (tenhou_command (fun s => s) (fun l => l)) false na_record = Ok cmds /\ to_csv cmds = Ok file /\ read_clean_csv none_too cast cuts file = Ok cmds' /\
  nth_error cmds i = Some c /\ nth_error cmds' i = Some d /\ c_prop c = PV_name /\ c_value c = VStr (t_ "NA") /\ c_value d = VStr (t_ "nan").
Proof.
  intros none_too cast cuts. destruct (C98_commands none_too cast cuts na_commands ltac:(vm_compute; discriminate) na_filed) as (file & cmds' & W & R & H & _).
  exists na_commands, file, cmds', 8%nat.
  assert (C : exists c, nth_error na_commands 8 = Some c /\ c_prop c = PV_name /\ c_value c = VStr (t_ "NA")) by (vm_compute; eexists; repeat split).
  destruct C as [c [C [P V]]]. destruct (forall2_some _ _ _ H 8%nat c C) as [d D]. exists c, d.
  split; [unfold na_commands; destruct (to_commands _ _ _) eqn:E; [reflexivity|vm_compute in E; discriminate E]|]. repeat (split; [assumption|]).
  apply (C99_missing none_too cast cuts na_commands file cmds' na_filed W R 8%nat c d (t_ "NA") C D); [|left; cbn; tauto|exact V].
  rewrite P. cbn. tauto.
Qed.
Print Assumptions C98_commands.
Print Assumptions C98_exact.
Print Assumptions C98_converted.
Print Assumptions C99_texts_partial.
Print Assumptions C99_missing.
Print Assumptions C99_texts_refuted.
