(** C45: commands written as records of texts and read back. *)
From Verif Require Import Base Category Tile Parse Text Tenhou Event Reader Value Json Transfer Universe Record Translator TenhouCommands
  Prop_Meld StateProofs JsonProofs UniverseProofs Spec_Universe Spec_Record.
From Coq Require Import String List ZArith Lia Bool.
Import ListNotations.
Open Scope list_scope.
Open Scope Z_scope.

Lemma unicode_readable v : unicode_value v -> readable v.
Proof.
  induction v as [| b | n | s | l IH] using val_ind2; intro U; try exact I.
  - inversion U as [| | |? H|]; subst. cbn [readable]. eapply Forall_impl; [|exact H]. intros c K. cbv beta in K. unfold scalar. lia.
  - apply readable_list. inversion U as [| | | |? H]; subst. rewrite Forall_forall in *. auto.
Qed.
Lemma norm_same v : same_value v (vnorm v).
Proof.
  induction v as [| b | n | s | l IH] using val_ind2; cbn [vnorm]; try constructor.
  - destruct n as [z|m k]; cbn [num_norm]; [constructor|]. pose proof (dec_norm_spec k m) as H. destruct (dec_norm m k). now constructor.
  - induction IH; cbn [map]; constructor; auto.
Qed.
Lemma to_str_prop v x : prop_call [x] v M_to_str = if existsb (view_eqb v) [RV_play_level; RV_seed; GV_extra_reason; PV_name; PV_level; PV_extra_level]
  then plain_str x else Ok (VStr (dumps x)).
Proof. destruct v; reflexivity. Qed.
Lemma from_str_prop v x : prop_call [x] v M_from_str = if existsb (view_eqb v) [RV_play_level; RV_seed; GV_extra_reason; PV_name; PV_level; PV_extra_level]
  then plain_str x else json_load_any x.
Proof. destruct v; reflexivity. Qed.
Lemma text_property_b v : text_property v <-> existsb (view_eqb v) [RV_play_level; RV_seed; GV_extra_reason; PV_name; PV_level; PV_extra_level] = true.
Proof. apply in_view_b. Qed.
Lemma view_names v : view_by_name (scope_name (scope_of v)) (view_name v) = Ok v.
Proof. destruct v; reflexivity. Qed.
Lemma update_names u : by_name update_name all_updates (update_name u) = Ok u.
Proof. destruct u; reflexivity. Qed.
Lemma event_names e : by_name event_name all_events (event_name e) = Ok e.
Proof. destruct e; reflexivity. Qed.
Lemma sub_kept s : proper_sub s -> try_int s = s.
Proof.
  destruct s as [[|c t]|i]; auto. intros (d & D & N). cbn [try_int]. destruct (forallb ch_digit (c :: t)) eqn:E; auto.
  rewrite forallb_forall in E. specialize (E d D). unfold ch_digit in E. apply andb_true_iff in E. rewrite !Z.leb_le in E. lia.
Qed.
(** One value through [to_str] and [from_str]. *)
Lemma value_trip p v : unicode_value v -> (text_property p -> ~ is_list_value v) -> exists t w,
  prop_call [v] p M_to_str = Ok (VStr t) /\ prop_call [VStr t] p M_from_str = Ok w /\ prop_call [w] p M_to_str = Ok (VStr t) /\
  (~ text_property p -> same_value v w) /\ (text_property p -> w = VStr t /\ forall s, v = VStr s -> w = VStr s).
Proof.
  intros U L. rewrite !to_str_prop. setoid_rewrite to_str_prop. setoid_rewrite from_str_prop. rewrite text_property_b in L.
  destruct (existsb (view_eqb p) _) eqn:E.
  - assert (H : exists t, py_str v = Ok t). { destruct v; cbn [py_str]; eauto. exfalso. apply L; [auto|]. eexists; reflexivity. }
    destruct H as [t H]. exists t, (VStr t). unfold plain_str. rewrite H. cbn [bindr py_str].
    split; [auto|]. split; [auto|]. split; [auto|]. split; [intro N; destruct N; now apply text_property_b|]. intros _. split; [auto|]. intros s ->. cbn [py_str] in H. congruence.
  - exists (dumps v), (vnorm v). split; [auto|]. split; [|split; [|split]].
    + unfold json_load_any. cbn [py_str bindr]. apply loads_dumps. now apply unicode_readable.
    + now rewrite dumps_norm.
    + intros _. apply norm_same.
    + intro T. apply text_property_b in T. congruence.
Qed.

(** Writing a command, reading it and writing it again gives the same record; everything but
    value and state is recovered exactly. *)
Theorem C45_record : forall c, unicode_value (c_value c) -> unicode_value (c_state c) -> proper_sub (c_sub c) ->
  (text_property (c_prop c) -> ~ is_list_value (c_value c) /\ ~ is_list_value (c_state c)) ->
  exists r c', to_record c = Ok r /\ from_record r = Ok c' /\ to_record c' = Ok r /\
    c_prop c' = c_prop c /\ c_update c' = c_update c /\ c_sub c' = c_sub c /\ c_time c' = c_time c /\ c_event c' = c_event c.
Proof.
  intros [p u s v tm st ev] U1 U2 PS L. cbn [c_prop c_update c_sub c_value c_time c_state c_event] in *.
  destruct (value_trip p v U1 ltac:(intro T; apply (L T))) as (t1 & w1 & A1 & B1 & D1 & _).
  destruct (value_trip p st U2 ltac:(intro T; apply (L T))) as (t2 & w2 & A2 & B2 & D2 & _).
  unfold to_record at 1. cbn [c_prop c_update c_sub c_value c_time c_state c_event]. rewrite A1, A2. cbn [bindr].
  eexists. eexists. split; [reflexivity|]. unfold from_record. cbn [r_time r_event r_scope r_sub r_prop r_update r_value r_state].
  rewrite view_names. cbn [bindr]. rewrite update_names, B1, B2.
  replace (match option_map event_name ev with Some n => do e <- by_name event_name all_events n; Ok (Some e) | None => Ok None end) with (@Ok (option etype) ev)
    by (destruct ev as [e|]; cbn [option_map]; [now rewrite event_names|auto]).
  cbn [bindr]. split; [reflexivity|]. unfold to_record. cbn [c_prop c_update c_sub c_value c_time c_state c_event]. rewrite D1, D2, sub_kept by auto.
  cbn [bindr]. repeat split.
Qed.
(** Value and state are recovered unless the property has type str; there, texts are. *)
Theorem C45_value_partial : forall c r c', unicode_value (c_value c) -> unicode_value (c_state c) ->
  to_record c = Ok r -> from_record r = Ok c' ->
  (~ text_property (c_prop c) -> same_value (c_value c) (c_value c') /\ same_value (c_state c) (c_state c')) /\
  (text_property (c_prop c) -> forall s t, c_value c = VStr s -> c_state c = VStr t -> c_value c' = VStr s /\ c_state c' = VStr t).
Proof.
  intros [p u s v tm st ev] r c' U1 U2 W R. cbn [c_prop c_update c_sub c_value c_time c_state c_event] in *.
  assert (L : text_property p -> ~ is_list_value v /\ ~ is_list_value st).
  { intro T. apply text_property_b in T. unfold to_record in W. cbn [c_prop c_update c_sub c_value c_time c_state c_event] in W. rewrite !to_str_prop, T in W.
    split; intros [l ->]; cbn [plain_str py_str bindr] in W; [discriminate|]. destruct (plain_str v); discriminate. }
  destruct (value_trip p v U1 ltac:(intro T; apply (L T))) as (t1 & w1 & A1 & B1 & _ & E1 & G1).
  destruct (value_trip p st U2 ltac:(intro T; apply (L T))) as (t2 & w2 & A2 & B2 & _ & E2 & G2).
  unfold to_record in W. cbn [c_prop c_update c_sub c_value c_time c_state c_event] in W. rewrite A1, A2 in W. cbn [bindr] in W. apply Ok_inj in W. subst r.
  unfold from_record in R. cbn [r_time r_event r_scope r_sub r_prop r_update r_value r_state] in R. rewrite view_names in R. cbn [bindr] in R. rewrite update_names, B1, B2 in R.
  replace (match option_map event_name ev with Some n => do e <- by_name event_name all_events n; Ok (Some e) | None => Ok None end) with (@Ok (option etype) ev) in R
    by (destruct ev as [e|]; cbn [option_map]; [now rewrite event_names|auto]).
  cbn [bindr] in R. apply Ok_inj in R. subst c'. cbn [c_value c_state]. split.
  - intro N. auto.
  - intros T a b Ea Eb. split; [apply (proj2 (G1 T))|apply (proj2 (G2 T))]; auto.
Qed.
(** Different values of one JSON property have different texts. *)
Theorem C45_distinct : forall p v w t, ~ text_property p -> unicode_value v -> unicode_value w ->
  prop_call [v] p M_to_str = Ok t -> prop_call [w] p M_to_str = Ok t -> exists x, same_value v x /\ same_value w x.
Proof.
  intros p v w t N U1 U2 H1 H2. rewrite to_str_prop in *. rewrite text_property_b in N. destruct (existsb (view_eqb p) _); [congruence|].
  apply Ok_inj in H1. apply Ok_inj in H2. assert (Q : dumps v = dumps w) by congruence. exists (vnorm v). split; [apply norm_same|].
  assert (X : vnorm v = vnorm w). { pose proof (loads_dumps v (unicode_readable v U1)) as A. pose proof (loads_dumps w (unicode_readable w U2)) as B. rewrite Q in A. congruence. }
  rewrite X. apply norm_same.
Qed.

(** The rating a player logs in with is a number in the command and a text after the trip. *)
Definition rec_un : event := mkEvent (t_ "UN") [(t_ "n0", t_ "A"); (t_ "n1", t_ "B"); (t_ "n2", t_ "C"); (t_ "n3", t_ "D");
  (t_ "dan", t_ "0,1,2,3"); (t_ "rate", t_ "1500.5,1500,1600,1700"); (t_ "sx", t_ "M,F,M,M")].
Definition rec_go : event := mkEvent (t_ "GO") [(t_ "type", t_ "169")].
Theorem C45_value_refuted : exists es cmds c r c', to_commands (tenhou_command (fun s => s) (fun l => l)) true es = Ok cmds /\ In c cmds /\
  unicode_value (c_value c) /\ unicode_value (c_state c) /\ to_record c = Ok r /\ from_record r = Ok c' /\ ~ same_value (c_value c) (c_value c').
Proof.
  destruct (to_commands (tenhou_command (fun s => s) (fun l => l)) true [rec_go; rec_un]) as [cmds|] eqn:E; [|vm_compute in E; discriminate E].
  exists [rec_go; rec_un], cmds. pose proof E as E2. vm_compute in E2. apply Ok_inj in E2. 
  set (P := fun c => view_eqb (c_prop c) PV_extra_level).
  assert (H : exists c, find P cmds = Some c) by (subst cmds; vm_compute; eauto). destruct H as [c F].
  pose proof (find_some _ _ F) as [IN _]. subst cmds. vm_compute in F.
  exists c. injection F as <-. eexists. eexists. split; [exact E|]. split; [exact IN|]. split; [constructor|]. split; [constructor|].
  split; [vm_compute; reflexivity|]. split; [vm_compute; reflexivity|]. intro K. inversion K.
Qed.
(** A value of every kind, nested. *)
Definition rec_value : val := VList [VNone; VBool true; VList []; VList [VStr (t_ "1m"); VStr [34; 92; 10; 127; 8364; 128512]; VNum (NInt (-25)); VNum (NDec (-1350) 2)]].
Definition rec_cmd : command := mkCmd PV_hand U_REPLACE (SId 2) rec_value (Some 7) (VList []) (Some E_draw).
Example C45_example : exists r c', to_record rec_cmd = Ok r /\ from_record r = Ok c' /\ to_record c' = Ok r /\ same_value rec_value (c_value c') /\
  r_value r = VStr (t_ "[null, true, [], [""1m"", ""\""\\\n\u007f\u20ac\ud83d\ude00"", -25, -13.5]]").
Proof.
  assert (U : unicode_value rec_value).
  { unfold rec_value. repeat first [apply Forall_cons | apply Forall_nil | constructor]; lia. }
  destruct (C45_record rec_cmd U ltac:(constructor; constructor) I) as (r & c' & A & B & D & _).
  { intros T. exfalso. unfold text_property, rec_cmd in T. cbn [c_prop In] in T. intuition discriminate. }
  exists r, c'. split; [exact A|]. split; [exact B|]. split; [exact D|].
  destruct (C45_value_partial rec_cmd r c' U ltac:(constructor; constructor) A B) as [K _].
  split; [apply K; intros T; unfold text_property, rec_cmd in T; cbn [c_prop In] in T; intuition discriminate|].
  vm_compute in A. apply Ok_inj in A. subst r. reflexivity.
Qed.
Print Assumptions C45_record.
Print Assumptions C45_value_partial.
Print Assumptions C45_value_refuted.
