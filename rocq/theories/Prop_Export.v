(** C104 and C105: the converter script, and the tables of commands. *)
From Verif Require Import Base Category Tile Parse Text Tenhou TenhouProofs Spec_Tile Spec_Meld MeldProofs Prop_Meld Event Const Reader State Spec_Log StateProofs Prop_State Value Json Universe Translator TenhouCommands
  Transfer Spec_Transfer Spec_Universe UniverseProofs Prop_Executor CommandProofs Prop_Commands Spec_Play CommandState CommandPlay PlaySteps PlayProofs Prop_Play Prop_Hand Spec_Score FinishProofs Prop_Score
  Spec_Header Prop_Header Prop_Reader Spec_Read Prop_Read Spec_Convert ConvertProofs Prop_Convert Url Spec_Url Prop_Url
  Record Spec_Record JsonProofs Prop_Record Csv Spec_Csv CsvProofs CsvValues CsvConverted Prop_Csv StateCsv Spec_StateCsv StateCsvProofs Prop_StateCsv Spec_Seats SeatsProofs Export Spec_Export.
From Coq Require Import String List ZArith Lia Bool Permutation.
Import ListNotations.
Open Scope list_scope.
Open Scope Z_scope.

(** ** White space *)
Lemma py_space_iff c : py_space c = true <-> blank c.
Proof.
  unfold py_space, blank. cbn [In]. rewrite !orb_true_iff, !andb_true_iff, !Z.leb_le, !Z.eqb_eq. intuition lia.
Qed.
Lemma lstrip_blanks a s : Forall blank a -> lstrip (a ++ s) = lstrip s.
Proof. induction 1 as [|c a B F IH]; [reflexivity|]. cbn [app lstrip]. rewrite (proj2 (py_space_iff c) B). exact IH. Qed.
Lemma lstrip_start s : (forall c r, s = c :: r -> ~ blank c) -> lstrip s = s.
Proof. destruct s as [|c r]; [reflexivity|]. intro H. cbn [lstrip]. destruct (py_space c) eqn:E; [|reflexivity]. exfalso. exact (H c r eq_refl (proj1 (py_space_iff c) E)). Qed.
Lemma strip_link a s b : Forall blank a -> Forall blank b -> trimmed s -> py_strip (a ++ s ++ b) = s.
Proof.
  intros A B [T1 T2]. unfold py_strip. rewrite lstrip_blanks by exact A. destruct s as [|c r].
  - cbn [app]. rewrite <- (app_nil_r b), lstrip_blanks by exact B. reflexivity.
  - change ((c :: r) ++ b) with (c :: (r ++ b)). rewrite (lstrip_start (c :: r ++ b)).
    + change (c :: r ++ b) with ((c :: r) ++ b). rewrite rev_app_distr, lstrip_blanks by (apply Forall_rev; exact B).
      rewrite lstrip_start; [apply rev_involutive|]. intros d q E. apply (T2 (rev q) d). rewrite <- (rev_involutive (c :: r)), E. reflexivity.
    + intros d q [= <- _]. exact (T1 c r eq_refl).
Qed.

(** ** A log with settings has commands. *)
Lemma classic_tail (P : event -> Prop) : (forall e, P e \/ ~ P e) -> forall es, (exists e, In e es /\ P e) \/ Forall (fun e => ~ P e) es.
Proof.
  intro D. induction es as [|x es [(e & I0 & Pe)|F]].
  - right. constructor.
  - left. exists e. split; [now right|exact Pe].
  - destruct (D x) as [Px|N]; [left; exists x; split; [now left|exact Px]|right; constructor; assumption].
Qed.
Lemma last_of (P : event -> Prop) : (forall e, P e \/ ~ P e) -> forall es, (exists e, In e es /\ P e) -> exists e, last_such P e es.
Proof.
  intro D. induction es as [|x es IH]; intros (e & I0 & Pe); [destruct I0|].
  destruct (classic_tail P D es) as [Ex|No].
  - destruct (IH Ex) as (y & b & a & E & Py & F). exists y, (x :: b), a. split; [rewrite E; reflexivity|]. auto.
  - destruct I0 as [->|I0].
    + exists e, [], es. split; [reflexivity|]. split; [exact Pe|exact No].
    + exfalso. rewrite Forall_forall in No. exact (No e I0 Pe).
Qed.
Lemma some_commands unquote so strict n w acts es cmds : proper n w acts es -> has_tag (t_ "GO") es ->
  to_commands (tenhou_command unquote so) strict es = Ok cmds -> cmds <> [].
Proof.
  intros (_ & _ & C & _) (e & I0 & T) H.
  destruct (last_of (tagged (t_ "GO"))) with (es := es) as [g L].
  - intro x. unfold tagged. destruct (text_eqb (tag x) (t_ "GO")) eqn:E; [left; apply text_eqb_iff; exact E|right; intro Q; apply text_eqb_iff in Q; congruence].
  - exists e. split; [exact I0|exact T].
  - destruct L as (b & a & E & Tg & F). rewrite Forall_forall in C. destruct (C g) as [(v & _ & Hv & _) _].
    + rewrite E. apply in_or_app. right. now left.
    + exact Tg.
    + intros ->. destruct (C72_settings unquote so strict es g v []) as [K _]; [exists b, a; auto|exact Hv|exact H|].
      inversion K as [| |]; match goal with Q : _ ++ [_] = [] |- _ => destruct (app_cons_not_nil _ _ _ (eq_sym Q)) end.
Qed.

(** ** C104: the script. *)
Theorem C104_script : forall semicolons so server before base ps frag after id head ds events n w acts none_too cast cuts,
  (forall l, Permutation (so l) l) -> Forall blank before -> Forall blank after -> trimmed (link base ps frag) ->
  plain_base base -> plain_params ps -> names_log ps id ->
  server (t_ "http://e.mjv.jp/0/log/?" ++ id) = Ok events -> good_log head ds events -> proper n w acts events ->
  Forall (clean_event py_unquote) events -> Forall seated events -> Z.of_nat (length events) <= 2 ^ 63 ->
  exists file cmds cmds',
    main semicolons so server (before ++ link base ps frag ++ after) =
      Ok (id ++ t_ "_command.csv", file, t_ "command and state saved to '" ++ id ++ t_ "_command.csv" ++ t_ "'") /\
    to_commands (tenhou_command py_unquote so) false events = Ok cmds /\ cmds <> [] /\
    read_clean_csv none_too cast cuts file = Ok cmds' /\ Forall2 same_header cmds cmds' /\
    Forall2 (fun c d => ~ text_property (c_prop c) -> recovered (c_value c) (c_value d) /\ recovered (c_state c) (c_state d)) cmds cmds'.
Proof.
  intros semicolons so server before base ps frag after id head ds events n w acts none_too cast cuts SO B A T Pb Pp Nl Sv G Pr Cl Se Ln.
  destruct (C96_converted py_unquote so n w acts events SO Pr) as [cmds H].
  assert (N : cmds <> []).
  { eapply some_commands; [exact Pr| |exact H]. destruct G as (E & (_ & (go & v & Fg & _) & _) & _). exists go. rewrite E. clear -Fg.
    assert (K : In go head /\ tag go = t_ "GO"). { induction Fg as [e r T|x r e T F IH]; [split; [now left|exact T]|]. destruct IH as [I0 T0]. split; [now right|exact T0]. }
    split; [apply in_or_app; left; apply K|apply K]. }
  destruct (C98_converted py_unquote so false none_too cast cuts events cmds Cl Ln H Se N) as (file & cmds' & W & R & Hd & V).
  exists file, cmds, cmds'. split; [|auto 6].
  destruct (C78_link semicolons base ps frag id Pb Pp Nl) as [L1 L2]. destruct (C71_reads head ds events G) as (r & Rd & _).
  unfold main. rewrite strip_link by assumption. cbv zeta. rewrite L1. cbn [bindr]. unfold from_url. rewrite L2. cbn [bindr]. rewrite Sv. cbn [bindr]. rewrite Rd. cbn [bindr].
  assert (Q : r_events r = events).
  { clear -Rd G. unfold new_record in Rd. rewrite known_events in Rd by (destruct G as (_ & _ & _ & K & _); exact K). cbn [bindr] in Rd. unfold read_events in Rd.
    peelb Rd. destruct v as [|h gs]; [discriminate|]. destruct (rev events); [discriminate|]. repeat peelb Rd. apply Ok_inj in Rd. subst r. reflexivity. }
  rewrite Q, H. cbn [bindr]. rewrite W. cbn [bindr]. rewrite <- app_assoc. reflexivity.
Qed.
(** A file is written only for a log that was found, read and converted as a whole. *)
Theorem C104_only : forall semicolons so server input name file said, main semicolons so server input = Ok (name, file, said) ->
  exists id events r cmds, log_id_from_url semicolons (py_strip input) = Ok id /\ name = id ++ t_ "_command.csv" /\
    server (t_ "http://e.mjv.jp/0/log/?" ++ id) = Ok events /\ new_record events = Ok r /\
    to_commands (tenhou_command py_unquote so) false events = Ok cmds /\ to_csv cmds = Ok file.
Proof.
  intros semicolons so server input name file said H. unfold main in H. cbv zeta in H. peelb H. rename v into id. unfold from_url, download_url in E0. rewrite E in E0. cbn [bindr] in E0.
  peelb E0. rename v0 into r, v into events. apply Ok_inj in H. injection H as -> -> ->.
  assert (Q : r_events r = events).
  { clear -E0. unfold new_record in E0. peelb E0.
    assert (K : v = events).
    { clear -E. revert v E. induction events as [|e l IH]; intros v E; cbn [mapM] in E; [apply Ok_inj in E; congruence|]. peelb E. apply Ok_inj in E. subst v.
      f_equal; [|apply IH; first [assumption|reflexivity]]. match goal with K : new_event e = Ok _ |- _ => unfold new_event in K; repeat peelb K; apply Ok_inj in K; congruence end. }
    subst v. unfold read_events in E0. peelb E0. destruct v as [|h gs]; [discriminate|]. destruct (rev events); [discriminate|]. repeat peelb E0. apply Ok_inj in E0. subst r. reflexivity. }
  rewrite Q in *. do 4 eexists. repeat (split; [first [reflexivity|eassumption]|]). eassumption.
Qed.

(** ** C105: the tables of commands. *)
Lemma raw_back c : proper_sub (c_sub c) -> from_raw_record (to_raw_record c) = c.
Proof.
  destruct c as [p u s v tm st ev]. unfold from_raw_record, to_raw_record. cbn [w_prop w_update w_sub w_value w_time w_state w_event c_prop c_update c_sub c_value c_time c_state c_event].
  intro P. replace (try_int s) with s; [reflexivity|]. destruct s as [t|i]; [|reflexivity]. destruct t as [|c r]; [reflexivity|]. unfold try_int.
  destruct (forallb ch_digit (c :: r)) eqn:F; [|reflexivity]. exfalso. destruct P as (d & I0 & N). rewrite forallb_forall in F. specialize (F d I0). unfold ch_digit in F. lia.
Qed.
Lemma export_raw cmds : to_dataframe true cmds = Ok (map Raw (map to_raw_record cmds)).
Proof. unfold to_dataframe. induction cmds as [|c l IH]; [reflexivity|]. cbn [mapM export map]. cbn [bindr]. rewrite IH. reflexivity. Qed.
Lemma export_texts (P : command -> row -> Prop) cmds : Forall (fun c => exists r, to_record c = Ok r /\ P c r) cmds ->
  exists rows, to_dataframe false cmds = Ok (map Texts rows) /\ Forall2 P cmds rows.
Proof.
  unfold to_dataframe. induction 1 as [|c l (r & E & Pr) F (rows & R & F2)]; [exists []; split; [reflexivity|constructor]|].
  exists (r :: rows). split; [|constructor; assumption]. cbn [mapM export map]. rewrite E. cbn [bindr]. rewrite R. reflexivity.
Qed.
(** A raw row has every field of its command, and the scope of its property. *)
Theorem C105_raw : forall cmds, Forall2 (fun c r => w_time r = c_time c /\ w_event r = c_event c /\ w_scope r = scope_of (c_prop c) /\ w_sub r = c_sub c /\
  w_prop r = c_prop c /\ w_update r = c_update c /\ w_value r = c_value c /\ w_state r = c_state c) cmds (command_to_raw_dataframe cmds).
Proof. unfold command_to_raw_dataframe. induction cmds as [|c cmds IH]; cbn [map]; constructor; [repeat split; reflexivity|exact IH]. Qed.
Theorem C105_tables : forall unquote so events cmds,
  Forall (clean_event unquote) events -> Z.of_nat (length events) <= 2 ^ 63 -> Forall seated events ->
  to_commands (tenhou_command unquote so) false events = Ok cmds -> cmds <> [] ->
  exists raws rows states,
    to_command_records (tenhou_command unquote so) true false events = Ok (map Raw raws) /\
    to_dataframe true cmds = Ok (map Raw raws) /\ command_to_raw_dataframe cmds = raws /\ map from_raw_record raws = cmds /\
    to_command_records (tenhou_command unquote so) false false events = Ok (map Texts rows) /\ to_dataframe false cmds = Ok (map Texts rows) /\
    Forall2 (fun c r => exists d, from_record r = Ok d /\ same_header c d /\
      (~ text_property (c_prop c) -> same_value (c_value c) (c_value d) /\ same_value (c_state c) (c_state d)) /\
      (text_property (c_prop c) -> forall s t, c_value c = VStr s -> c_state c = VStr t -> c_value d = VStr s /\ c_state d = VStr t)) cmds rows /\
    runs (fun fuel => state_rows fuel cmds) states /\ length states = length cmds /\
    forall texts : bool, let table := if texts then map Texts rows else map Raw raws in
      runs (fun fuel => parse_dataframe (tenhou_command unquote so) fuel events true texts) (table, Some states) /\
      forall fuel, parse_dataframe (tenhou_command unquote so) fuel events false texts = Ok (table, None).
Proof.
  intros unquote so events cmds C L Se H N.
  pose proof (seated_only _ _ _ _ _ Se H) as So. pose proof (converted_filed unquote so false events cmds C L H So) as F.
  destruct (C101_states unquote so false false true [] events cmds C L H Se N) as (states & tbl & Ru & Ls & _).
  destruct (export_texts (fun c r => exists d, from_record r = Ok d /\ same_header c d /\
      (~ text_property (c_prop c) -> same_value (c_value c) (c_value d) /\ same_value (c_state c) (c_state d)) /\
      (text_property (c_prop c) -> forall s t, c_value c = VStr s -> c_state c = VStr t -> c_value d = VStr s /\ c_state d = VStr t)) cmds) as (rows & R & F2).
  { eapply Forall_impl; [|exact F]. intros c ((U1 & T1) & (U2 & T2) & Sb & _).
    assert (PS : proper_sub (c_sub c)). { destruct Sb as [->|(i & _ & ->)]; [|exact I]. exists 97. split; [now left|lia]. }
    destruct (C45_record c U1 U2 PS ltac:(intro T; split; [apply (T1 T)|apply (T2 T)])) as (r & d & W & Rd & _ & Hd). exists r. split; [exact W|].
    exists d. split; [exact Rd|]. split; [exact Hd|]. exact (C45_value_partial c r d U1 U2 W Rd). }
  exists (map to_raw_record cmds), rows, states. pose proof (export_raw cmds) as X.
  assert (TR : forall raw, to_command_records (tenhou_command unquote so) raw false events = to_dataframe raw cmds) by (intro raw; unfold to_command_records; rewrite H; reflexivity).
  split; [rewrite TR; exact X|]. split; [exact X|]. split; [reflexivity|]. split.
  { rewrite map_map. rewrite <- (map_id cmds) at 2. apply map_ext_in. intros c I0. apply raw_back. rewrite Forall_forall in F. destruct (F c I0) as (_ & _ & [->|(i & _ & ->)] & _); [|exact I]. exists 97. split; [now left|lia]. }
  split; [rewrite TR; exact R|]. split; [exact R|]. split; [exact F2|]. split; [exact Ru|]. split; [exact Ls|].
  intro texts. cbv zeta. destruct Ru as [M Ru].
  assert (D : to_dataframe (negb texts) cmds = Ok (if texts then map Texts rows else map Raw (map to_raw_record cmds))) by (destruct texts; [exact R|exact X]).
  split; [exists M; intros fuel Lf|intro fuel]; unfold parse_dataframe; rewrite H; cbn [bindr]; rewrite D; cbn [bindr]; [rewrite (Ru fuel Lf)|]; reflexivity.
Qed.

(** ** A short game: a deal, one draw, and the draw of a hand of nine different terminals that ends it. *)
Definition sh_un : event := mkEvent (t_ "UN") [(t_ "n0", t_ "A%20a"); (t_ "n1", t_ "B"); (t_ "n2", t_ "C"); (t_ "n3", t_ "D");
  (t_ "dan", t_ "10,11,12,13"); (t_ "rate", t_ "1500.00,1620.55,1700.00,1444.10"); (t_ "sx", t_ "M,F,M,M")].
Definition sh_go : event := mkEvent (t_ "GO") [(t_ "type", t_ "169")].
Definition sh_draw : event := mkEvent (t_ "T7") [].
Definition sh_end : event := mkEvent (t_ "RYUUKYOKU") [(t_ "type", t_ "yao9"); (t_ "sc", t_ "250,0,250,0,250,0,250,0"); (t_ "owari", t_ "250,-10.0,350,20.0,200,-5.0,200,-5.0")].
Definition sh_log : list event := [sh_go; sh_un; Prop_State.ex_init; sh_draw; sh_end].
Definition sh_play : list action := [Other; Other; Deal ex_deal; Draw 0 7; Other].
Lemma sh_is_log : log sh_play sh_log.
Proof.
  destruct ex_is_log as [L W]. unfold ex_acts, ex_log in L, W. inversion L as [|? ? L1 L2]; subst. inversion L2 as [|? ? L3 _]; subst. inversion W as [|? ? ? ? W1 W2]; subst. inversion W2 as [|? ? ? ? W3 _]; subst.
  split.
  - unfold sh_play. constructor; [exact I|]. constructor; [exact I|]. constructor; [exact L1|]. constructor; [exact L3|]. constructor; [exact I|constructor].
  - assert (O : forall e, ~ In (tag e) [t_ "INIT"; t_ "N"; t_ "DORA"] -> match tag e with c :: d :: _ => (64 <? d) = true | _ => False end -> writes Other e).
    { intros e N D. cbn [In] in N. split; [intro Q; rewrite Q in N; tauto|]. split; [intro Q; rewrite Q in N; tauto|]. split; [intro Q; rewrite Q in N; tauto|].
      intros (l & c & r & E & A & B). rewrite E in D. apply Z.ltb_lt in D. lia. }
    unfold sh_play, sh_log. constructor; [apply O; [cbn; intuition discriminate|reflexivity]|]. constructor; [apply O; [cbn; intuition discriminate|reflexivity]|].
    constructor; [exact W1|]. constructor; [exact W3|]. constructor; [apply O; [cbn; intuition discriminate|reflexivity]|constructor].
Qed.
Lemma sh_fair p : 0 <= p < 4 -> fair_play p sh_play sh_log.
Proof.
  intro P. intros before a after e E Ee.
  assert (B : before = firstn (length before) sh_play) by (rewrite E, firstn_app, Nat.sub_diag, firstn_O, firstn_all, app_nil_r; reflexivity).
  assert (Ea : nth_error sh_play (length before) = Some a) by (rewrite E, nth_error_app2, Nat.sub_diag by lia; reflexivity).
  rewrite B. clear B E. revert Ea Ee. generalize (length before) as n. intros n.
  destruct n as [|[|[|[|[|n]]]]]; intros Ea Ee; try (exfalso; destruct n; discriminate Ea); injection Ea as <-; injection Ee as <-; cbn [fair].
  - intro T. discriminate T.
  - intro T. discriminate T.
  - assert (Q : p = 0 \/ p = 1 \/ p = 2 \/ p = 3) by lia. destruct Q as [->|[->|[->| ->]]]; (split; [repeat (constructor; [cbn; lia|]); constructor|repeat (constructor; [unfold valid_tile; lia|]); constructor]).
  - intros <-. intros [[b [y [c [Q [Pu Fo]]]]]|[[] _]]. destruct b as [|b1 [|b2 [|b3 b]]]; cbn in Q; try discriminate Q; try (injection Q as <- <-; cbn in Pu; try contradiction; lia).
    + injection Q as _ _ <- <-. cbn in Pu. lia.
    + injection Q as _ _ _ Q. destruct b; discriminate Q.
  - intro T. discriminate T.
Qed.
Lemma sh_points : at_least 8 (t_ "250,-10.0,350,20.0,200,-5.0,200,-5.0").
Proof.
  exists [t_ "250"; t_ "-10.0"; t_ "350"; t_ "20.0"; t_ "200"; t_ "-5.0"; t_ "200"; t_ "-5.0"]. split; [discriminate|]. split; [cbn; lia|]. split; [|reflexivity].
  constructor; [left; exists 250; reflexivity|]. constructor; [apply (minus_text _ (t_ "10") (t_ "0")); try reflexivity; now apply digits_check|].
  constructor; [left; exists 350; reflexivity|]. constructor; [apply (decimal_text _ (t_ "20") (t_ "0")); try reflexivity; now apply digits_check|].
  constructor; [left; exists 200; reflexivity|]. constructor; [apply (minus_text _ (t_ "5") (t_ "0")); try reflexivity; now apply digits_check|].
  constructor; [left; exists 200; reflexivity|]. constructor; [apply (minus_text _ (t_ "5") (t_ "0")); try reflexivity; now apply digits_check|]. constructor.
Qed.
Lemma sh_rates : at_least 4 (t_ "1500.00,1620.55,1700.00,1444.10").
Proof.
  exists [t_ "1500.00"; t_ "1620.55"; t_ "1700.00"; t_ "1444.10"]. split; [discriminate|]. split; [cbn; lia|]. split; [|reflexivity].
  constructor; [apply (decimal_text _ (t_ "1500") (t_ "00")); try reflexivity; now apply digits_check|].
  constructor; [apply (decimal_text _ (t_ "1620") (t_ "55")); try reflexivity; now apply digits_check|].
  constructor; [apply (decimal_text _ (t_ "1700") (t_ "00")); try reflexivity; now apply digits_check|].
  constructor; [apply (decimal_text _ (t_ "1444") (t_ "10")); try reflexivity; now apply digits_check|]. constructor.
Qed.
Lemma at_least_numbers k s : at_least k s -> numbers_text s.
Proof. intros (l & N & _ & F & E). exists l. auto. Qed.
Ltac only_says H := unfold holds in H; vm_compute in H; first [discriminate H | injection H as <-].
Lemma sh_complete : Forall (complete 4 2) sh_log.
Proof.
  unfold sh_log. repeat (apply Forall_cons || apply Forall_nil); unfold complete.
  - split; [intros _; exists 169; repeat split; lia|]. do 8 (split; [no_tag|]). no_end.
  - do 3 (split; [no_tag|]). split; [|do 5 (split; [no_tag|]); no_end]. intros _. split; [|split].
    + intros s H. only_says H. exists [10; 11; 12; 13]. split; [cbn; lia|]. split; [repeat (constructor; [lia|]); constructor|reflexivity].
    + intros s H. only_says H. exact sh_rates.
    + intros s H. only_says H. exists [t_ "M"; t_ "F"; t_ "M"; t_ "M"]. split; [cbn; lia|]. split; [|reflexivity]. repeat (constructor; [cbn; intuition discriminate|]). constructor.
  - do 4 (split; [no_tag|]). split; [|do 4 (split; [no_tag|]); no_end].
    intros _. split; [exists 0, 0, 0, [2; 5; 77]; split; [lia|reflexivity]|]. split; [exists 0; reflexivity|].
    eexists. split; [reflexivity|]. apply (ex_at_least [250; 250; 250; 250]); [reflexivity|discriminate|cbn; lia].
  - do 9 (split; [no_tag|]). no_end.
  - do 8 (split; [no_tag|]). split.
    + intros _. split; intros s H; only_says H; [cbn; tauto|]. apply (ex_at_least [250; 0; 250; 0; 250; 0; 250; 0]); [reflexivity|discriminate|cbn; lia].
    + intros _ s H. only_says H. exact sh_points.
Qed.
Lemma sh_in_order : in_order sh_log.
Proof.
  intros before e after E.
  assert (Q : nth_error sh_log (length before) = Some e /\ before = firstn (length before) sh_log).
  { rewrite E. split; [rewrite nth_error_app2, Nat.sub_diag by lia; reflexivity|rewrite firstn_app, Nat.sub_diag, firstn_O, firstn_all, app_nil_r; reflexivity]. }
  destruct Q as [Q ->]. clear E. revert Q. generalize (length before) as k. intros k Q.
  destruct k as [|k].
  - injection Q as <-. split; [cbn; intuition discriminate|]. intros [H|(l & c & r & H & A & B)]; [cbn in H; intuition discriminate|]. vm_compute in H. injection H as <- <- <-. lia.
  - split; [intros _; exists sh_go; split; [now left|reflexivity]|]. destruct k as [|[|k]].
    + injection Q as <-. intros [H|(l & c & r & H & A & B)]; [cbn in H; intuition discriminate|]. vm_compute in H. injection H as <- <- <-. lia.
    + injection Q as <-. intros [H|(l & c & r & H & A & B)]; [cbn in H; intuition discriminate|]. vm_compute in H. injection H as <- <- <-. lia.
    + intros _. exists Prop_State.ex_init. split; [right; right; now left|reflexivity].
Qed.
Lemma sh_proper : proper 4 2 sh_play sh_log.
Proof.
  split; [now right|]. split; [exact sh_is_log|]. split; [exact sh_complete|]. split; [|split; [exact sh_in_order|exact sh_fair]].
  unfold sh_play. repeat (apply Forall_cons || apply Forall_nil); cbn [at_table]; try exact I; try lia.
  split; [unfold valid_tile; cbn; lia|]. intros p P. cbn [d_hands ex_deal]. unfold ex_hands. destruct (p =? 0); [discriminate|]. destruct (p =? 1); discriminate.
Qed.
Lemma sh_good : good_log [sh_go; sh_un] [[Prop_State.ex_init; sh_draw; sh_end]] sh_log.
Proof.
  split; [reflexivity|]. split; [|split; [|split]].
  - split; [repeat (constructor; [discriminate|]); constructor|]. split.
    + exists sh_go, 169. split; [apply fw_here; reflexivity|]. split; [reflexivity|lia].
    + exists sh_un, (comma_list [10; 11; 12; 13]), (t_ "1500.00,1620.55,1700.00,1444.10").
      split; [apply fw_later; [discriminate|]; apply fw_here; reflexivity|]. split; [|split; [reflexivity|split; [apply ints_text; discriminate|split; [reflexivity|exact (at_least_numbers _ _ sh_rates)]]]].
      intros i I0. repeat (destruct I0 as [<-|I0]; [eexists; reflexivity|]). destruct I0.
  - constructor; [|constructor]. exists Prop_State.ex_init, [sh_draw; sh_end], (comma_list [0; 0; 0; 2; 5; 77]), 0.
    split; [reflexivity|]. split; [reflexivity|]. split; [reflexivity|]. split; [apply ints_text; discriminate|]. split; [reflexivity|].
    split; [repeat (constructor; [discriminate|]); constructor|]. right. left. right. reflexivity.
  - repeat (constructor; [first [apply no_tile; reflexivity | apply (one_tile_tag _ 84 7); [reflexivity|lia]]|]). constructor.
  - exists [sh_go; sh_un; Prop_State.ex_init; sh_draw], sh_end, (t_ "250,-10.0,350,20.0,200,-5.0,200,-5.0"). split; [reflexivity|]. split; [reflexivity|exact (at_least_numbers _ _ sh_points)].
Qed.
Lemma clean_all unquote (l : list event) : forallb (fun e => forallb (fun a => forallb (fun c => (14 <=? c) && (c <? 55296)) (snd a) && forallb (fun c => (14 <=? c) && (c <? 55296)) (unquote (snd a))) (attrib e)) l = true -> Forall (clean_event unquote) l.
Proof.
  intro F. rewrite forallb_forall in F. apply Forall_forall. intros e I0. specialize (F e I0). rewrite forallb_forall in F. apply Forall_forall. intros a I1. specialize (F a I1). apply andb_true_iff in F. destruct F as [F G].
  assert (K : forall s, forallb (fun c => (14 <=? c) && (c <? 55296)) s = true -> unicode s /\ one_line_break s).
  { clear. intros s F. rewrite forallb_forall in F. split; [|split].
    - apply Forall_forall. intros c I2. specialize (F c I2). rewrite andb_true_iff, Z.leb_le, Z.ltb_lt in F. lia.
    - intro K. specialize (F _ K). rewrite andb_true_iff, Z.leb_le, Z.ltb_lt in F. lia.
    - intro K. specialize (F _ K). rewrite andb_true_iff, Z.leb_le, Z.ltb_lt in F. lia. }
  destruct (K _ F), (K _ G). auto.
Qed.
Definition sh_server (address : text) : res (list event) := if text_eqb address (t_ "http://e.mjv.jp/0/log/?2019010100gm-0009-0000-1a2b3c4d") then Ok sh_log else Err ValueError.
Lemma words s : forallb (fun c => (48 <=? c) && (c <=? 57) || ((97 <=? c) && (c <=? 122)) || (c =? 45)) s = true -> word s.
Proof.
  intros F. apply Forall_forall. intros c I0. rewrite forallb_forall in F. specialize (F c I0). unfold unreserved. cbn [In].
  rewrite !orb_true_iff, !andb_true_iff, !Z.leb_le, Z.eqb_eq in F. lia.
Qed.
Example C104_example : exists file cmds, main false (fun l => l) sh_server (t_ "  http://tenhou.net/0/?log=2019010100gm-0009-0000-1a2b3c4d&tw=2 ") =
    Ok (t_ "2019010100gm-0009-0000-1a2b3c4d_command.csv", file, t_ "command and state saved to '2019010100gm-0009-0000-1a2b3c4d_command.csv'") /\
  to_commands (tenhou_command py_unquote (fun l => l)) false sh_log = Ok cmds /\ cmds <> [].
Proof.
  destruct (C104_script false (fun l => l) sh_server (t_ "  ") (t_ "http://tenhou.net/0/") [(t_ "log", t_ "2019010100gm-0009-0000-1a2b3c4d"); (t_ "tw", t_ "2")] None (t_ " ")
    (t_ "2019010100gm-0009-0000-1a2b3c4d") [sh_go; sh_un] [[Prop_State.ex_init; sh_draw; sh_end]] sh_log 4 2 sh_play false true []) as (file & cmds & cmds' & M & H & N & _).
  - intro l. apply Permutation_refl.
  - repeat (constructor; [unfold blank; right; left; cbn; lia|]). constructor.
  - repeat (constructor; [unfold blank; right; left; cbn; lia|]). constructor.
  - split.
    + intros c r E. assert (Q : c = 104) by (apply (f_equal (hd 0)) in E; vm_compute in E; congruence). subst c. unfold blank. cbn [In]. lia.
    + intros r c E. assert (Q : c = 50). { apply (f_equal (fun l => last l 0)) in E. rewrite last_last in E. vm_compute in E. congruence. } subst c. unfold blank. cbn [In]. lia.
  - apply Forall_forall. intros c I0. vm_compute in I0. repeat (destruct I0 as [<-|I0]; [split; discriminate|]). destruct I0.
  - repeat (constructor; [split; apply words; reflexivity|]). constructor.
  - exists [], [(t_ "tw", t_ "2")]. split; [reflexivity|]. split; [discriminate|constructor].
  - reflexivity.
  - exact sh_good.
  - exact sh_proper.
  - apply clean_all. vm_compute. reflexivity.
  - apply seated_b. vm_compute. reflexivity.
  - vm_compute. discriminate.
  - exists file, cmds. split; [exact M|]. split; [exact H|exact N].
Qed.
Example C105_example : exists cmds raws rows states, to_commands (tenhou_command py_unquote (fun l => l)) false sh_log = Ok cmds /\
  to_command_records (tenhou_command py_unquote (fun l => l)) true false sh_log = Ok (map Raw raws) /\ map from_raw_record raws = cmds /\ length cmds = 107%nat /\
  runs (fun fuel => parse_dataframe (tenhou_command py_unquote (fun l => l)) fuel sh_log true true) (map Texts rows, Some states) /\ length states = 107%nat.
Proof.
  destruct (to_commands (tenhou_command py_unquote (fun l => l)) false sh_log) as [cmds|] eqn:E; [|vm_compute in E; discriminate E].
  assert (L : length cmds = 107%nat).
  { assert (Q : match to_commands (tenhou_command py_unquote (fun l => l)) false sh_log with Ok l => length l | Err _ => 0%nat end = 107%nat) by (vm_compute; reflexivity). rewrite E in Q. exact Q. }
  destruct (C105_tables py_unquote (fun l => l) sh_log cmds) as (raws & rows & states & A & _ & _ & B & _ & _ & _ & _ & D & F).
  - apply clean_all. vm_compute. reflexivity.
  - vm_compute. discriminate.
  - apply seated_b. vm_compute. reflexivity.
  - exact E.
  - intros ->. discriminate L.
  - exists cmds, raws, rows, states. split; [reflexivity|]. split; [exact A|]. split; [exact B|]. split; [exact L|]. split; [exact (proj1 (F true))|congruence].
Qed.
Print Assumptions C104_script.
Print Assumptions C104_only.
Print Assumptions C105_raw.
Print Assumptions C105_tables.
