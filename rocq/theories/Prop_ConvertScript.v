(** C117: the converter script, from the line typed in and the text of the log to the file. *)
From Verif Require Import Base Category Tile Parse Text Tenhou Spec_Meld Prop_Meld Event Reader Spec_Log Value Json Universe Translator TenhouCommands
  Transfer Spec_Read Prop_Read Spec_Convert Prop_Convert Url Spec_Url Prop_Url
  Record Spec_Record Prop_Record Csv Spec_Csv CsvConverted Prop_Csv Spec_Seats SeatsProofs CommandProofs Export Spec_Export Prop_Export.
From Verif Require Import Xml Spec_Xml FromText Prop_Xml CheckScript Prop_CheckScript ConvertScript Logs LogTexts Prop_Logs.
From Coq Require Import String List ZArith Lia Bool Permutation.
Import ListNotations.
Open Scope list_scope.
Open Scope Z_scope.

(** ** Values that survive a table: without carriage returns and without "%0D", "%0d" and "%00",
    which stand for a carriage return and NUL in quoted names. *)
Definition without_returns (s : text) : Prop :=
  ~ In 13 s /\ forall esc, In esc [t_ "%0D"; t_ "%0d"; t_ "%00"] -> forall a b, s <> a ++ esc ++ b.
Definition plain_values (e : event) : Prop := Forall (fun a => without_returns (snd a)) (attrib e).

Definition uni (c : Z) : Prop := 0 <= c < 55296 \/ 57344 <= c <= 1114111.
(** What decoding gives: Unicode characters, and below 128 only bytes of the list. *)
Lemma decode_sound n : forall l, (length l <= n)%nat -> Forall (fun b => 0 <= b) l ->
  Forall uni (utf8_decode l) /\ forall c, In c (utf8_decode l) -> c < 128 -> In c l.
Proof.
  induction n as [|n IH]; intros l L P; [destruct l; [split; [constructor|intros ? []]|cbn in L; lia]|].
  destruct l as [|b r]; [split; [constructor|intros ? []]|]. cbn [length] in L. inversion P as [|? ? Pb Pr]; subst.
  assert (R : forall x l', uni x -> (length l' <= n)%nat -> Forall (fun b => 0 <= b) l' -> (x < 128 -> In x (b :: r)) -> incl l' (b :: r) ->
    Forall uni (x :: utf8_decode l') /\ forall c, In c (x :: utf8_decode l') -> c < 128 -> In c (b :: r)).
  { intros x l' U L' P' X I0. destruct (IH l' L' P') as [A B]. split; [constructor; assumption|]. intros c [<-|I1] C; [auto|]. apply I0. auto. }
  assert (F : uni 65533) by (unfold uni; lia).
  assert (One : Forall uni [65533] /\ forall c, In c [65533] -> c < 128 -> In c (b :: r)) by (split; [constructor; [exact F|constructor]|intros c [<-|[]]; lia]).
  assert (T : incl r (b :: r)) by (intros x Hx; now right).
  assert (Bad : Forall uni (65533 :: utf8_decode r) /\ forall c, In c (65533 :: utf8_decode r) -> c < 128 -> In c (b :: r)) by (apply R; [exact F|lia|exact Pr|lia|exact T]).
  cbn [utf8_decode]. destruct (b <? 128) eqn:E1; [apply R; [unfold uni; lia|lia|exact Pr|intros _; now left|exact T]|].
  destruct (byte_in 194 223 b) eqn:E2.
  { destruct r as [|b1 r1]; [exact One|]. inversion Pr; subst. destruct (cont_byte b1) eqn:C1; [|exact Bad].
    unfold cont_byte, byte_in in *. cbn [length] in L. apply R; [unfold uni; lia|lia|assumption|lia|intros x Hx; right; now right]. }
  destruct (byte_in 224 239 b) eqn:E3.
  { destruct r as [|b1 r1]; [exact One|]. inversion Pr; subst. destruct (second_of_three b b1) eqn:C1; [|exact Bad].
    destruct r1 as [|b2 r2]; [exact One|]. cbn [length] in L. match goal with H : Forall _ (b2 :: r2) |- _ => inversion H; subst end. destruct (cont_byte b2) eqn:C2.
    - unfold second_of_three, cont_byte, byte_in in *. apply R; [|lia|assumption| |intros x Hx; right; right; now right].
      + unfold uni. destruct (b =? 224) eqn:Q; [lia|]. destruct (b =? 237) eqn:Q'; lia.
      + destruct (b =? 224) eqn:Q; [lia|]. destruct (b =? 237) eqn:Q'; lia.
    - apply R; [exact F|cbn [length]; lia|assumption|lia|intros x Hx; right; now right]. }
  destruct (byte_in 240 244 b) eqn:E4; [|exact Bad].
  destruct r as [|b1 r1]; [exact One|]. inversion Pr; subst. destruct (second_of_four b b1) eqn:C1; [|exact Bad].
  destruct r1 as [|b2 r2]; [exact One|]. cbn [length] in L. match goal with H : Forall _ (b2 :: r2) |- _ => inversion H; subst end. destruct (cont_byte b2) eqn:C2.
  - destruct r2 as [|b3 r3]; [exact One|]. cbn [length] in L. match goal with H : Forall _ (b3 :: r3) |- _ => inversion H; subst end. destruct (cont_byte b3) eqn:C3.
    + unfold second_of_four, cont_byte, byte_in in *. apply R; [|lia|assumption| |intros x Hx; right; right; right; now right].
      * unfold uni. destruct (b =? 240) eqn:Q; [lia|]. destruct (b =? 244) eqn:Q'; lia.
      * destruct (b =? 240) eqn:Q; [lia|]. destruct (b =? 244) eqn:Q'; lia.
    + apply R; [exact F|cbn [length]; lia|assumption|lia|intros x Hx; right; right; now right].
  - apply R; [exact F|cbn [length]; lia|assumption|lia|intros x Hx; right; now right].
Qed.
Lemma hex_bound c x : Url.hex_digit c = Some x -> 0 <= x <= 15.
Proof.
  unfold Url.hex_digit. destruct ((48 <=? c) && (c <=? 57)) eqn:A; [intros [= <-]; lia|]. destruct ((65 <=? c) && (c <=? 70)) eqn:B; [intros [= <-]; lia|].
  destruct ((97 <=? c) && (c <=? 102)) eqn:C; [intros [= <-]; lia|discriminate].
Qed.
(** Bytes: no carriage return and no NUL comes from a text without them and their escapes. *)
Lemma bytes_sound n : forall s, (length s <= n)%nat -> Forall (fun c => 0 <= c) s -> ~ In 0 s -> without_returns s ->
  Forall (fun b => 0 <= b) (unquote_to_bytes s) /\ ~ In 13 (unquote_to_bytes s) /\ ~ In 0 (unquote_to_bytes s).
Proof.
  induction n as [|n IH]; intros s L P Z0 [R E]; [destruct s; [cbn; repeat split; auto|cbn in L; lia]|].
  destruct s as [|c r]; [cbn; repeat split; auto|]. cbn [length] in L. inversion P as [|? ? Pc Pr]; subst.
  assert (K : Forall (fun b => 0 <= b) (c :: unquote_to_bytes r) /\ ~ In 13 (c :: unquote_to_bytes r) /\ ~ In 0 (c :: unquote_to_bytes r)).
  { destruct (IH r ltac:(lia) Pr) as (A & B & C).
    - intro Q. apply Z0. now right.
    - split; [intro Q; apply R; now right|]. intros esc I0 a b ->. exact (E esc I0 (c :: a) b eq_refl).
    - split; [constructor; assumption|]. cbn [In] in *. split; intros [Q|Q]; tauto. }
  cbn [unquote_to_bytes]. destruct (c =? 37) eqn:C; [|exact K]. destruct r as [|x [|y r2]]; try exact K.
  destruct (Url.hex_digit x) as [hx|] eqn:Hx; [|exact K]. destruct (Url.hex_digit y) as [hy|] eqn:Hy; [|exact K].
  apply Z.eqb_eq in C. subst c. pose proof (hex_bound _ _ Hx). pose proof (hex_bound _ _ Hy). cbn [length] in L.
  destruct (IH r2 ltac:(lia)) as (A & B & C).
  - inversion Pr as [|? ? ? Pr1]; subst. inversion Pr1; assumption.
  - intro Q. apply Z0. now do 3 right.
  - split; [intro Q; apply R; now do 3 right|]. intros esc I0 a b ->. exact (E esc I0 (37 :: x :: y :: a) b eq_refl).
  - assert (NE : 16 * hx + hy <> 13 /\ 16 * hx + hy <> 0).
    { assert (hx = 0 -> x = 48).
      { intros ->. unfold Url.hex_digit in Hx. destruct ((48 <=? x) && (x <=? 57)) eqn:Q1; [injection Hx; lia|]. destruct ((65 <=? x) && (x <=? 70)) eqn:Q2; [injection Hx; lia|].
        destruct ((97 <=? x) && (x <=? 102)) eqn:Q3; [injection Hx; lia|discriminate]. }
      split; intro Q; assert (x = 48) by (apply H1; lia); subst x.
      - assert (hy = 13) by lia. subst hy. assert (y = 68 \/ y = 100) as [-> | ->].
        { unfold Url.hex_digit in Hy. destruct ((48 <=? y) && (y <=? 57)) eqn:Q1; [injection Hy; lia|]. destruct ((65 <=? y) && (y <=? 70)) eqn:Q2; [injection Hy; lia|].
          destruct ((97 <=? y) && (y <=? 102)) eqn:Q3; [injection Hy; lia|discriminate]. }
        + apply (E (t_ "%0D") ltac:(cbn; tauto) [] r2). reflexivity.
        + apply (E (t_ "%0d") ltac:(cbn; tauto) [] r2). reflexivity.
      - assert (hy = 0) by lia. subst hy. assert (y = 48).
        { unfold Url.hex_digit in Hy. destruct ((48 <=? y) && (y <=? 57)) eqn:Q1; [injection Hy; lia|]. destruct ((65 <=? y) && (y <=? 70)) eqn:Q2; [injection Hy; lia|].
          destruct ((97 <=? y) && (y <=? 102)) eqn:Q3; [injection Hy; lia|discriminate]. }
        subst y. apply (E (t_ "%00") ltac:(cbn; tauto) [] r2). reflexivity. }
    split; [constructor; [lia|exact A]|]. cbn [In]. split; intros [Q|Q]; tauto.
Qed.
Lemma sub_without a s b : without_returns (a ++ s ++ b) -> without_returns s.
Proof.
  intros [R E]. split; [intro Q; apply R; apply in_or_app; right; apply in_or_app; now left|].
  intros esc I0 x y ->. apply (E esc I0 (a ++ x) (y ++ b)). now rewrite <- !app_assoc.
Qed.
Lemma run_sound s : unicode s -> ~ In 0 s -> without_returns s -> unicode (utf8_decode (unquote_to_bytes s)) /\ one_line_break (utf8_decode (unquote_to_bytes s)).
Proof.
  intros U Z0 W. destruct (bytes_sound (length s) s (le_n _)) as (A & B & C); [|exact Z0|exact W|].
  - eapply Forall_impl; [|exact U]. cbv beta. intros; lia.
  - destruct (decode_sound _ _ (le_n _) A) as [D E]. split; [exact D|]. split; intro Q; [apply B|apply C]; (apply E; [exact Q|lia]).
Qed.
Lemma runs_sound : forall s run, unicode (rev run ++ s) -> ~ In 0 (rev run ++ s) -> without_returns (rev run ++ s) ->
  unicode (unquote_runs run s) /\ one_line_break (unquote_runs run s).
Proof.
  induction s as [|c s IH]; intros run U Z0 W; cbn [unquote_runs].
  - rewrite app_nil_r in *. now apply run_sound.
  - destruct (c <? 128) eqn:E.
    + apply IH; cbn [rev]; rewrite <- app_assoc; assumption.
    + apply Forall_app in U. destruct U as [U1 U2]. inversion U2 as [|? ? Uc Us]; subst.
      destruct (run_sound (rev run)) as [A [A1 A2]]; [exact U1|intro Q; apply Z0; apply in_or_app; now left|exact (sub_without [] (rev run) (c :: s) W)|].
      destruct (IH []) as [B [B1 B2]]; cbn [rev app].
      * exact Us.
      * intro Q. apply Z0. apply in_or_app. right. now right.
      * apply (sub_without (rev run ++ [c]) s []). rewrite app_nil_r, <- app_assoc. exact W.
      * split; [apply Forall_app; split; [exact A|constructor; assumption]|]. split; intro Q; apply in_app_or in Q; destruct Q as [Q|[Q|Q]]; try tauto; subst c; [apply W, in_or_app; right; now left|discriminate E].
Qed.
(** What [unquote] makes of a text of Unicode characters is such a text again, without carriage
    returns and NULs if none was there and none was quoted. *)
Lemma unquote_sound s : unicode s -> ~ In 0 s -> without_returns s -> unicode (py_unquote s) /\ one_line_break (py_unquote s).
Proof.
  intros U Z0 W. unfold py_unquote. destruct (existsb (Z.eqb 37) s); [now apply runs_sound|]. split; [exact U|]. split; [apply W|exact Z0].
Qed.

(** ** The values of a document are of Unicode characters, and NUL is none of them. *)
Lemma character_uni c : character c -> uni c /\ c <> 0.
Proof. unfold character, uni. cbn [In]. lia. Qed.
Lemma written_uni q v s : written q v s -> Forall (fun c => uni c /\ c <> 0) v.
Proof.
  induction 1; constructor; auto using character_uni.
  - unfold uni. lia.
  - unfold named_characters in H. cbn [In] in H. unfold uni. decompose [or] H; try contradiction; match goal with Q : (_, _) = (_, _) |- _ => injection Q as <- <- end; lia.
Qed.
Lemma attributes_uni l r : attributes l r -> Forall (fun a => Forall (fun c => uni c /\ c <> 0) (snd a)) l.
Proof. induction 1; constructor; cbn [snd]; eauto using written_uni. Qed.
Lemma content_uni es s : content es s -> Forall (fun e => Forall (fun a => Forall (fun c => uni c /\ c <> 0) (snd a)) (attrib e)) es.
Proof. induction 1 as [|w e o es s B (a & w0 & _ & _ & A & _) C IH|w e o inner x w' es s B (a & w0 & _ & _ & A & _) C IH W C2 IH2]; constructor; eauto using attributes_uni. Qed.
Theorem C117_clean : forall root events t, document root events t -> Forall plain_values events -> Forall (clean_event py_unquote) events.
Proof.
  intros root events t (w & o & w2 & _ & _ & _ & D) P.
  assert (U : Forall (fun e => Forall (fun a => Forall (fun c => uni c /\ c <> 0) (snd a)) (attrib e)) events) by (destruct D as [(x & w1 & C & _)|(-> & _)]; [exact (content_uni _ _ C)|constructor]).
  clear D. induction P as [|e es Pe P IH]; [constructor|]. inversion U as [|? ? Ue Us]; subst. constructor; [|exact (IH Us)].
  unfold plain_values in Pe. unfold clean_event. rewrite Forall_forall in *. intros a Ia. specialize (Pe a Ia). specialize (Ue a Ia).
  assert (A : unicode (snd a)) by (unfold unicode; eapply Forall_impl; [|exact Ue]; intros c Hc; apply Hc).
  assert (B : ~ In 0 (snd a)) by (rewrite Forall_forall in Ue; intro Q; apply (Ue 0 Q); reflexivity).
  destruct (unquote_sound (snd a) A B Pe) as [C1 C2]. split; [exact A|]. split; [split; [apply Pe|exact B]|]. auto.
Qed.

(** The events of a record are those of the log. *)
Lemma record_events events r : new_record events = Ok r -> r_events r = events.
Proof.
  intro N.
  unfold new_record in N. peelb N.
  assert (K : v = events).
    { clear -E. revert v E. induction events as [|e l IH]; intros v E; cbn [mapM] in E; [apply Ok_inj in E; congruence|]. peelb E. apply Ok_inj in E. subst v.
      f_equal; [|apply IH; first [assumption|reflexivity]]. match goal with K : new_event e = Ok _ |- _ => unfold new_event in K; repeat peelb K; apply Ok_inj in K; congruence end. }
    subst v. unfold read_events in N. peelb N. destruct v as [|h gs]; [discriminate|]. destruct (rev events); [discriminate|]. repeat peelb N. apply Ok_inj in N. subst r. reflexivity.
Qed.

Section Script.
Variable semicolons : bool.
Variable so : list Z -> list Z.
Variable server : text -> res text.
Variable opens : text -> res unit.
Local Notation convert := (convert semicolons so server opens).

(** The line is asked for; then either nothing is written and an error ends the run, or one file is
    written and named: the table of all commands of a log that was found, is a document and was read. *)
Theorem C117_only : forall line deeds outcome, convert line = (deeds, outcome) ->
  (deeds = [Asked (t_ "input your tenhou.net paifu link:")] /\ outcome <> Read (Ok tt)) \/
  exists id t root events r cmds file,
    log_id_from_url semicolons (py_strip line) = Ok id /\ server (t_ "http://e.mjv.jp/0/log/?" ++ id) = Ok t /\
    document root events t /\ new_record events = Ok r /\ to_commands (tenhou_command py_unquote so) false events = Ok cmds /\
    to_csv cmds = Ok file /\ outcome = Read (Ok tt) /\
    deeds = [Asked (t_ "input your tenhou.net paifu link:"); Saved (id ++ t_ "_command.csv") file;
             Said (t_ "command and state saved to '" ++ id ++ t_ "_command.csv" ++ t_ "'")].
Proof.
  intros line deeds outcome H. unfold ConvertScript.convert in H. cbv zeta in H.
  destruct (log_id_from_url semicolons (py_strip line)) as [id|] eqn:A; [|injection H as <- <-; left; split; [reflexivity|discriminate]].
  destruct (CheckScript.from_url semicolons server (py_strip line)) as [[r|]| |] eqn:U; try (injection H as <- <-; left; split; [reflexivity|discriminate]).
  destruct (url_inv _ _ _ _ U) as (id' & t & root & events & A' & B & D & N). rewrite A in A'. apply Ok_inj in A'. subst id'.
  pose proof (record_events _ _ N) as Q.
  unfold table_of in H. rewrite Q in H. destruct (to_commands _ false events) as [cmds|] eqn:C; [|injection H as <- <-; left; split; [reflexivity|discriminate]].
  cbn [bindr] in H. destruct (to_csv cmds) as [file|] eqn:F; [|injection H as <- <-; left; split; [reflexivity|discriminate]]. cbn [bindr] in H.
  destruct (opens _) as [[]|] eqn:O; [|injection H as <- <-; left; split; [reflexivity|discriminate]]. cbn [bindr] in H. injection H as <- <-.
  right. exists id, t, root, events, r, cmds, file. rewrite <- app_assoc. auto 10.
Qed.

(** A proper log is saved as a whole, and read back from its file. *)
Theorem C117_saved : forall before base ps frag after id t root head ds events n w acts none_too cast cuts,
  (forall l, Permutation (so l) l) -> Forall blank before -> Forall blank after -> trimmed (link base ps frag) ->
  plain_base base -> plain_params ps -> names_log ps id ->
  server (t_ "http://e.mjv.jp/0/log/?" ++ id) = Ok t -> document root events t -> good_log head ds events -> proper n w acts events ->
  Forall plain_values events -> Forall seated events -> Z.of_nat (length events) <= 2 ^ 63 -> opens (id ++ t_ "_command.csv") = Ok tt ->
  exists file cmds cmds',
    convert (before ++ link base ps frag ++ after) =
      ([Asked (t_ "input your tenhou.net paifu link:"); Saved (id ++ t_ "_command.csv") file;
        Said (t_ "command and state saved to '" ++ id ++ t_ "_command.csv" ++ t_ "'")], Read (Ok tt)) /\
    to_commands (tenhou_command py_unquote so) false events = Ok cmds /\ cmds <> [] /\
    read_clean_csv none_too cast cuts file = Ok cmds' /\ Forall2 same_header cmds cmds' /\
    Forall2 (fun c d => ~ text_property (c_prop c) -> recovered (c_value c) (c_value d) /\ recovered (c_state c) (c_state d)) cmds cmds'.
Proof.
  intros before base ps frag after id t root head ds events n w acts none_too cast cuts SO B A T Pb Pp Nl Sv D G Pr Pv Se Ln Op.
  destruct (C104_script semicolons so (fun _ => Ok events) before base ps frag after id head ds events n w acts none_too cast cuts SO B A T Pb Pp Nl eq_refl G Pr (C117_clean _ _ _ D Pv) Se Ln)
    as (file & cmds & cmds' & M & H & N & R & Hd & V).
  exists file, cmds, cmds'. split; [|auto 6].
  destruct (C104_only _ _ _ _ _ _ _ M) as (id' & events' & r & cmds0 & L & Q & E' & Rd & H' & W). apply app_inv_tail in Q. subst id'. apply Ok_inj in E'. subst events'. rewrite H in H'. apply Ok_inj in H'. subst cmds0.
  destruct (convert (before ++ link base ps frag ++ after)) as [deeds o] eqn:C.
  unfold ConvertScript.convert in C. cbv zeta in C. rewrite L in C. rewrite (url_read _ _ _ _ _ _ _ L Sv D), Rd in C. 
  pose proof (record_events _ _ Rd) as Q.
  unfold table_of in C. rewrite Q, H in C. cbn [bindr] in C. rewrite W in C. cbn [bindr] in C. rewrite Op in C. cbn [bindr] in C. rewrite <- app_assoc in C. exact (eq_sym C).
Qed.
End Script.

(** The text of the short game of Prop_Export.v, with a quoted name. *)
Definition sh_text : text := t_ "<mjloggm ver=""2.3"">" ++ flat_map (fun e => tostring (fun l => l) e ++ [10]) sh_log ++ t_ "</mjloggm>".
Fixpoint no_returns_b (s : text) : bool :=
  match s with
  | [] => true
  | c :: r => negb (c =? 13) && negb ((c =? 37) && match r with a :: b :: _ => (a =? 48) && ((b =? 68) || (b =? 100) || (b =? 48)) | _ => false end) && no_returns_b r
  end.
Lemma no_returns_is s : no_returns_b s = true -> without_returns s.
Proof.
  induction s as [|c r IH]; intro H.
  - split; [intros []|]. intros esc I0 [|x a] b Q; [|discriminate]. cbn [In] in I0. decompose [or] I0; subst; try contradiction; discriminate.
  - cbn [no_returns_b] in H. rewrite !andb_true_iff in H. destruct H as [[A B] C]. destruct (IH C) as [D E]. split; [intros [Q|Q]; [subst; discriminate|tauto]|].
    intros esc I0 [|x a] b Q; [|injection Q as _ Q; exact (E esc I0 a b Q)]. clear - B I0 Q. apply negb_true_iff in B. cbn [In] in I0.
    decompose [or] I0; subst; try contradiction; injection Q as -> ->; discriminate B.
Qed.
Lemma plain_values_is l : forallb (fun e => forallb (fun a => no_returns_b (snd a)) (attrib e)) l = true -> Forall plain_values l.
Proof.
  intro F. rewrite forallb_forall in F. apply Forall_forall. intros e I0. specialize (F e I0). rewrite forallb_forall in F. apply Forall_forall. intros a I1. apply no_returns_is. auto.
Qed.
Definition sh_text_server (address : text) : res text := if text_eqb address (t_ "http://e.mjv.jp/0/log/?2019010100gm-0009-0000-1a2b3c4d") then Ok sh_text else Err ValueError.
Example C117_example : exists root, document root sh_log sh_text /\ Forall plain_values sh_log /\ Forall (clean_event py_unquote) sh_log /\
  exists file, ConvertScript.convert false (fun l => l) sh_text_server (fun _ => Ok tt) (t_ "  http://tenhou.net/0/?log=2019010100gm-0009-0000-1a2b3c4d&tw=2 ") =
    ([Asked (t_ "input your tenhou.net paifu link:"); Saved (t_ "2019010100gm-0009-0000-1a2b3c4d_command.csv") file;
      Said (t_ "command and state saved to '2019010100gm-0009-0000-1a2b3c4d_command.csv'")], Read (Ok tt)).
Proof.
  assert (X : exists root, fromstring sh_text = Document root sh_log) by (eexists; vm_compute; reflexivity). destruct X as [root X]. apply C112_exactly in X.
  assert (P : Forall plain_values sh_log) by (apply plain_values_is; vm_compute; reflexivity).
  exists root. split; [exact X|]. split; [exact P|]. split; [exact (C117_clean _ _ _ X P)|].
  destruct (C117_saved false (fun l => l) sh_text_server (fun _ => Ok tt) (t_ "  ") (t_ "http://tenhou.net/0/") [(t_ "log", t_ "2019010100gm-0009-0000-1a2b3c4d"); (t_ "tw", t_ "2")] None (t_ " ")
    (t_ "2019010100gm-0009-0000-1a2b3c4d") sh_text root [sh_go; sh_un] [[Prop_State.ex_init; sh_draw; sh_end]] sh_log 4 2 sh_play false true []) as (file & cmds & cmds' & M & _).
  - intro l. apply Permutation_refl.
  - repeat (constructor; [unfold blank; right; left; cbn; lia|]). constructor.
  - repeat (constructor; [unfold blank; right; left; cbn; lia|]). constructor.
  - split.
    + intros c r E. assert (Q : c = 104) by (apply (f_equal (hd 0)) in E; vm_compute in E; congruence). subst c. unfold blank. cbn [In]. lia.
    + intros r c E. assert (Q : c = 50). { apply (f_equal (fun l => last l 0)) in E. rewrite last_last in E. vm_compute in E. congruence. } subst c. unfold blank. cbn [In]. lia.
  - apply Forall_forall. intros c I0. vm_compute in I0. repeat (destruct I0 as [<-|I0]; [split; discriminate|]). destruct I0.
  - repeat (constructor; [split; apply Prop_Export.words; reflexivity|]). constructor.
  - exists [], [(t_ "tw", t_ "2")]. split; [reflexivity|]. split; [discriminate|constructor].
  - reflexivity.
  - exact X.
  - exact sh_good.
  - exact sh_proper.
  - exact P.
  - apply seated_b. vm_compute. reflexivity.
  - vm_compute. discriminate.
  - reflexivity.
  - exists file. exact M.
Qed.
(** The texts of the logs under tests/ of the repository, as the server sends them, are converted. *)
Lemma logs_plain : Forall (Forall plain_values) test_logs.
Proof.
  apply Forall_forall. assert (Q : forallb (fun es => forallb (fun e => forallb (fun a => no_returns_b (snd a)) (attrib e)) es) test_logs = true) by (vm_compute; reflexivity).
  rewrite forallb_forall in Q. intros es I0. apply plain_values_is. exact (Q es I0).
Qed.
Theorem C117_logs : Forall (fun t => forall semicolons so server opens base ps frag id,
  (forall l, Permutation (so l) l) -> trimmed (link base ps frag) -> plain_base base -> plain_params ps -> names_log ps id ->
  server (t_ "http://e.mjv.jp/0/log/?" ++ id) = Ok t -> opens (id ++ t_ "_command.csv") = Ok tt ->
  exists file, ConvertScript.convert semicolons so server opens (link base ps frag) =
    ([Asked (t_ "input your tenhou.net paifu link:"); Saved (id ++ t_ "_command.csv") file;
      Said (t_ "command and state saved to '" ++ id ++ t_ "_command.csv" ++ t_ "'")], Read (Ok tt))) test_texts.
Proof.
  pose proof C112_logs as D. pose proof tests_ok as O. pose proof logs_plain as P. revert O P.
  induction D as [|t es ts ess De D IH]; intros O P; [constructor|]. inversion O as [|? ? Oe Os]; subst. inversion P as [|? ? Pe Ps]; subst. constructor; [|exact (IH Os Ps)].
  destruct Oe as ((n & w & acts & Pr) & (head & ds & G) & _ & _ & Se & Ln). intros semicolons so server opens base ps frag id SO T Pb Pp Nl Sv Op.
  destruct (C117_saved semicolons so server opens [] base ps frag [] id t _ head ds es n w acts false false [] SO (Forall_nil _) (Forall_nil _) T Pb Pp Nl Sv De G Pr Pe Se Ln Op) as (file & cmds & cmds' & M & _).
  exists file. cbn [app] in M. rewrite app_nil_r in M. exact M.
Qed.
Print Assumptions C117_only.
Print Assumptions C117_saved.
Print Assumptions C117_clean.
Print Assumptions C117_logs.
