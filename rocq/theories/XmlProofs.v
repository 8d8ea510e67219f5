(** Proofs about reading the text of a log. *)
From Verif Require Import Base Category Tile Parse Text Tenhou Event StateProofs Xml Spec_Xml.
From Coq Require Import String List ZArith Lia Bool.
Import ListNotations.
Open Scope list_scope.
Open Scope Z_scope.

Lemma run_app s a b : run s (a ++ b) = run (run s a) b.
Proof. apply fold_left_app. Qed.
Lemma run_cons s c r : run s (c :: r) = run (step s c) r.
Proof. reflexivity. Qed.
Lemma in_range_iff a b c : in_range a b c = true <-> a <= c <= b.
Proof. unfold in_range. rewrite andb_true_iff, !Z.leb_le. reflexivity. Qed.
Lemma blank_iff c : xml_blank c = true <-> In c [32; 9; 10; 13].
Proof. unfold xml_blank. rewrite !orb_true_iff, !Z.eqb_eq. cbn [In]. intuition. Qed.
Lemma start_iff c : name_start c = true <-> letter c.
Proof. unfold name_start, letter. rewrite !orb_true_iff, !in_range_iff, Z.eqb_eq. tauto. Qed.
Lemma name_iff c : name_char c = true <-> letter c \/ digit c \/ c = 45 \/ c = 46.
Proof. unfold name_char. rewrite !orb_true_iff, start_iff, in_range_iff, !Z.eqb_eq. unfold digit. tauto. Qed.
Lemma char_iff c : xml_char c = true <-> character c.
Proof. unfold xml_char, character. rewrite !orb_true_iff, !in_range_iff, !Z.eqb_eq. cbn [In]. intuition. Qed.
Lemma blank_not_name c : In c [32; 9; 10; 13] -> name_char c = false.
Proof. intros H. apply not_true_is_false. rewrite name_iff. unfold letter, digit. cbn [In] in H. lia. Qed.
Lemma name_not_blank c : name_char c = true -> xml_blank c = false.
Proof. intros H. apply not_true_is_false. rewrite blank_iff. intros B. apply blank_not_name in B. congruence. Qed.
Lemma start_name c : name_start c = true -> name_char c = true.
Proof. unfold name_char. now intros ->. Qed.
Lemma eqb_false a b : a <> b -> (a =? b) = false.
Proof. apply Z.eqb_neq. Qed.

(** ** Blanks. *)
Lemma run_between d w : blanks w -> run (Between d) w = Between d.
Proof. induction 1 as [|c w H _ IH]; [reflexivity|]. rewrite run_cons. cbn [step]. apply blank_iff in H. now rewrite H. Qed.
Lemma run_gap d t l n w : blanks w -> run (AttrGap d t l n) w = AttrGap d t l n.
Proof. induction 1 as [|c w H _ IH]; [reflexivity|]. rewrite run_cons. cbn [step]. apply blank_iff in H. now rewrite H. Qed.
Lemma run_equals d t l n w : blanks w -> run (Equals d t l n) w = Equals d t l n.
Proof. induction 1 as [|c w H _ IH]; [reflexivity|]. rewrite run_cons. cbn [step]. apply blank_iff in H. now rewrite H. Qed.
Lemma run_endgap d n w : blanks w -> run (EndGap d n) w = EndGap d n.
Proof. induction 1 as [|c w H _ IH]; [reflexivity|]. rewrite run_cons. cbn [step]. apply blank_iff in H. now rewrite H. Qed.
Lemma run_intag d t l g w : blanks w -> run (InTag d t l g) w = InTag d t l (match w with [] => g | _ => true end).
Proof.
  intros H. revert g. induction H as [|c w H _ IH]; intros g; [reflexivity|]. rewrite run_cons. cbn [step]. apply blank_iff in H. rewrite H, IH. now destruct w.
Qed.
Lemma first_blank d n c r : In c [32; 9; 10; 13] -> run (TagName d n) (c :: r) = run (InTag d (rev n) [] false) (c :: r).
Proof.
  intros H. rewrite !run_cons. cbn [step]. rewrite (blank_not_name c H). apply blank_iff in H. now rewrite H.
Qed.

(** ** Names. *)
Lemma run_tagname d n r : Forall (fun c => name_char c = true) r -> run (TagName d n) r = TagName d (rev r ++ n).
Proof.
  intros H. revert n. induction H as [|c r H _ IH]; intros n; [reflexivity|]. rewrite run_cons. cbn [step]. rewrite H, IH. cbn [rev].
  now rewrite <- app_assoc.
Qed.
Lemma run_attrname d t l n r : Forall (fun c => name_char c = true) r -> run (AttrName d t l n) r = AttrName d t l (rev r ++ n).
Proof.
  intros H. revert n. induction H as [|c r H _ IH]; intros n; [reflexivity|]. rewrite run_cons. cbn [step]. rewrite H, IH. cbn [rev].
  now rewrite <- app_assoc.
Qed.
Lemma run_endname d c n r : Forall (fun c => name_char c = true) r -> run (EndName d (c :: n)) r = EndName d (rev r ++ c :: n).
Proof.
  intros H. revert c n. induction H as [|x r H _ IH]; intros c n; [reflexivity|]. rewrite run_cons. cbn [step]. rewrite H, IH. cbn [rev].
  now rewrite <- app_assoc.
Qed.
Lemma name_chars n : name n -> exists c r, n = c :: r /\ name_start c = true /\ Forall (fun c => name_char c = true) r.
Proof.
  intros (c & r & -> & L & F). exists c, r. split; [reflexivity|]. split; [now apply start_iff|].
  eapply Forall_impl; [|exact F]. intros x X. now apply name_iff.
Qed.
Lemma start_cases c : name_start c = true -> xml_blank c = false /\ (c =? 47) = false /\ (c =? 33) = false /\ (c =? 63) = false /\ (c =? 62) = false.
Proof.
  intros H. split; [now apply name_not_blank, start_name|]. apply start_iff in H. unfold letter in H.
  repeat split; apply Z.eqb_neq; lia.
Qed.
Definition may_open (d : doc) : Prop := d_open d <> [] \/ d_root d = None.
Lemma run_less d n : may_open d -> name n -> run (Less d) n = TagName d (rev n).
Proof.
  intros M N. destruct (name_chars n N) as (c & r & -> & S0 & F). rewrite run_cons. cbn [step].
  destruct (start_cases c S0) as (_ & A & B & C & _). rewrite A, B, C. cbn [orb]. rewrite S0.
  assert (Q : match d_open d, d_root d with [], Some _ => Bad | _, _ => TagName d [c] end = TagName d [c]).
  { destruct M as [M|M]; [destruct (d_open d); [congruence|reflexivity]|rewrite M; now destruct (d_open d)]. }
  rewrite Q, run_tagname; auto.
Qed.
Lemma run_newattr d t l n : name n -> run (InTag d t l true) n = AttrName d t l (rev n).
Proof.
  intros N. destruct (name_chars n N) as (c & r & -> & S0 & F). rewrite run_cons. cbn [step].
  destruct (start_cases c S0) as (W & A & _ & _ & C). rewrite W, A, C, S0. now rewrite run_attrname.
Qed.
Lemma run_endtag d n w : name n -> blanks w -> run (EndName d []) (n ++ w ++ t_ ">") = end_tag d n.
Proof.
  intros N W. destruct (name_chars n N) as (c & r & -> & S0 & F). rewrite run_app, run_cons. cbn [step]. rewrite S0, run_endname by auto.
  assert (E : rev (rev r ++ [c]) = c :: r) by now rewrite rev_app_distr, rev_involutive.
  assert (G : exists x y, rev r ++ [c] = x :: y). { destruct (rev r ++ [c]) as [|x y] eqn:Q; [destruct (rev r); discriminate|eauto]. }
  destruct G as (x & y & G). rewrite G in *. destruct W as [|b w B W].
  - cbn [app]. change (t_ ">") with [62]. cbn [run fold_left step]. change (name_char 62) with false. cbn [Z.eqb Pos.eqb]. now rewrite E.
  - cbn [app]. rewrite run_cons. cbn [step]. rewrite (blank_not_name b B).
    assert (Nb : (b =? 62) = false) by (apply Z.eqb_neq; cbn [In] in B; lia). rewrite Nb. apply blank_iff in B. rewrite B.
    rewrite run_app, run_endgap by auto. change (t_ ">") with [62]. cbn [run fold_left step]. change (xml_blank 62) with false. cbn [Z.eqb Pos.eqb]. now rewrite E.
Qed.

(** ** References and values. *)
Lemma decimal_ok s n : decimal s n -> s <> [] /\ Forall digit s /\ digits_val s = n.
Proof.
  induction 1 as [d D|s n d D (A & B & C) Dd].
  - split; [discriminate|]. split; [now constructor|]. unfold digits_val. cbn [fold_left]. lia.
  - split; [destruct s; discriminate|]. split; [apply Forall_app; split; [exact B|now constructor]|].
    unfold digits_val in *. rewrite fold_left_app, C. cbn [fold_left]. lia.
Qed.
Lemma hex_digit_ok c v : hexadecimal_digit c v -> hex_digit c = Some v.
Proof.
  unfold hexadecimal_digit, digit, hex_digit. intros H.
  destruct (in_range 48 57 c) eqn:E1; [apply in_range_iff in E1; f_equal; lia|].
  destruct (in_range 97 102 c) eqn:E2; [apply in_range_iff in E2; f_equal; lia|].
  destruct (in_range 65 70 c) eqn:E3; [apply in_range_iff in E3; f_equal; lia|].
  exfalso. assert (~ (48 <= c <= 57)) by (rewrite <- in_range_iff; congruence). assert (~ (97 <= c <= 102)) by (rewrite <- in_range_iff; congruence).
  assert (~ (65 <= c <= 70)) by (rewrite <- in_range_iff; congruence). lia.
Qed.
Lemma hex_snoc s d acc : hex_val acc (s ++ [d]) = match hex_val acc s with Some x => match hex_digit d with Some v => Some (x * 16 + v) | None => None end | None => None end.
Proof. revert acc. induction s as [|c s IH]; intros acc; cbn [app hex_val]; [now destruct (hex_digit d)|]. destruct (hex_digit c); auto. Qed.
Lemma hexadecimal_ok s n : hexadecimal s n -> s <> [] /\ Forall (fun c => exists v, hexadecimal_digit c v) s /\ hex_val 0 s = Some n.
Proof.
  induction 1 as [d v D|s n d v D (A & B & C) Dd].
  - split; [discriminate|]. split; [constructor; eauto|]. cbn [hex_val]. now rewrite (hex_digit_ok _ _ D).
  - split; [destruct s; discriminate|]. split; [apply Forall_app; split; [exact B|constructor; eauto]|].
    rewrite hex_snoc, C, (hex_digit_ok _ _ Dd). f_equal. lia.
Qed.
Lemma legal_ok c : character c -> legal c = Some c.
Proof. intros H. unfold legal. apply char_iff in H. now rewrite H. Qed.
Lemma reference_decimal s c : decimal s c -> character c -> reference (35 :: s) = Some c.
Proof.
  intros D C. destruct (decimal_ok _ _ D) as (N & F & V). destruct s as [|x s]; [congruence|].
  inversion F as [|? ? Fx Fs]; subst. unfold digit in Fx.
  assert (G : forallb ch_digit (x :: s) = true).
  { apply forallb_forall. intros y Y. rewrite Forall_forall in F. specialize (F y Y). unfold digit in F. unfold ch_digit. apply andb_true_iff. rewrite !Z.leb_le. lia. }
  assert (X : x = 48 \/ x = 49 \/ x = 50 \/ x = 51 \/ x = 52 \/ x = 53 \/ x = 54 \/ x = 55 \/ x = 56 \/ x = 57) by lia.
  unfold reference. cbn [skipn]. rewrite G.
  destruct X as [->|[->|[->|[->|[->|[->|[->|[->|[->| ->]]]]]]]]]; apply legal_ok; exact C.
Qed.
Lemma reference_hexadecimal s c : hexadecimal s c -> character c -> reference (35 :: 120 :: s) = Some c.
Proof.
  intros D C. destruct (hexadecimal_ok _ _ D) as (N & _ & V). destruct s as [|x s]; [congruence|].
  unfold reference. cbn [skipn]. rewrite V. now apply legal_ok.
Qed.
Lemma reference_named n c : In (n, c) named_characters -> reference n = Some c.
Proof.
  intros H. cbn [In named_characters] in H. destruct H as [H|[H|[H|[H|[H|[]]]]]]; apply pair_equal_spec in H; destruct H as [<- <-]; reflexivity.
Qed.
Definition ref_char (c : Z) : Prop := name_char c = true \/ c = 35.
Lemma run_ref d t l n q v r s : Forall ref_char s -> run (Ref d t l n q v r) s = Ref d t l n q v (rev s ++ r).
Proof.
  intros H. revert r. induction H as [|c s H _ IH]; intros r; [reflexivity|]. rewrite run_cons. cbn [step].
  assert (A : (c =? 59) = false /\ name_char c || (c =? 35) = true).
  { destruct H as [H| ->]; [|split; reflexivity]. rewrite H. split; [|reflexivity]. apply name_iff in H. unfold letter, digit in H. apply Z.eqb_neq. lia. }
  destruct A as [-> ->]. rewrite IH. cbn [rev]. now rewrite <- app_assoc.
Qed.
Lemma run_reference d t l n q v r c : (q = 34 \/ q = 39) -> Forall ref_char r -> reference r = Some c ->
  run (Value d t l n q v) (38 :: r ++ [59]) = Value d t l n q (c :: v).
Proof.
  intros Q F R. rewrite run_cons. cbn [step]. assert (E : (38 =? q) = false) by (apply Z.eqb_neq; lia). rewrite E. change (38 =? 38) with true. cbn iota.
  rewrite run_app, run_ref by auto. cbn [run fold_left step]. rewrite app_nil_r, rev_involutive, R. reflexivity.
Qed.
Lemma run_value d t l n q v s : (q = 34 \/ q = 39) -> written q v s -> forall v0, run (Value d t l n q v0) s = Value d t l n q (rev v ++ v0).
Proof.
  intros Q. induction 1 as [|c v s C N W IH|c v s B W IH|m c v s M W IH|m c v s D C W IH|m c v s D C W IH]; intros v0.
  - reflexivity.
  - rewrite run_cons. cbn [step]. cbn [In] in N. rewrite !eqb_false by (intros ?; apply N; subst; tauto). cbn [orb]. apply char_iff in C. rewrite C, IH. cbn [rev]. now rewrite <- app_assoc.
  - rewrite run_cons. cbn [step]. cbn [In] in B. rewrite (eqb_false c q), (eqb_false c 38), (eqb_false c 60), (eqb_false c 13) by lia.
    assert (X : (c =? 9) || (c =? 10) = true) by (apply orb_true_iff; rewrite !Z.eqb_eq; lia). rewrite X, IH. cbn [rev]. now rewrite <- app_assoc.
  - replace (t_ "&" ++ m ++ t_ ";" ++ s) with ((38 :: m ++ [59]) ++ s) by (cbn [app]; now rewrite <- app_assoc).
    rewrite run_app, (run_reference d t l n q v0 m c Q); [|..].
    + rewrite IH. cbn [rev]. now rewrite <- app_assoc.
    + cbn [In named_characters] in M. destruct M as [M|[M|[M|[M|[M|[]]]]]]; apply pair_equal_spec in M; destruct M as [<- _]; repeat (constructor; [left; reflexivity|]); constructor.
    + now apply reference_named.
  - replace (t_ "&#" ++ m ++ t_ ";" ++ s) with ((38 :: (35 :: m) ++ [59]) ++ s) by (cbn [app]; now rewrite <- app_assoc).
    rewrite run_app, (run_reference d t l n q v0 (35 :: m) c Q); [|..].
    + rewrite IH. cbn [rev]. now rewrite <- app_assoc.
    + constructor; [now right|]. destruct (decimal_ok _ _ D) as (_ & F & _). eapply Forall_impl; [|exact F]. intros x X. left. apply name_iff. tauto.
    + now apply reference_decimal.
  - replace (t_ "&#x" ++ m ++ t_ ";" ++ s) with ((38 :: (35 :: 120 :: m) ++ [59]) ++ s) by (cbn [app]; now rewrite <- app_assoc).
    rewrite run_app, (run_reference d t l n q v0 (35 :: 120 :: m) c Q); [|..].
    + rewrite IH. cbn [rev]. now rewrite <- app_assoc.
    + constructor; [now right|]. constructor; [now left|]. destruct (hexadecimal_ok _ _ D) as (_ & F & _). eapply Forall_impl; [|exact F].
      intros x (y & X). left. apply name_iff. unfold hexadecimal_digit, digit, letter in *. lia.
    + now apply reference_hexadecimal.
Qed.

(** ** Attributes and tags. *)
Lemma run_attributes d t l a : attributes l a -> forall acc g, NoDup (map fst acc ++ map fst l) ->
  run (InTag d t acc g) a = InTag d t (rev l ++ acc) (match l with [] => g | _ => false end).
Proof.
  induction 1 as [|w n w1 w2 q v s l r W Wn N Nx W1 W2 Q V A IH]; intros acc g D; [reflexivity|].
  assert (Q' : q = 34 \/ q = 39) by (cbn [In] in Q; intuition congruence).
  rewrite run_app, run_intag by auto. destruct w as [|b w]; [congruence|]. rewrite run_app, run_newattr by auto.
  assert (X : run (AttrName d t acc (rev n)) (w1 ++ t_ "=" ++ w2 ++ [q] ++ s ++ [q] ++ r) = run (Equals d t acc (rev n)) (w2 ++ [q] ++ s ++ [q] ++ r)).
  { destruct W1 as [|b1 w1 B1 W1]; [reflexivity|]. cbn [app]. rewrite run_cons. cbn [step]. rewrite (blank_not_name b1 B1). apply blank_iff in B1. rewrite B1.
    rewrite run_app, run_gap by auto. reflexivity. }
  rewrite X, run_app, run_equals by auto. cbn [app]. rewrite run_cons. cbn [step].
  assert (Y : xml_blank q = false /\ (q =? 34) || (q =? 39) = true) by (destruct Q' as [-> | ->]; split; reflexivity).
  destruct Y as [-> ->]. rewrite rev_involutive, run_app, (run_value _ _ _ _ _ _ _ Q' V), run_cons, app_nil_r. cbn [step]. rewrite Z.eqb_refl, rev_involutive.
  unfold end_value. assert (Z1 : text_eqb n (t_ "xmlns") = false) by (apply not_true_is_false; rewrite text_eqb_iff; exact Nx). rewrite Z1.
  assert (Z2 : existsb (fun kv => text_eqb (fst kv) n) acc = false).
  { apply not_true_is_false. intros E. apply existsb_exists in E. destruct E as (kv & I1 & I2). apply text_eqb_iff in I2. subst n.
    cbn [map fst] in D. apply NoDup_remove_2 in D. apply D. apply in_or_app. left. now apply in_map. }
  rewrite Z2, IH.
  - cbn [rev]. rewrite <- app_assoc. f_equal. now destruct l.
  - cbn [map fst] in *. cbn [app]. constructor; [apply NoDup_remove_2 in D; exact D|apply NoDup_remove_1 in D; exact D].
Qed.
(** After the inside of a tag, both ends are possible. *)
Lemma run_opening d e o : may_open d -> opening e o ->
  (forall rest, run (Less d) (o ++ t_ "/>" ++ rest) = run (Between (add_element d e)) rest) /\
  (forall rest, run (Less d) (o ++ t_ ">" ++ rest) = run (Between (push (add_element d e) (tag e))) rest).
Proof.
  intros M (a & w & N & D & A & W & ->).
  assert (X : run (Less d) (tag e ++ a ++ w) = TagName d (rev (tag e)) /\ attrib e = [] \/
    exists g, run (Less d) (tag e ++ a ++ w) = InTag d (tag e) (rev (attrib e)) g).
  { rewrite run_app, run_less by auto. destruct (a ++ w) as [|c r] eqn:E.
    - left. split; [reflexivity|]. apply app_eq_nil in E. destruct E as [-> _]. inversion A as [H|w0 ? ? ? ? ? ? ? ? ? Hw]; auto.
      destruct w0; [congruence|discriminate].
    - right. assert (B : In c [32; 9; 10; 13]).
      { destruct A as [|w0 n w1 w2 q v s l r0 W0 Hw]; cbn [app] in E.
        - subst w. now inversion W.
        - destruct w0 as [|c0 w0]; [congruence|]. cbn [app] in E. injection E as -> _. now inversion W0. }
      rewrite (first_blank _ _ _ _ B), <- E, run_app, rev_involutive, (run_attributes _ _ _ _ A [] false D), run_intag by auto. rewrite app_nil_r. eauto. }
  assert (Ee : mkEvent (tag e) (attrib e) = e) by now destruct e.
  split; intros rest; rewrite run_app; destruct X as [[-> E]|[g ->]].
  - change (t_ "/>" ++ rest) with (47 :: 62 :: rest). rewrite !run_cons. cbn [step]. change (name_char 47) with false. change (xml_blank 47) with false. cbn [Z.eqb Pos.eqb step].
    rewrite rev_involutive. cbn [rev]. rewrite <- E, Ee. reflexivity.
  - change (t_ "/>" ++ rest) with (47 :: 62 :: rest). rewrite !run_cons. cbn [step]. change (xml_blank 47) with false. cbn [Z.eqb Pos.eqb step].
    now rewrite rev_involutive, Ee.
  - change (t_ ">" ++ rest) with (62 :: rest). rewrite !run_cons. cbn [step]. change (name_char 62) with false. change (xml_blank 62) with false. cbn [Z.eqb Pos.eqb step].
    unfold start_tag. rewrite rev_involutive. cbn [rev]. rewrite <- E, Ee. reflexivity.
  - change (t_ ">" ++ rest) with (62 :: rest). rewrite !run_cons. cbn [step]. change (xml_blank 62) with false. cbn [Z.eqb Pos.eqb step].
    unfold start_tag. now rewrite rev_involutive, Ee.
Qed.
Lemma add_open d e : d_open d <> [] -> d_open (add_element d e) = d_open d.
Proof. unfold add_element. destruct (d_open d) as [|x [|y r]] eqn:E; [congruence|reflexivity|]. now rewrite E. Qed.
(** The effect of a list of elements on the children found. *)
Definition add_all (d : doc) (es : list event) : doc := fold_left add_element es d.
Lemma add_all_open d es : d_open d <> [] -> d_open (add_all d es) = d_open d.
Proof.
  unfold add_all. revert d. induction es as [|e es IH]; intros d N; [reflexivity|]. cbn [fold_left]. rewrite IH; rewrite add_open; auto.
Qed.
Lemma add_all_deep d x y r es : d_open d = x :: y :: r -> add_all d es = d.
Proof. intros E. unfold add_all. induction es as [|e es IH]; [reflexivity|]. cbn [fold_left]. replace (add_element d e) with d; [exact IH|]. unfold add_element. now rewrite E. Qed.
Lemma less_step d rest : run (Between d) (t_ "<" ++ rest) = run (Less d) rest.
Proof. reflexivity. Qed.
Lemma close_step d rest : d_open d <> [] -> run (Between d) (t_ "</" ++ rest) = run (EndName d []) rest.
Proof. intros N. change (t_ "</" ++ rest) with (60 :: 47 :: rest). rewrite !run_cons. cbn [step]. change (xml_blank 60) with false. cbn [Z.eqb Pos.eqb step]. destruct (d_open d); [congruence|reflexivity]. Qed.
Lemma run_content es s : content es s -> forall d, d_open d <> [] -> run (Between d) s = Between (add_all d es).
Proof.
  induction 1 as [w W|w e o es s W O C IH|w e o inner x w' es s W O C1 IH1 W' C2 IH2]; intros d N.
  - now apply run_between.
  - rewrite run_app, run_between by auto. rewrite less_step. destruct (run_opening d e o (or_introl N) O) as [A _]. rewrite A.
    rewrite IH by (rewrite add_open; auto). reflexivity.
  - rewrite run_app, run_between by auto. rewrite less_step. destruct (run_opening d e o (or_introl N) O) as [_ A]. rewrite A.
    rewrite run_app, IH1 by discriminate.
    assert (P : add_all (push (add_element d e) (tag e)) inner = push (add_element d e) (tag e)).
    { pose proof (add_open d e N) as Q. destruct (d_open d) as [|y r] eqn:E; [congruence|]. eapply add_all_deep. unfold push. cbn [d_open]. rewrite Q. reflexivity. }
    rewrite P, close_step by discriminate.
    replace (tag e ++ w' ++ t_ ">" ++ s) with ((tag e ++ w' ++ t_ ">") ++ s) by now rewrite <- !app_assoc.
    rewrite run_app, run_endtag; [|destruct O as (? & ? & Nm & _); exact Nm|exact W'].
    unfold end_tag, push. cbn [d_open d_root d_seen]. rewrite (proj2 (text_eqb_iff _ _) eq_refl).
    replace (mkDoc (d_open (add_element d e)) (d_root (add_element d e)) (d_seen (add_element d e))) with (add_element d e) by now destruct (add_element d e).
    rewrite IH2 by (rewrite add_open; auto). reflexivity.
Qed.
Lemma add_all_children d x es : d_open d = [x] -> add_all d es = mkDoc (d_open d) (d_root d) (rev es ++ d_seen d).
Proof.
  unfold add_all. revert d. induction es as [|e es IH]; intros d E; [now destruct d|]. cbn [fold_left].
  assert (A : add_element d e = mkDoc (d_open d) (d_root d) (e :: d_seen d)) by (unfold add_element; now rewrite E).
  rewrite A, IH by exact E. cbn [d_open d_root d_seen rev]. now rewrite <- app_assoc.
Qed.
Lemma document_read root es s : document root es s -> fromstring s = Document root es.
Proof.
  intros (w & o & w2 & W & O & W2 & H). unfold fromstring. set (d0 := mkDoc [] None []).
  assert (M : may_open d0) by now right. destruct (run_opening d0 root o M O) as [A B].
  destruct H as [(x & w1 & C & W1 & ->)|(-> & ->)]; rewrite run_app, run_between by auto; rewrite less_step.
  - rewrite B, run_app, (run_content _ _ C) by discriminate. rewrite (add_all_children _ (tag root)) by reflexivity.
    rewrite close_step by discriminate. cbn [d_open d_root d_seen push add_element d0].
    replace (tag root ++ w1 ++ t_ ">" ++ w2) with ((tag root ++ w1 ++ t_ ">") ++ w2) by now rewrite <- !app_assoc.
    rewrite run_app, run_endtag; [|destruct O as (? & ? & Nm & _); exact Nm|exact W1].
    unfold end_tag. cbn [d_open d_root d_seen]. rewrite (proj2 (text_eqb_iff _ _) eq_refl), run_between by auto.
    cbn [answer]. now rewrite app_nil_r, rev_involutive.
  - rewrite A, run_between by auto. reflexivity.
Qed.

(** ** Truncated texts. *)
Lemma run_bad s : run Bad s = Bad.
Proof. induction s; auto. Qed.
Lemma run_other s : run Other s = Other.
Proof. induction s; auto. Qed.
Lemma after_root r seen e s : answer (run (Between (mkDoc [] (Some e) seen)) s) = r -> (exists e' l, r = Document e' l) -> blanks s.
Proof.
  intros <-. induction s as [|c s IH]; intros (e' & l & H); [constructor|]. rewrite run_cons in H. cbn [step d_open] in H.
  destruct (xml_blank c) eqn:B.
  - constructor; [now apply blank_iff|]. apply IH. eauto.
  - exfalso. destruct (c =? 60).
    + destruct s as [|x s]; [discriminate|]. rewrite run_cons in H. cbn [step d_open d_root] in H.
      destruct (x =? 47); [rewrite run_bad in H; discriminate|]. destruct ((x =? 33) || (x =? 63)); [rewrite run_other in H; discriminate|].
      destruct (name_start x); [rewrite run_bad in H; discriminate|]. unfold other_or_bad in H. destruct (beyond x); [rewrite run_other in H|rewrite run_bad in H]; discriminate.
    + destruct (c =? 65279); [rewrite run_other in H|rewrite run_bad in H]; discriminate.
Qed.
Lemma truncated a b root es : fromstring (a ++ b) = Document root es -> ~ blanks b -> fromstring a = ParseError.
Proof.
  unfold fromstring. rewrite run_app. set (s := run (Between (mkDoc [] None [])) a). intros H N.
  destruct s as [d| | | | | | | | | | | | |] eqn:E; try reflexivity.
  - destruct d as [[|x o] [e|] seen]; try reflexivity. exfalso. apply N. eapply after_root; [exact H|eauto].
  - rewrite run_other in H. discriminate.
Qed.
