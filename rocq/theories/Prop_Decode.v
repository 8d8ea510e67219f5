(** C137: names that are no UTF-8.

    In English: whatever an escaped name says, the name of a player consists of Unicode characters (no half surrogate
    pairs, nothing beyond U+10FFFF), so that it can always be written to a UTF-8 file; and if the name has no replacement
    character U+FFFD, the bytes that were escaped are exactly the UTF-8 bytes of the name: overlong and other forbidden
    spellings of a character are never taken for it. *)
From Verif Require Import Base Text Parse Reader Url Spec_Url Prop_Url.
From Coq Require Import String List ZArith Lia Bool.
Import ListNotations.
Open Scope list_scope.
Open Scope Z_scope.

Definition is_byte (b : Z) : Prop := 0 <= b < 256.

Lemma two_bytes b b1 : 194 <= b <= 223 -> 128 <= b1 <= 191 -> let c := (b - 192) * 64 + (b1 - 128) in scalar c /\ utf8 c = [b; b1].
Proof.
  intros B B1 c. assert (C : 128 <= c < 2048) by (unfold c; lia). split; [unfold scalar; lia|].
  assert (Q : c / 64 = b - 192) by (symmetry; apply (Z.div_unique c 64 (b - 192) (b1 - 128)); unfold c; lia).
  assert (R : c mod 64 = b1 - 128) by (symmetry; apply (Z.mod_unique c 64 (b - 192) (b1 - 128)); unfold c; lia).
  unfold utf8. destruct (Z.ltb_spec c 128); [lia|]. destruct (Z.ltb_spec c 2048); [|lia]. rewrite Q, R. f_equal; [lia|f_equal; lia].
Qed.
Lemma three_bytes b b1 b2 : 224 <= b <= 239 -> second_of_three b b1 = true -> 128 <= b2 <= 191 ->
  let c := (b - 224) * 4096 + (b1 - 128) * 64 + (b2 - 128) in scalar c /\ utf8 c = [b; b1; b2].
Proof.
  intros B S0 B2 c. unfold second_of_three in S0.
  assert (X : 128 <= b1 <= 191 /\ (b = 224 -> 160 <= b1) /\ (b = 237 -> b1 <= 159)).
  { destruct (Z.eqb_spec b 224); [apply byte_in_iff in S0; lia|]. destruct (Z.eqb_spec b 237); apply byte_in_iff in S0; lia. }
  destruct X as (B1 & X1 & X2).
  assert (C : 2048 <= c < 65536) by (unfold c; destruct (Z.eq_dec b 224) as [E|E]; [specialize (X1 E); lia|lia]).
  split.
  { unfold scalar. unfold c in *. destruct (Z.eq_dec b 237) as [E|E]; [specialize (X2 E); lia|]. lia. }
  assert (Q : c / 64 = (b - 224) * 64 + (b1 - 128)) by (symmetry; apply (Z.div_unique c 64 _ (b2 - 128)); unfold c; lia).
  assert (R : c mod 64 = b2 - 128) by (symmetry; apply (Z.mod_unique c 64 ((b - 224) * 64 + (b1 - 128)) (b2 - 128)); unfold c; lia).
  assert (Q2 : c / 4096 = b - 224) by (symmetry; apply (Z.div_unique c 4096 _ ((b1 - 128) * 64 + (b2 - 128))); unfold c; lia).
  assert (R2 : (c / 64) mod 64 = b1 - 128) by (rewrite Q; symmetry; apply (Z.mod_unique _ 64 (b - 224) (b1 - 128)); lia).
  unfold utf8. destruct (Z.ltb_spec c 128); [lia|]. destruct (Z.ltb_spec c 2048); [lia|]. destruct (Z.ltb_spec c 65536); [|lia].
  rewrite Q2, R2, R. f_equal; [lia|f_equal; [lia|f_equal; lia]].
Qed.
Lemma four_bytes b b1 b2 b3 : 240 <= b <= 244 -> second_of_four b b1 = true -> 128 <= b2 <= 191 -> 128 <= b3 <= 191 ->
  let c := (b - 240) * 262144 + (b1 - 128) * 4096 + (b2 - 128) * 64 + (b3 - 128) in scalar c /\ utf8 c = [b; b1; b2; b3].
Proof.
  intros B S0 B2 B3 c. unfold second_of_four in S0.
  assert (X : 128 <= b1 <= 191 /\ (b = 240 -> 144 <= b1) /\ (b = 244 -> b1 <= 143)).
  { destruct (Z.eqb_spec b 240); [apply byte_in_iff in S0; lia|]. destruct (Z.eqb_spec b 244); apply byte_in_iff in S0; lia. }
  destruct X as (B1 & X1 & X2).
  assert (C : 65536 <= c < 1114112).
  { unfold c. destruct (Z.eq_dec b 240) as [E|E]; [specialize (X1 E); lia|]. destruct (Z.eq_dec b 244) as [E2|E2]; [specialize (X2 E2); lia|]. lia. }
  split; [unfold scalar; lia|].
  assert (Q : c / 64 = (b - 240) * 4096 + (b1 - 128) * 64 + (b2 - 128)) by (symmetry; apply (Z.div_unique c 64 _ (b3 - 128)); unfold c; lia).
  assert (R : c mod 64 = b3 - 128) by (symmetry; apply (Z.mod_unique c 64 ((b - 240) * 4096 + (b1 - 128) * 64 + (b2 - 128)) (b3 - 128)); unfold c; lia).
  assert (Q2 : c / 4096 = (b - 240) * 64 + (b1 - 128)) by (symmetry; apply (Z.div_unique c 4096 _ ((b2 - 128) * 64 + (b3 - 128))); unfold c; lia).
  assert (Q3 : c / 262144 = b - 240) by (symmetry; apply (Z.div_unique c 262144 _ ((b1 - 128) * 4096 + (b2 - 128) * 64 + (b3 - 128))); unfold c; lia).
  assert (R2 : (c / 64) mod 64 = b2 - 128) by (rewrite Q; symmetry; apply (Z.mod_unique _ 64 ((b - 240) * 64 + (b1 - 128)) (b2 - 128)); lia).
  assert (R3 : (c / 4096) mod 64 = b1 - 128) by (rewrite Q2; symmetry; apply (Z.mod_unique _ 64 (b - 240) (b1 - 128)); lia).
  unfold utf8. destruct (Z.ltb_spec c 128); [lia|]. destruct (Z.ltb_spec c 2048); [lia|]. destruct (Z.ltb_spec c 65536); [lia|].
  rewrite Q3, R3, R2, R. f_equal; [lia|f_equal; [lia|f_equal; [lia|f_equal; lia]]].
Qed.

(** One step of the decoder: a character and its bytes, or U+FFFD for some bytes. *)
Lemma decode_step b r : is_byte b -> Forall is_byte r ->
  (exists c used rest, b :: r = used ++ rest /\ used <> [] /\ utf8_decode (b :: r) = c :: utf8_decode rest /\ scalar c /\ (c = 65533 \/ used = utf8 c)).
Proof.
  intros B F. cbn [utf8_decode].
  assert (Rep : forall used rest, b :: r = used ++ rest -> used <> [] -> forall t, t = 65533 :: utf8_decode rest ->
    exists c used rest, b :: r = used ++ rest /\ used <> [] /\ t = c :: utf8_decode rest /\ scalar c /\ (c = 65533 \/ used = utf8 c)).
  { intros used rest E N t ->. exists 65533, used, rest. repeat split; auto; unfold scalar; lia. }
  destruct (Z.ltb_spec b 128) as [L|L].
  { exists b, [b], r. repeat split; try discriminate; [unfold scalar, is_byte in *; lia|]. right. unfold utf8. now rewrite (proj2 (Z.ltb_lt b 128) L). }
  destruct (byte_in 194 223 b) eqn:E2.
  { apply byte_in_iff in E2. destruct r as [|b1 r1]; [apply (Rep [b] []); auto; discriminate|]. destruct (cont_byte b1) eqn:K.
    - apply byte_in_iff in K. destruct (two_bytes b b1 E2 K) as [S1 U]. eexists _, [b; b1], r1. repeat split; try discriminate; [exact S1|right; now symmetry].
    - apply (Rep [b] (b1 :: r1)); auto; discriminate. }
  destruct (byte_in 224 239 b) eqn:E3.
  { apply byte_in_iff in E3. destruct r as [|b1 r1]; [apply (Rep [b] []); auto; discriminate|]. destruct (second_of_three b b1) eqn:K.
    - destruct r1 as [|b2 r2]; [apply (Rep [b; b1] []); auto; discriminate|]. destruct (cont_byte b2) eqn:K2.
      + apply byte_in_iff in K2. destruct (three_bytes b b1 b2 E3 K K2) as [S1 U]. eexists _, [b; b1; b2], r2. repeat split; try discriminate; [exact S1|right; now symmetry].
      + apply (Rep [b; b1] (b2 :: r2)); auto; discriminate.
    - apply (Rep [b] (b1 :: r1)); auto; discriminate. }
  destruct (byte_in 240 244 b) eqn:E4.
  { apply byte_in_iff in E4. destruct r as [|b1 r1]; [apply (Rep [b] []); auto; discriminate|]. destruct (second_of_four b b1) eqn:K.
    - destruct r1 as [|b2 r2]; [apply (Rep [b; b1] []); auto; discriminate|]. destruct (cont_byte b2) eqn:K2.
      + destruct r2 as [|b3 r3]; [apply (Rep [b; b1; b2] []); auto; discriminate|]. destruct (cont_byte b3) eqn:K3.
        * apply byte_in_iff in K2, K3. destruct (four_bytes b b1 b2 b3 E4 K K2 K3) as [S1 U]. eexists _, [b; b1; b2; b3], r3. repeat split; try discriminate; [exact S1|right; now symmetry].
        * apply (Rep [b; b1; b2] (b3 :: r3)); auto; discriminate.
      + apply (Rep [b; b1] (b2 :: r2)); auto; discriminate.
    - apply (Rep [b] (b1 :: r1)); auto; discriminate. }
  apply (Rep [b] r); auto; discriminate.
Qed.
Lemma decode_all : forall n l, (length l <= n)%nat -> Forall is_byte l ->
  Forall scalar (utf8_decode l) /\ (~ In 65533 (utf8_decode l) -> flat_map utf8 (utf8_decode l) = l).
Proof.
  induction n as [|n IH]; intros l L F.
  - destruct l; [|cbn in L; lia]. split; [constructor|reflexivity].
  - destruct l as [|b r]; [split; [constructor|reflexivity]|]. inversion F as [|? ? Fb Fr]; subst.
    destruct (decode_step b r Fb Fr) as (c & used & rest & E & N & D & S0 & U).
    assert (Lr : (length rest <= n)%nat). { apply (f_equal (@length Z)) in E. rewrite app_length in E. cbn [length] in *. destruct used; [now destruct N|]. cbn [length] in E. lia. }
    assert (Fs : Forall is_byte rest) by (rewrite E in F; apply Forall_app in F; apply F).
    destruct (IH rest Lr Fs) as [A B]. rewrite D. split; [constructor; assumption|]. intros NI. cbn [flat_map In] in *.
    destruct U as [->|U]; [exfalso; apply NI; now left|]. rewrite B by tauto. now rewrite E, U.
Qed.
Theorem C137_decoded : forall bytes, Forall is_byte bytes ->
  Forall scalar (utf8_decode bytes) /\ (~ In 65533 (utf8_decode bytes) -> flat_map utf8 (utf8_decode bytes) = bytes).
Proof. intros l F. exact (decode_all (length l) l (le_n _) F). Qed.

(** Escapes give bytes. *)
Lemma hex_range c x : hex_digit c = Some x -> 0 <= x < 16.
Proof.
  unfold hex_digit. intros H. repeat match type of H with context[if ?b then _ else _] => destruct b eqn:?E end; try discriminate; injection H as <-;
  repeat match goal with [ E : _ && _ = true |- _ ] => apply andb_true_iff in E; destruct E end; rewrite ?Z.leb_le in *; lia.
Qed.
Lemma to_bytes : forall n s, (length s <= n)%nat -> Forall (fun c => 0 <= c < 128) s -> Forall is_byte (unquote_to_bytes s).
Proof.
  induction n as [|n IH]; intros s L F.
  - destruct s; [constructor|cbn in L; lia].
  - destruct s as [|c r]; [constructor|]. inversion F as [|? ? Fc Fr]; subst. cbn [length] in L.
    assert (K : Forall is_byte (c :: unquote_to_bytes r)) by (constructor; [unfold is_byte; lia|apply IH; [lia|assumption]]).
    cbn [unquote_to_bytes]. destruct (c =? 37); [|exact K]. destruct r as [|a [|b r2]]; try exact K.
    destruct (hex_digit a) as [x|] eqn:Ha; [|exact K]. destruct (hex_digit b) as [y|] eqn:Hb; [|exact K].
    apply hex_range in Ha, Hb. constructor; [unfold is_byte; lia|]. apply IH; [cbn [length] in L; lia|]. inversion Fr as [|? ? _ F2]; subst. now inversion F2.
Qed.
Lemma runs_scalar : forall s run, Forall scalar s -> Forall (fun c => 0 <= c < 128) run -> Forall scalar (unquote_runs run s).
Proof.
  induction s as [|c s IH]; intros run F G; cbn [unquote_runs].
  - apply C137_decoded. apply (to_bytes (length (rev run)) _ (le_n _)). apply Forall_rev. exact G.
  - inversion F as [|? ? Fc Fs]; subst. destruct (Z.ltb_spec c 128) as [L|L].
    + apply IH; [assumption|]. constructor; [unfold scalar in Fc; lia|assumption].
    + apply Forall_app. split; [apply C137_decoded; apply (to_bytes (length (rev run)) _ (le_n _)); apply Forall_rev; exact G|].
      constructor; [assumption|]. apply IH; [assumption|constructor].
Qed.
Theorem C137_names : forall p, Forall scalar (pl_name p) -> Forall scalar (player_name p).
Proof.
  intros p F. unfold player_name, py_unquote. destruct (existsb (Z.eqb 37) (pl_name p)); [|exact F]. apply runs_scalar; [exact F|constructor].
Qed.
(** All escaped (as Tenhou writes names): without a replacement character the bytes are those of the name. *)
Lemma faithful : forall s, Forall (fun c => 0 <= c < 128) s -> In 37 s -> ~ In 65533 (py_unquote s) ->
  flat_map utf8 (py_unquote s) = unquote_to_bytes s.
Proof.
  intros s F P N. unfold py_unquote in *. replace (existsb (Z.eqb 37) s) with true in * by (symmetry; apply existsb_exists; exists 37; split; [exact P|reflexivity]).
  assert (X : forall s run, Forall (fun c => 0 <= c < 128) s -> unquote_runs run s = utf8_decode (unquote_to_bytes (rev run ++ s))).
  { clear. induction s as [|c s IH]; intros run F; cbn [unquote_runs]; [now rewrite app_nil_r|]. inversion F as [|? ? Fc Fs]; subst.
    destruct (Z.ltb_spec c 128); [|lia]. rewrite IH by assumption. cbn [rev]. now rewrite <- app_assoc. }
  rewrite X in * by exact F. cbn [rev app] in *. apply C137_decoded; [|exact N]. exact (to_bytes _ _ (le_n _) F).
Qed.
Lemma escaped_bytes bs s : escaped bs s -> Forall (fun c => 0 <= c < 128) s /\ unquote_to_bytes s = bs.
Proof.
  induction 1 as [|b bs h l s H1 H2 E [A B]]; [split; [constructor|reflexivity]|].
  assert (R : forall v h, hex v h -> 0 <= h < 128) by (intros v0 h0 X; destruct X; lia).
  split; [repeat constructor; try lia; try (eapply R; eassumption); exact A|].
  cbn [unquote_to_bytes]. change (37 =? 37) with true. cbv iota. rewrite (proj1 (hex_read _ _ H1)), (proj1 (hex_read _ _ H2)), B. f_equal.
  pose proof (Z.div_mod b 16 ltac:(lia)). lia.
Qed.
Theorem C137_faithful : forall bs s, escaped bs s -> ~ In 65533 (py_unquote s) -> flat_map utf8 (py_unquote s) = bs.
Proof.
  intros bs s E N. destruct (escaped_bytes _ _ E) as [A B]. rewrite <- B. destruct E as [|b bs h l s H1 H2 E]; [reflexivity|]. apply faithful; [exact A|now left|exact N].
Qed.
(** [%E3%81%82] is one character; the overlong slash [%C0%AF] and [%E0%80%AF], half a surrogate pair [%ED%A0%80] and
    [%F4%90%80%80], beyond the last character, are none. *)
Example C137_case : py_unquote (t_ "%E3%81%82") = [0x3042] /\ py_unquote (t_ "%C0%AF") = [65533; 65533] /\
  py_unquote (t_ "%E0%80%AF") = [65533; 65533; 65533] /\ py_unquote (t_ "%ED%A0%80") = [65533; 65533; 65533] /\
  py_unquote (t_ "%F4%90%80%80") = [65533; 65533; 65533; 65533] /\ escaped [0xE3; 0x81; 0x82] (t_ "%E3%81%82") /\ Forall scalar (t_ "%ED%A0%80").
Proof.
  do 5 (split; [reflexivity|]). split.
  - change (t_ "%E3%81%82") with [37; 55 + 14; 48 + 3; 37; 48 + 8; 48 + 1; 37; 48 + 8; 48 + 2]. repeat (constructor; [constructor; cbn; lia|constructor; cbn; lia|]). constructor.
  - repeat constructor; unfold scalar; lia.
Qed.
Print Assumptions C137_decoded.
Print Assumptions C137_names.
Print Assumptions C137_faithful.
