(** Proofs about CSV files: writing and splitting, and what columns are read as. *)
From Verif Require Import Base Parse Text Value Json Transfer Universe Record Csv StateProofs JsonProofs UniverseProofs
  Spec_Universe Spec_Record Prop_Record Spec_Csv.
From Coq Require Import String List ZArith Lia Bool.
Import ListNotations.
Open Scope list_scope.
Open Scope Z_scope.

(** ** Writing and splitting. *)
Section Split.
Context (skip : bool).
Definition no_blank_head (f : text) : Prop := skip = true -> hd 0 f <> 32.
Lemma in_field f : Forall (fun c => c <> 44 /\ c <> 34 /\ c <> 10 /\ c <> 13) f -> forall acc st line d r, d = 44 \/ d = 10 ->
  tokenize skip InField false st acc line (f ++ d :: r) = tokenize skip InField false st (rev f ++ acc) line (d :: r).
Proof.
  induction 1 as [|c f [A [B [C D]]] F IH]; intros acc st line d r Hd; [reflexivity|].
  cbn [app]. cbn [tokenize]. destruct (Z.eqb_spec c 44); [lia|]. destruct (Z.eqb_spec c 10); [lia|]. destruct (Z.eqb_spec c 13); [lia|].
  rewrite IH by exact Hd. cbn [rev]. rewrite <- app_assoc. reflexivity.
Qed.
Lemma in_quoted f : forall acc line r,
  tokenize skip InQuoted false true acc line (double_quotes f ++ 34 :: r) = tokenize skip QuoteInQuoted false true (rev f ++ acc) line r.
Proof.
  induction f as [|c f IH]; intros acc line r; [reflexivity|]. unfold double_quotes in *. cbn [flat_map].
  destruct (Z.eqb_spec c 34) as [->|N].
  - cbn [app tokenize]. rewrite ?Z.eqb_refl. cbv iota. cbn [tokenize]. change (34 =? 44) with false. change (34 =? 10) with false. change (34 =? 13) with false.
    cbv iota. rewrite IH. cbn [rev]. rewrite <- app_assoc. reflexivity.
  - cbn [app tokenize]. destruct (Z.eqb_spec c 34); [lia|]. rewrite IH. cbn [rev]. rewrite <- app_assoc. reflexivity.
Qed.
Lemma unquoted f : needs_quotes f = false -> ~ In 13 f -> Forall (fun c => c <> 44 /\ c <> 34 /\ c <> 10 /\ c <> 13) f.
Proof.
  intros N C. apply Forall_forall. intros c I0. unfold needs_quotes in N.
  assert (X : ((c =? 44) || (c =? 34) || (c =? 10)) = false).
  { destruct (((c =? 44) || (c =? 34) || (c =? 10))) eqn:E; [|reflexivity]. rewrite <- N. symmetry. apply existsb_exists. exists c. auto. }
  apply orb_false_iff in X. destruct X as [X Y]. apply orb_false_iff in X. destruct X as [X W].
  apply Z.eqb_neq in X, W, Y. repeat split; auto. intros ->. exact (C I0).
Qed.
(** The field before a comma, and the last of a line. *)
Lemma field_comma f line r : ~ In 13 f -> no_blank_head f ->
  tokenize skip StartField false false [] line (write_field f ++ 44 :: r) = tokenize skip StartField false false [] (f :: line) r.
Proof.
  intros C H. unfold write_field. destruct (needs_quotes f) eqn:N.
  - rewrite <- !app_assoc. cbn [app tokenize]. change (34 =? 44) with false. change (34 =? 10) with false. change (34 =? 13) with false. cbv iota. rewrite ?Z.eqb_refl. cbv iota.
    rewrite in_quoted. cbn [tokenize]. rewrite ?Z.eqb_refl. cbv iota. rewrite rev_app_distr, rev_involutive. reflexivity.
  - pose proof (unquoted f N C) as U. destruct U as [|c f [A [B [D E]]] U].
    + cbn [app tokenize]. rewrite ?Z.eqb_refl. cbv iota. reflexivity.
    + cbn [app tokenize]. destruct (Z.eqb_spec c 44); [lia|]. destruct (Z.eqb_spec c 10); [lia|]. destruct (Z.eqb_spec c 13); [lia|].
      destruct (Z.eqb_spec c 34); [lia|].
      assert (X : skip && (c =? 32) = false).
      { destruct skip eqn:K; [|reflexivity]. cbn [andb]. apply Z.eqb_neq. exact (H K). }
      rewrite X. rewrite in_field by (auto). cbn [tokenize]. rewrite ?Z.eqb_refl. cbv iota. rewrite rev_app_distr, rev_involutive. reflexivity.
Qed.
Lemma field_end f line r : ~ In 13 f -> no_blank_head f -> line <> [] ->
  tokenize skip StartField false false [] line (write_field f ++ 10 :: r) = rev (f :: line) :: tokenize skip StartField false false [] [] r.
Proof.
  intros C H L. destruct line as [|l0 line]; [contradiction|]. unfold write_field. destruct (needs_quotes f) eqn:N.
  - rewrite <- !app_assoc. cbn [app tokenize]. change (34 =? 44) with false. change (34 =? 10) with false. change (34 =? 13) with false. cbv iota. rewrite ?Z.eqb_refl. cbv iota.
    rewrite in_quoted. cbn [tokenize]. change (10 =? 44) with false. cbv iota. rewrite ?Z.eqb_refl. cbv iota. unfold end_line. rewrite rev_app_distr, rev_involutive. reflexivity.
  - pose proof (unquoted f N C) as U. destruct U as [|c f [A [B [D E]]] U].
    + cbn [app tokenize]. change (10 =? 44) with false. cbv iota. rewrite ?Z.eqb_refl. cbv iota. reflexivity.
    + cbn [app tokenize]. destruct (Z.eqb_spec c 44); [lia|]. destruct (Z.eqb_spec c 10); [lia|]. destruct (Z.eqb_spec c 13); [lia|].
      destruct (Z.eqb_spec c 34); [lia|].
      assert (X : skip && (c =? 32) = false).
      { destruct skip eqn:K; [|reflexivity]. cbn [andb]. apply Z.eqb_neq. exact (H K). }
      rewrite X. rewrite in_field by (auto). cbn [tokenize]. change (10 =? 44) with false. cbv iota. rewrite ?Z.eqb_refl. cbv iota. unfold end_line.
      rewrite rev_app_distr, rev_involutive. reflexivity.
Qed.
Definition line_ok (l : list text) : Prop := Forall (fun f => ~ In 13 f /\ no_blank_head f) l.
Lemma fields_read : forall fs f line r, line_ok (f :: fs) -> (line <> [] \/ fs <> []) ->
  tokenize skip StartField false false [] line (join (t_ ",") (map write_field (f :: fs)) ++ 10 :: r) =
  (rev line ++ f :: fs) :: tokenize skip StartField false false [] [] r.
Proof.
  induction fs as [|g fs IH]; intros f line r Ok0 L; inversion Ok0 as [|? ? [A B] O']; subst.
  - cbn [map join]. rewrite field_end by (auto; destruct L; congruence). reflexivity.
  - change (join (t_ ",") (map write_field (f :: g :: fs))) with (write_field f ++ t_ "," ++ join (t_ ",") (map write_field (g :: fs))).
    rewrite <- !app_assoc. change (t_ "," ++ join (t_ ",") (map write_field (g :: fs)) ++ 10 :: r) with (44 :: join (t_ ",") (map write_field (g :: fs)) ++ 10 :: r).
    rewrite field_comma by auto. rewrite IH; [|exact O'|left; discriminate]. cbn [rev]. rewrite <- app_assoc. reflexivity.
Qed.
Lemma line_read l r : line_ok l -> (2 <= length l)%nat -> read_lines skip (write_line l ++ r) = l :: read_lines skip r.
Proof.
  intros O L. destruct l as [|f [|g l]]; cbn [length] in L; try lia. unfold read_lines, write_line. rewrite <- app_assoc. cbn [app].
  rewrite (fields_read (g :: l) f [] r O) by (right; discriminate). reflexivity.
Qed.
(** What was written is what is read. *)
Lemma read_write lines : Forall (fun l => line_ok l /\ (2 <= length l)%nat) lines -> read_lines skip (write_csv lines) = lines.
Proof.
  induction 1 as [|l lines [O L] F IH]; [reflexivity|]. unfold write_csv. cbn [flat_map]. rewrite line_read by auto. f_equal. exact IH.
Qed.
End Split.

(** ** Reading columns. *)
Section Cols.
Context (none_too : bool).
(** What a text can be read as, alone. *)
Definition reading (s : text) (c : cell) : Prop :=
  (missing none_too s = true /\ c = CNaN) \/
  (missing none_too s = false /\
   (c = CText s \/ (exists z, int_token s = Some z /\ (c = CInt z \/ c = CFloat (dec_of z 0 0))) \/ float_token s = Some c \/
    exists b, bool_token s = Some b /\ c = CBool b)).
Lemma all_some_each {A} (f : text -> option A) l os : all_some none_too f l = Some os ->
  Forall2 (fun s o => if missing none_too s then o = None else exists a, f s = Some a /\ o = Some a) l os.
Proof.
  revert os. induction l as [|s l IH]; intros os H; cbn [all_some] in H; [injection H as <-; constructor|].
  destruct (missing none_too s) eqn:M.
  - destruct (all_some none_too f l) as [y|]; [|discriminate]. injection H as <-. constructor; [rewrite M; reflexivity|auto].
  - destruct (f s) as [a|] eqn:E; cbn [option_map] in H; [|discriminate]. destruct (all_some none_too f l) as [y|]; [|discriminate]. injection H as <-.
    constructor; [rewrite M; eauto|auto].
Qed.
Lemma all_some_fail {A} (f : text -> option A) l s : In s l -> missing none_too s = false -> f s = None -> all_some none_too f l = None.
Proof.
  induction l as [|x l IH]; intros I0 M N; [destruct I0|]. cbn [all_some]. destruct I0 as [->|I0].
  - rewrite M, N. reflexivity.
  - rewrite (IH I0 M N). destruct (if missing none_too x then _ else _); reflexivity.
Qed.
Lemma all_some_ok {A} (f : text -> option A) (g : text -> A) l : Forall (fun s => missing none_too s = false /\ f s = Some (g s)) l ->
  all_some none_too f l = Some (map (fun s => Some (g s)) l).
Proof. induction 1 as [|s l [M E] F IH]; [reflexivity|]. cbn [all_some map]. rewrite M, E, IH. reflexivity. Qed.
Lemma texts_read l : Forall2 reading l (map (fun s => if missing none_too s then CNaN else CText s) l).
Proof. induction l as [|s l IH]; cbn [map]; constructor; auto. unfold reading. destruct (missing none_too s); auto. Qed.
Lemma forall2_map {A B C} (P : A -> C -> Prop) (Q : A -> B -> Prop) (g : B -> C) l m : (forall a b, Q a b -> P a (g b)) -> Forall2 Q l m -> Forall2 P l (map g m).
Proof. intros H. induction 1; cbn [map]; constructor; auto. Qed.
Lemma convert_reading l : Forall2 reading l (convert none_too l).
Proof.
  unfold convert. destruct (all_some none_too int_token l) as [zs|] eqn:E.
  - apply all_some_each in E. destruct (forallb _ zs); [|apply texts_read]. destruct (existsb (missing none_too) l); (eapply forall2_map; [|exact E]);
      intros s o H; cbv beta in H; unfold reading; destruct (missing none_too s); subst; cbn [or_nan]; auto; destruct H as [z [A ->]]; cbn [or_nan]; right; split; auto; right; left; eauto.
  - destruct (all_some none_too float_token l) as [cs|] eqn:E2.
    + apply all_some_each in E2. eapply forall2_map; [|exact E2]. intros s o H. cbv beta in H. unfold reading. destruct (missing none_too s); subst; cbn [or_nan]; auto.
      destruct H as [z [A ->]]; cbn [or_nan]. right; split; auto.
    + destruct (all_some none_too bool_token l) as [bs|] eqn:E3; [|apply texts_read].
      apply all_some_each in E3. eapply forall2_map; [|exact E3]. intros s o H. cbv beta in H. unfold reading. destruct (missing none_too s); subst; cbn [or_nan]; auto.
      destruct H as [z [A ->]]; cbn [or_nan]. right; split; auto. right. right. right. eauto.
Qed.
(** A text that is nothing but a text. *)
Definition wordy (s : text) : Prop := missing none_too s = false /\ int_token s = None /\ float_token s = None /\ bool_token s = None.
Lemma convert_texts l w : In w l -> wordy w -> convert none_too l = map (fun s => if missing none_too s then CNaN else CText s) l.
Proof.
  intros I0 [M [A [B C]]]. unfold convert. rewrite (all_some_fail _ l w I0 M A), (all_some_fail _ l w I0 M B), (all_some_fail _ l w I0 M C). reflexivity.
Qed.
Lemma wordy_text s c : wordy s -> reading s c -> c = CText s.
Proof. intros [M [A [B C]]] [[X _]|[_ [->|[[z [X _]]|[X|[b [X _]]]]]]]; congruence. Qed.
Lemma convert_ints zs : Forall (fun z => fits_64 z = true /\ missing none_too (str_int z) = false /\ int_token (str_int z) = Some z) zs ->
  convert none_too (map str_int zs) = map CInt zs.
Proof.
  intro F. unfold convert.
  assert (E : all_some none_too int_token (map str_int zs) = Some (map Some zs)).
  { induction F as [|z zs [A [B C]] F IH]; [reflexivity|]. cbn [map all_some]. rewrite B, C, IH. reflexivity. }
  rewrite E.
  assert (G : forallb (fun o => match o with Some z => fits_64 z | None => true end) (map Some zs) = true).
  { clear E. induction F as [|z zs [A _] F IH]; [reflexivity|]. cbn [map forallb]. rewrite A. exact IH. }
  rewrite G.
  assert (N : existsb (missing none_too) (map str_int zs) = false).
  { clear E G. induction F as [|z zs [_ [B _]] F IH]; [reflexivity|]. cbn [map existsb]. rewrite B. exact IH. }
  rewrite N, map_map. reflexivity.
Qed.

Lemma forall2_length {A B} (P : A -> B -> Prop) l m : Forall2 P l m -> length l = length m.
Proof. induction 1; cbn [length]; congruence. Qed.
Lemma convert_length l : length (convert none_too l) = length l.
Proof. symmetry. eapply forall2_length. apply convert_reading. Qed.
(** What a text of a column can be read as. *)
Definition reading_in (s : text) (c : cell) : Prop :=
  reading s c \/ (missing none_too s = false /\ exists b : bool, bool_token s = Some b /\
    (c = CInt (if b then 1 else 0) \/ c = CFloat (dec_of (if b then 1 else 0) 0 0))).
Section Pieces.
Context (cast : bool).
Lemma concat_filled {A} (ps : list (list A)) : concat (filter (fun q => match q with [] => false | _ => true end) ps) = concat ps.
Proof. induction ps as [|[|a q] ps IH]; cbn [filter concat app]; [reflexivity|exact IH|]. now rewrite IH. Qed.
Lemma concat_reading : forall cuts l, Forall2 reading l (concat (map (convert none_too) (by_pieces cuts l))).
Proof.
  induction cuts as [|n cuts IH]; intro l; cbn [by_pieces map concat].
  - rewrite app_nil_r. apply convert_reading.
  - rewrite <- (firstn_skipn n l) at 1. apply Forall2_app; [apply convert_reading|apply IH].
Qed.
Lemma scan_exp_nil : scan_exp [] = (None, []).
Proof. reflexivity. Qed.
(** No text is both a number and a boolean. *)
Lemma float_not_int s z : float_token s = Some (CInt z) -> False.
Proof.
  unfold float_token. destruct (take_sign (strip s)) as [ng d]. destruct (span_digits d) as [ip r1].
  destruct (match r1 with [] => _ | _ => _ end) as [fp r2]. destruct (ip ++ fp); [destruct (_ || _); discriminate|].
  destruct r2; [discriminate|]. destruct (scan_exp _) as [[e|] [|]]; discriminate.
Qed.
Lemma float_not_bool s b : float_token s = Some (CBool b) -> False.
Proof.
  unfold float_token. destruct (take_sign (strip s)) as [ng d]. destruct (span_digits d) as [ip r1].
  destruct (match r1 with [] => _ | _ => _ end) as [fp r2]. destruct (ip ++ fp); [destruct (_ || _); discriminate|].
  destruct r2; [discriminate|]. destruct (scan_exp _) as [[e|] [|]]; discriminate.
Qed.
Lemma unify_reading ks s c : reading s c -> reading_in s (unify cast ks c).
Proof.
  intro R. unfold unify. destruct (_ || _ || _); [left; exact R|]. destruct c as [|z|n|ng|b|t]; try (left; exact R).
  - destruct (existsb _ ks); [|left; exact R]. left. destruct R as [[_ X]|[M [X|[[z' [A [B|B]]]|[X|[b' [_ X]]]]]]]; try discriminate.
    + injection B as <-. right. split; [exact M|]. right. left. eauto.
    + exfalso. eapply float_not_int. exact X.
  - right. destruct R as [[_ X]|[M [X|[[z' [A [B|B]]]|[X|[b' [A X]]]]]]]; try discriminate.
    + exfalso. eapply float_not_bool. exact X.
    + injection X as <-. split; [exact M|]. exists b. split; [exact A|]. destruct (existsb _ ks); auto.
Qed.
Lemma read_reading cuts l : Forall2 reading_in l (read_column none_too cast cuts l).
Proof.
  unfold read_column. rewrite concat_filled. eapply forall2_map; [|apply concat_reading]. intros s c R. apply unify_reading. exact R.
Qed.
Lemma read_length cuts l : length (read_column none_too cast cuts l) = length l.
Proof. symmetry. eapply forall2_length. apply read_reading. Qed.
Lemma wordy_in s c : wordy s -> reading_in s c -> c = CText s.
Proof. intros W [R|[_ [b [X _]]]]; [apply wordy_text; assumption|]. destruct W as (_ & _ & _ & Y). congruence. Qed.
Lemma concat_texts : forall cuts l i j s w, nth_error l i = Some s -> nth_error l j = Some w -> piece cuts i = piece cuts j -> wordy w -> missing none_too s = false ->
  nth_error (concat (map (convert none_too) (by_pieces cuts l))) i = Some (CText s).
Proof.
  assert (K : forall l i j s w, nth_error l i = Some s -> nth_error l j = Some w -> wordy w -> missing none_too s = false -> nth_error (convert none_too l) i = Some (CText s)).
  { intros l i j s w A B W M. rewrite (convert_texts l w (nth_error_In _ _ B) W). rewrite nth_error_map, A. cbn [option_map]. now rewrite M. }
  induction cuts as [|n cuts IH]; intros l i j s w A B P W M; cbn [by_pieces map concat].
  - rewrite app_nil_r. eapply K; eassumption.
  - cbn [piece] in P. destruct (Nat.ltb_spec i n) as [Li|Gi]; destruct (Nat.ltb_spec j n) as [Lj|Gj]; try discriminate.
    + rewrite nth_error_app1.
      * apply (K (firstn n l) i j s w); [| |exact W|exact M].
        -- rewrite <- A. clear -Li. revert n l Li. induction i as [|i IH]; intros [|n] [|x l] L; try lia; try reflexivity. cbn. apply IH. lia.
        -- rewrite <- B. clear -Lj. revert n l Lj. induction j as [|i IH]; intros [|n] [|x l] L; try lia; try reflexivity. cbn. apply IH. lia.
      * rewrite convert_length, firstn_length. assert (i < length l)%nat by (apply nth_error_Some; congruence). lia.
    + injection P as P. assert (Hl : (n <= length l)%nat). { assert (i < length l)%nat by (apply nth_error_Some; congruence). lia. }
      rewrite nth_error_app2 by (rewrite convert_length, firstn_length; lia). rewrite convert_length, firstn_length, Nat.min_l by exact Hl.
      assert (Sk : forall i, (n <= i)%nat -> nth_error (skipn n l) (i - n) = nth_error l i).
      { clear. intros i L. revert n l L. induction i as [|i IH]; intros n l L; [assert (n = 0)%nat by lia; subst; reflexivity|].
        destruct n as [|n]; [reflexivity|]. destruct l as [|x l]; [cbn; destruct (i - n)%nat; reflexivity|]. cbn. apply IH. lia. }
      apply (IH (skipn n l) (i - n)%nat (j - n)%nat s w); auto; rewrite Sk by lia; assumption.
Qed.
Lemma read_texts cuts l i j s w : nth_error l i = Some s -> nth_error l j = Some w -> piece cuts i = piece cuts j -> wordy w -> missing none_too s = false ->
  nth_error (read_column none_too cast cuts l) i = Some (CText s).
Proof.
  intros A B P W M. unfold read_column. rewrite concat_filled, nth_error_map, (concat_texts cuts l i j s w A B P W M). cbn [option_map]. f_equal.
  unfold unify. destruct (_ || _ || _); reflexivity.
Qed.
(** A missing text of a column. *)
Lemma read_missing cuts l i s : nth_error l i = Some s -> missing none_too s = true -> nth_error (read_column none_too cast cuts l) i = Some CNaN.
Proof.
  intros A M. pose proof (read_reading cuts l) as F. revert i A. induction F as [|x c l' cs R F IH]; intros [|i] A; try discriminate; cbn [nth_error] in *.
  - injection A as ->. f_equal. destruct R as [[[_ X]|[X _]]|[X _]]; congruence.
  - apply IH. exact A.
Qed.
Lemma filter_incl {A} (f : A -> bool) l x : In x (filter f l) -> In x l.
Proof. intro H. apply filter_In in H. apply H. Qed.
Lemma read_ints : forall cuts zs, Forall (fun z => fits_64 z = true /\ missing none_too (str_int z) = false /\ int_token (str_int z) = Some z) zs ->
  read_column none_too cast cuts (map str_int zs) = map CInt zs.
Proof.
  intros cuts zs F.
  assert (X : concat (map (convert none_too) (by_pieces cuts (map str_int zs))) = map CInt zs /\
              forall q, In q (map (convert none_too) (by_pieces cuts (map str_int zs))) -> exists ys, q = map CInt ys).
  { revert zs F. induction cuts as [|n cuts IH]; intros zs F; cbn [by_pieces map concat].
    - rewrite app_nil_r, convert_ints by exact F. split; [reflexivity|]. intros q [<-|[]]. eauto.
    - rewrite firstn_map, skipn_map. assert (X : forall A (P : A -> Prop) n l, Forall P l -> Forall P (firstn n l) /\ Forall P (skipn n l)).
      { clear. intros A P n l H. rewrite <- (firstn_skipn n l) in H. apply Forall_app in H. exact H. }
      destruct (X _ _ n zs F) as [F1 F2]. destruct (IH _ F2) as [I1 I2]. rewrite convert_ints by exact F1. split.
      + rewrite I1, <- map_app, firstn_skipn. reflexivity.
      + intros q [<-|I0]; eauto. }
  destruct X as [X Y]. unfold read_column. rewrite concat_filled, X.
  assert (K : forall k, In k (map kind_of (filter (fun q : list cell => match q with [] => false | _ => true end)
    (map (convert none_too) (by_pieces cuts (map str_int zs))))) -> k = KInt).
  { intros k I0. apply in_map_iff in I0. destruct I0 as [q [<- I0]]. apply filter_incl in I0. destruct (Y q I0) as [ys ->]. clear. unfold kind_of.
    assert (A : existsb (fun c => match c with CText _ => true | _ => false end) (map CInt ys) = false) by (induction ys; auto).
    assert (B : existsb (fun c => match c with CBool _ => true | _ => false end) (map CInt ys) = false) by (induction ys; auto).
    assert (C : forallb (fun c => match c with CInt _ => true | _ => false end) (map CInt ys) = true) by (induction ys; auto).
    rewrite A, B, C. reflexivity. }
  remember (map kind_of _) as ks eqn:Ek. clear Ek X Y.
  rewrite map_map. apply map_ext. intro z. unfold unify. destruct (_ || _ || _); [reflexivity|].
  assert (N : existsb (kind_eqb KFloat) ks = false). { clear -K. induction ks as [|k ks IH]; [reflexivity|]. cbn [existsb]. rewrite (K k) by (left; reflexivity). cbn. apply IH. intros; apply K; right; assumption. }
  rewrite N. reflexivity.
Qed.
End Pieces.
End Cols.
