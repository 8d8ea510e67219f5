(** Proofs about what the texts of values and names are read as. *)
From Verif Require Import Base Parse Text Value Json Transfer Universe Record Csv StateProofs JsonProofs UniverseProofs
  Spec_Universe Spec_Record Prop_Record Spec_Csv CsvProofs.
From Coq Require Import String List ZArith Lia Bool.
Import ListNotations.
Open Scope list_scope.
Open Scope Z_scope.

(** ** Blanks. *)
Lemma skip_last a c : space c = false -> exists a', skip_space (a ++ [c]) = a' ++ [c].
Proof.
  intro N. induction a as [|x a IH]; cbn [app skip_space].
  - rewrite N. exists []. reflexivity.
  - destruct (space x); [exact IH|]. exists (x :: a). reflexivity.
Qed.
Lemma strip_head c r : space c = false -> exists r', strip (c :: r) = c :: r'.
Proof.
  intro N. unfold strip. cbn [skip_space]. rewrite N. cbn [rev]. destruct (skip_last (rev r) c N) as [a ->].
  rewrite rev_app_distr. cbn [rev app]. eauto.
Qed.
Lemma skip_none s : Forall (fun c => space c = false) s -> skip_space s = s.
Proof. destruct 1 as [|c r N F]; [reflexivity|]. cbn [skip_space]. now rewrite N. Qed.
Lemma strip_none s : Forall (fun c => space c = false) s -> strip s = s.
Proof. intro F. unfold strip. rewrite (skip_none s F), skip_none by (apply Forall_rev; exact F). apply rev_involutive. Qed.

(** ** Texts of numbers. *)
Definition number_char (c : Z) : bool := (c =? 45) || (c =? 46) || ch_digit c.
Lemma digit_number c : ch_digit c = true -> number_char c = true.
Proof. unfold number_char. intros ->. now rewrite !orb_true_r. Qed.
Lemma digits_number s : forallb ch_digit s = true -> forallb number_char s = true.
Proof. rewrite !forallb_forall. intros H x I0. apply digit_number. auto. Qed.
Lemma int_chars z : forallb number_char (str_int z) = true.
Proof.
  destruct (Z.neg_nonneg_cases z) as [H|H].
  - destruct (str_int_neg z H) as (ds & -> & _ & B & _). cbn [forallb]. rewrite (digits_number _ B). reflexivity.
  - apply digits_number. apply (str_int_nonneg z H).
Qed.
Lemma float_chars m k : forallb number_char (float_repr m k) = true.
Proof.
  unfold float_repr. destruct (dec_norm m k) as [m' k']. rewrite !forallb_app, int_chars, (digits_number _ (proj1 (fixed_spec _ _))).
  destruct (m' <? 0); reflexivity.
Qed.
Lemma number_space c : number_char c = true -> space c = false.
Proof.
  unfold number_char, space, ch_digit. rewrite !orb_true_iff, !andb_true_iff, !Z.eqb_eq, !Z.leb_le. intro H.
  apply orb_false_iff. rewrite andb_false_iff, Z.eqb_neq, !Z.leb_gt. lia.
Qed.
Lemma strip_number s : forallb number_char s = true -> strip s = s.
Proof. intro F. apply strip_none. rewrite forallb_forall in F. apply Forall_forall. intros c I0. apply number_space. auto. Qed.
Lemma missing_number b s : s <> [] -> forallb number_char s = true -> missing b s = false.
Proof.
  intros N F. unfold missing. destruct (existsb (text_eqb s) (missing_texts b)) eqn:E; [|reflexivity]. exfalso.
  apply existsb_exists in E. destruct E as [x [I0 E]]. apply text_eqb_iff in E. subst x.
  assert (K : forallb (fun t => match t with [] => true | _ => negb (forallb number_char t) end) (missing_texts b) = true) by (destruct b; reflexivity).
  rewrite forallb_forall in K. specialize (K s I0). rewrite F in K. destruct s; [congruence|discriminate].
Qed.
Lemma take_nat n r : 0 <= n -> take_sign (str_int n ++ r) = (false, str_int n ++ r).
Proof.
  intros H. destruct (str_int_nonneg n H) as (A & B & _). destruct (str_int n) as [|c s]; [congruence|].
  cbn [app take_sign]. cbn [forallb] in B. apply andb_true_iff in B. destruct B as [B _]. unfold ch_digit in B. rewrite andb_true_iff, !Z.leb_le in B.
  destruct (Z.eqb_spec c 45); [lia|]. destruct (Z.eqb_spec c 43); [lia|]. reflexivity.
Qed.
Lemma neg_int z : z < 0 -> str_int z = 45 :: str_int (- z).
Proof. intro H. unfold str_int. destruct (z <? 0) eqn:E; [|apply Z.ltb_ge in E; lia]. destruct (- z <? 0) eqn:E2; [apply Z.ltb_lt in E2; lia|auto]. Qed.
Lemma take_int z : take_sign (str_int z) = (z <? 0, str_int (Z.abs z)).
Proof.
  destruct (Z.neg_nonneg_cases z) as [H|H].
  - rewrite (neg_int z H). cbn [take_sign]. rewrite (proj2 (Z.ltb_lt z 0) H), Z.abs_neq by lia. reflexivity.
  - rewrite (proj2 (Z.ltb_ge z 0) H), Z.abs_eq by lia. pose proof (take_nat z [] H) as Q. rewrite app_nil_r in Q. exact Q.
Qed.
Lemma int_token_int z : int_token (str_int z) = Some z.
Proof.
  unfold int_token. rewrite (strip_number _ (int_chars z)), take_int. destruct (str_int_nonneg (Z.abs z) ltac:(lia)) as (A & B & C).
  destruct (str_int (Z.abs z)) as [|c r]; [congruence|]. rewrite B, C. unfold signed. destruct (Z.ltb_spec z 0); f_equal; lia.
Qed.
Lemma span_int n : 0 <= n -> span_digits (str_int n) = (str_int n, []).
Proof. intro H. destruct (str_int_nonneg n H) as (A & B & C). pose proof (span_app (str_int n) [] B I) as Q. rewrite app_nil_r in Q. exact Q. Qed.
Lemma float_token_int z : float_token (str_int z) = Some (CFloat (dec_of z 0 0)).
Proof.
  unfold float_token. rewrite (strip_number _ (int_chars z)), take_int, span_int by lia. rewrite app_nil_r.
  destruct (str_int_nonneg (Z.abs z) ltac:(lia)) as (A & B & C). destruct (str_int (Z.abs z)) as [|c r]; [congruence|].
  rewrite C. cbn [length]. unfold signed. repeat f_equal. destruct (Z.ltb_spec z 0); lia.
Qed.
Lemma float_shape m k : exists m' k' q r, dec_norm m k = (m', k') /\ normal m' k' /\ 0 <= q /\ 0 <= r < p10 k' /\ Z.abs m' = q * p10 k' + r /\
  float_repr m k = (if m' <? 0 then [45] else []) ++ str_int q ++ 46 :: fixed_digits k' r.
Proof.
  unfold float_repr. pose proof (dec_norm_spec k m) as H. destruct (dec_norm m k) as [m' k']. destruct H as [N _].
  pose proof (p10_pos k') as P. pose proof (Z.div_mod (Z.abs m') (p10 k') ltac:(lia)) as D. pose proof (Z.mod_pos_bound (Z.abs m') (p10 k') P) as B.
  exists m', k', (Z.abs m' / p10 k'), (Z.abs m' mod p10 k'). split; [auto|]. split; [auto|]. split; [apply Z.div_pos; lia|]. split; [lia|]. split; [lia|]. reflexivity.
Qed.
Lemma take_float m' k' q r : 0 <= q -> take_sign ((if m' <? 0 then [45] else []) ++ str_int q ++ 46 :: fixed_digits k' r) = (m' <? 0, str_int q ++ 46 :: fixed_digits k' r).
Proof. intro Q. destruct (m' <? 0); [reflexivity|]. cbn [app]. apply take_nat. exact Q. Qed.
Lemma float_token_float m k : float_token (float_repr m k) = Some (CFloat (num_norm (NDec m k))).
Proof.
  unfold float_token. rewrite (strip_number _ (float_chars m k)).
  destruct (float_shape m k) as (m' & k' & q & r & E & N & Q & R & M & ->). rewrite take_float by exact Q.
  destruct (str_int_nonneg q Q) as (A & B & C). rewrite span_app by (auto; reflexivity). rewrite Z.eqb_refl.
  destruct (fixed_spec k' r) as (F1 & F2 & F3). pose proof (span_app (fixed_digits k' r) [] F1 I) as Sp. rewrite app_nil_r in Sp. rewrite Sp.
  destruct (str_int q ++ fixed_digits k' r) as [|c0 l0] eqn:E0. { apply app_eq_nil in E0. destruct E0. congruence. }
  rewrite <- E0. rewrite (F3 R), C, F2. cbn [num_norm]. rewrite E. f_equal. f_equal.
  assert (X : signed (m' <? 0) (q * p10 k' + r) = m'). { unfold signed. destruct (Z.ltb_spec m' 0); lia. }
  rewrite X. apply dec_of_normal. exact N.
Qed.
Lemma int_token_float m k : int_token (float_repr m k) = None.
Proof.
  unfold int_token. rewrite (strip_number _ (float_chars m k)).
  destruct (float_shape m k) as (m' & k' & q & r & E & N & Q & R & M & ->). rewrite take_float by exact Q.
  assert (X : forallb ch_digit (str_int q ++ 46 :: fixed_digits k' r) = false). { rewrite forallb_app. cbn [forallb]. change (ch_digit 46) with false. now rewrite andb_false_r. }
  rewrite X. destruct (str_int q ++ 46 :: fixed_digits k' r); reflexivity.
Qed.
Lemma bool_number s c r : s = c :: r -> number_char c = true -> bool_token s = None.
Proof.
  intros -> N. unfold bool_token, number_char, ch_digit in *. rewrite !orb_true_iff, andb_true_iff, !Z.eqb_eq, !Z.leb_le in N.
  assert (T : existsb (text_eqb (c :: r)) (map t_ ["True"; "TRUE"; "true"]%string) = false).
  { cbn [map existsb]. rewrite !orb_false_r. assert (X : forall d t, d > 57 -> text_eqb (c :: r) (d :: t) = false). { intros d t G. apply text_eqb_neq. intro K. injection K as K _. lia. }
    rewrite !orb_false_iff. repeat split; apply X; reflexivity. }
  assert (F : existsb (text_eqb (c :: r)) (map t_ ["False"; "FALSE"; "false"]%string) = false).
  { cbn [map existsb]. rewrite !orb_false_r. assert (X : forall d t, d > 57 -> text_eqb (c :: r) (d :: t) = false). { intros d t G. apply text_eqb_neq. intro K. injection K as K _. lia. }
    rewrite !orb_false_iff. repeat split; apply X; reflexivity. }
  rewrite T, F. reflexivity.
Qed.
Lemma num_chars n : forallb number_char (num_repr n) = true.
Proof. destruct n; [apply int_chars|apply float_chars]. Qed.
Lemma num_nonempty n : num_repr n <> [].
Proof. destruct (num_head n) as (c & r & -> & _). discriminate. Qed.
Lemma bool_num n : bool_token (num_repr n) = None.
Proof.
  destruct (num_head n) as (c & r & E & _). apply (bool_number _ c r E). pose proof (num_chars n) as H. rewrite E in H. cbn [forallb] in H.
  apply andb_true_iff in H. apply H.
Qed.

(** ** Texts of other values are nothing but texts. *)
Lemma wordy_head b c r : c = 34 \/ c = 91 -> wordy b (c :: r).
Proof.
  intro H. assert (N : space c = false) by (destruct H as [->| ->]; reflexivity). destruct (strip_head c r N) as [r' E].
  unfold wordy, int_token, float_token. rewrite E. destruct H as [->| ->]; (split; [destruct b; reflexivity|]; split; [reflexivity|]; split; reflexivity).
Qed.
Lemma wordy_text_value b v : (exists s, v = VStr s) \/ (exists l, v = VList l) -> wordy b (dumps v).
Proof.
  intros [[s ->]|[l ->]].
  - cbn [dumps]. unfold dump_text. apply wordy_head. auto.
  - assert (X : exists r, dumps (VList l) = 91 :: r) by (destruct l; cbn [dumps app]; eexists; reflexivity). destruct X as [r ->]. apply wordy_head. auto.
Qed.
(** ** A JSON value of a column, read back. *)
Lemma type_text p : (do t <- type_of p; if type_in t T_str then Ok true else Ok false) =
  Ok (existsb (view_eqb p) [RV_play_level; RV_seed; GV_extra_reason; PV_name; PV_level; PV_extra_level]).
Proof. destruct p; reflexivity. Qed.
Lemma nan_value p : cell_value p CNaN = Ok (if existsb (view_eqb p) [RV_play_level; RV_seed; GV_extra_reason; PV_name; PV_level; PV_extra_level] then VStr (t_ "nan") else VNone).
Proof. destruct p; reflexivity. Qed.
Lemma inf_value p n : existsb (view_eqb p) [RV_play_level; RV_seed; GV_extra_reason; PV_name; PV_level; PV_extra_level] = true ->
  cell_value p (CInf n) = Ok (VStr (cell_str (CInf n))).
Proof. destruct p; cbn; intro H; try discriminate; reflexivity. Qed.
Lemma loads_num n : loads (num_repr n) = Ok (VNum (num_norm n)).
Proof. exact (loads_dumps (VNum n) I). Qed.
Lemma json_num p n : existsb (view_eqb p) [RV_play_level; RV_seed; GV_extra_reason; PV_name; PV_level; PV_extra_level] = false ->
  prop_call [VNum n] p M_from_str = Ok (VNum (num_norm n)).
Proof. intro H. rewrite from_str_prop, H. unfold json_load_any. cbn [py_str bindr]. apply loads_num. Qed.
Lemma json_text p s : existsb (view_eqb p) [RV_play_level; RV_seed; GV_extra_reason; PV_name; PV_level; PV_extra_level] = false ->
  prop_call [VStr s] p M_from_str = loads s.
Proof. intro H. rewrite from_str_prop, H. reflexivity. Qed.
Lemma int_as_float z : recovered (VNum (NInt z)) (VNum (num_norm (dec_of z 0 0))).
Proof.
  unfold dec_of. cbn [Z.of_nat Z.sub Z.leb Z.compare Z.add Z.opp]. change (Z.to_nat 0) with O. cbn [dec_norm num_norm]. apply rc_float. reflexivity.
Qed.
Lemma json_cell b p v c : unicode_value v -> ~ text_property p -> reading_in b (dumps v) c ->
  exists w, cell_value p c = Ok w /\ recovered v w /\ (c = CText (dumps v) -> same_value v w).
Proof.
  intros U NT R. rewrite text_property_b in NT. apply not_true_is_false in NT. pose proof (loads_dumps v (unicode_readable v U)) as LD. pose proof (norm_same v) as NS.
  assert (TX : exists w, cell_value p (CText (dumps v)) = Ok w /\ recovered v w /\ (CText (dumps v) = CText (dumps v) -> same_value v w)).
  { exists (vnorm v). cbn [cell_value]. rewrite json_text by exact NT. split; [exact LD|]. split; [constructor; exact NS|auto]. }
  destruct R as [R|[_ [b' [X Y]]]].
  2: { assert (BT : v = VBool b').
       { destruct v as [|bb|n|s|l].
         - cbn [dumps] in X. discriminate X.
         - destruct bb; vm_compute in X; congruence.
         - cbn [dumps] in X. rewrite bool_num in X. discriminate.
         - destruct (wordy_text_value b (VStr s) ltac:(left; eauto)) as (_ & _ & _ & Q). congruence.
         - destruct (wordy_text_value b (VList l) ltac:(right; eauto)) as (_ & _ & _ & Q). congruence. }
       subst v. destruct Y as [->| ->]; cbn [cell_value].
       - unfold VInt. rewrite json_num by exact NT. eexists. split; [reflexivity|]. split; [apply rc_bool_int|discriminate].
       - rewrite json_num by exact NT. eexists. split; [reflexivity|]. split; [|discriminate].
         unfold dec_of. cbn [Z.of_nat Z.sub Z.leb Z.compare Z.add Z.opp]. change (Z.to_nat 0) with O. cbn [dec_norm num_norm]. apply rc_bool_float. destruct b'; reflexivity. }
  destruct v as [|bb|n|s|l].
  - cbn [dumps] in *. destruct R as [[_ ->]|[M _]]; [|destruct b; discriminate M].
    exists VNone. rewrite nan_value, NT. split; [auto|]. split; [constructor; constructor|discriminate].
  - destruct R as [[M _]|[_ [->|[[z [X _]]|[X|[b' [X ->]]]]]]].
    + destruct b, bb; discriminate M.
    + exact TX.
    + destruct bb; discriminate X.
    + destruct bb; discriminate X.
    + exists (VBool bb). assert (b' = bb) by (destruct bb; vm_compute in X; congruence). subst b'. cbn [cell_value]. rewrite from_str_prop, NT.
      split; [destruct bb; reflexivity|]. split; [constructor; constructor|intros _; constructor].
  - cbn [dumps] in *. pose proof (bool_num n) as NB. destruct R as [[M _]|[_ [->|[[z [X Y]]|[X|[b' [X ->]]]]]]].
    + rewrite missing_number in M; [discriminate|apply num_nonempty|apply num_chars].
    + exact TX.
    + destruct n as [z'|m k]; cbn [num_repr] in *; [|rewrite int_token_float in X; discriminate]. rewrite int_token_int in X. injection X as <-. destruct Y as [->| ->]; cbn [cell_value].
      * exists (VNum (NInt z')). unfold VInt. rewrite json_num by exact NT. split; [auto|]. split; [constructor; constructor|intros _; constructor].
      * rewrite json_num by exact NT. eexists. split; [reflexivity|]. split; [apply int_as_float|discriminate].
    + destruct n as [z'|m k]; cbn [num_repr] in *.
      * rewrite float_token_int in X. injection X as <-. cbn [cell_value]. rewrite json_num by exact NT. eexists. split; [reflexivity|]. split; [apply int_as_float|discriminate].
      * rewrite float_token_float in X. injection X as <-. cbn [cell_value]. rewrite json_num by exact NT. eexists. split; [reflexivity|]. split; [|discriminate]. constructor.
        cbn [num_norm]. pose proof (dec_norm_spec k m) as H. destruct (dec_norm m k) as [m' k']. destruct H as [N H]. cbn [num_norm]. rewrite (dec_norm_normal m' k' N). constructor. exact H.
    + congruence.
  - rewrite (wordy_text b _ _ (wordy_text_value b (VStr s) ltac:(left; eauto)) R). exact TX.
  - rewrite (wordy_text b _ _ (wordy_text_value b (VList l) ltac:(right; eauto)) R). exact TX.
Qed.
(** A cell of a property of type str can always be read. *)
Lemma text_cell p c : text_property p -> exists w, cell_value p c = Ok w.
Proof.
  intro T. apply text_property_b in T. destruct c as [|z|n|ng|bb|s].
  - rewrite nan_value. eauto.
  - cbn [cell_value]. rewrite from_str_prop, T. eexists. reflexivity.
  - cbn [cell_value]. rewrite from_str_prop, T. eexists. reflexivity.
  - rewrite inf_value by exact T. eauto.
  - cbn [cell_value]. rewrite from_str_prop, T. eexists. reflexivity.
  - cbn [cell_value]. rewrite from_str_prop, T. eexists. reflexivity.
Qed.
Lemma text_cell_text p s : text_property p -> cell_value p (CText s) = Ok (VStr s).
Proof. intro T. apply text_property_b in T. cbn [cell_value]. rewrite from_str_prop, T. reflexivity. Qed.
(** Names are nothing but texts. *)
Lemma scope_wordy b s : wordy b (scope_name s).
Proof. destruct s, b; repeat split. Qed.
Lemma view_wordy b v : wordy b (view_name v).
Proof. destruct v, b; repeat split. Qed.
Lemma update_wordy b u : wordy b (update_name u).
Proof. destruct u, b; repeat split. Qed.
Lemma event_wordy b e : wordy b (event_name e).
Proof. destruct e, b; repeat split. Qed.

(** Texts written for values have no carriage return. *)
Lemma number_no_cr s : forallb number_char s = true -> ~ In 13 s.
Proof. intros F I0. rewrite forallb_forall in F. specialize (F 13 I0). discriminate. Qed.
Lemma hex_ge d : 0 <= d -> 48 <= hex_char d.
Proof. intro H. unfold hex_char. destruct (d <? 10); lia. Qed.
Lemma hex4_ge n : Forall (fun c => 48 <= c) (hex4 n).
Proof. unfold hex4. repeat constructor; apply hex_ge; apply Z.mod_pos_bound; lia. Qed.
Lemma printable_b s : forallb (fun d => 32 <=? d) s = true -> Forall (fun d => 32 <= d) s.
Proof. rewrite forallb_forall, Forall_forall. intros H x I0. apply Z.leb_le. auto. Qed.
Lemma u_printable n : Forall (fun d => 32 <= d) (u_escape n).
Proof. unfold u_escape. apply Forall_app. split; [repeat constructor; lia|]. eapply Forall_impl; [|apply hex4_ge]. intros; cbv beta in *; lia. Qed.
Lemma escape_printable c : Forall (fun d => 32 <= d) (escape_char c).
Proof.
  unfold escape_char.
  do 7 (match goal with |- Forall _ (if ?x then _ else _) => destruct x; [repeat constructor; lia|] end).
  destruct ((32 <=? c) && (c <=? 126)) eqn:E. { apply andb_true_iff in E. rewrite !Z.leb_le in E. repeat constructor; lia. }
  destruct (c <? 65536); [apply u_printable|]. apply Forall_app. split; apply u_printable.
Qed.
Lemma join_printable l : Forall (Forall (fun d => 32 <= d)) l -> Forall (fun d => 32 <= d) (join (t_ ", ") l).
Proof.
  assert (C : Forall (fun d => 32 <= d) (t_ ", ")) by (vm_compute; repeat (constructor; [discriminate|]); constructor).
  induction 1 as [|x l P F IH]; [constructor|]. destruct l as [|y l]; cbn [join]; [exact P|]. apply Forall_app. split; [exact P|]. apply Forall_app. split; [exact C|exact IH].
Qed.
Lemma dumps_printable v : unicode_value v -> Forall (fun d => 32 <= d) (dumps v).
Proof.
  induction v as [| b | n | s | l IH] using val_ind2; intro U.
  - apply printable_b. reflexivity.
  - destruct b; apply printable_b; reflexivity.
  - cbn [dumps]. pose proof (num_chars n) as F. rewrite forallb_forall in F. apply Forall_forall. intros c I0. specialize (F c I0). unfold number_char, ch_digit in F.
    rewrite !orb_true_iff, andb_true_iff, !Z.eqb_eq, !Z.leb_le in F. lia.
  - cbn [dumps]. unfold dump_text. inversion U as [| | |? H|]; subst. constructor; [lia|]. apply Forall_app. split; [|repeat constructor; lia].
    apply Forall_forall. intros d D. apply in_flat_map in D. destruct D as [c [C D]]. unfold unicode in H. rewrite Forall_forall in H. specialize (H c C). cbv beta in H.
    pose proof (escape_printable c) as E. rewrite Forall_forall in E. auto.
  - inversion U as [| | | |? H]; subst. cbn [dumps].
    assert (K : Forall (Forall (fun d => 32 <= d)) (map dumps l)). { rewrite Forall_forall in *. intros x X. apply in_map_iff in X. destruct X as [y [<- Y]]. auto. }
    apply join_printable in K. constructor; [lia|]. apply Forall_app. split; [exact K|repeat constructor; lia].
Qed.
