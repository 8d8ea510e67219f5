(** Proofs about the CSV file of the table of states. *)
From Verif Require Import Base Category Tile Parse Text Tenhou Prop_Meld Event Const Reader StateProofs Value Json Universe Translator TenhouCommands
  Transfer Spec_Transfer Spec_Universe UniverseProofs ExecutorProofs Prop_Executor CommandProofs Prop_Commands Record Spec_Record JsonProofs Prop_Record Prop_Flatten
  Csv Spec_Csv CsvProofs CsvValues CsvConverted Prop_Csv StateCsv Spec_StateCsv.
From Coq Require Import String List ZArith Lia Bool.
Import ListNotations.
Open Scope list_scope.
Open Scope Z_scope.

(** ** Blanks before a field are not seen. *)
Fixpoint drop_blanks (s : text) : text := match s with c :: r => if c =? 32 then drop_blanks r else s | [] => [] end.
Definition seen (f : text) : text := if needs_quotes f then f else drop_blanks f.
Lemma drop_blanks_head s : hd 0 (drop_blanks s) <> 32.
Proof. induction s as [|c s IH]; cbn [drop_blanks hd]; [lia|]. destruct (Z.eqb_spec c 32); [exact IH|exact n]. Qed.
Lemma drop_incl s c : In c (drop_blanks s) -> In c s.
Proof. induction s as [|d s IH]; cbn [drop_blanks]; [auto|]. destruct (d =? 32); [intro H; right; auto|auto]. Qed.
Lemma drop_needs s : needs_quotes s = false -> needs_quotes (drop_blanks s) = false.
Proof. induction s as [|d s IH]; cbn [drop_blanks]; [auto|]. destruct (d =? 32); [|auto]. unfold needs_quotes in *. cbn [existsb]. intro H. apply orb_false_iff in H. apply IH. apply H. Qed.
Lemma drop_head s : hd 0 s <> 32 -> drop_blanks s = s.
Proof. destruct s as [|c s]; [auto|]. cbn [hd drop_blanks]. intro H. destruct (Z.eqb_spec c 32); [contradiction|reflexivity]. Qed.
Lemma seen_head s : hd 0 s <> 32 -> seen s = s.
Proof. intro H. unfold seen. rewrite (drop_head s H). destruct (needs_quotes s); reflexivity. Qed.
Lemma seen_cr s : ~ In 13 s -> ~ In 13 (seen s).
Proof. unfold seen. destruct (needs_quotes s); [auto|]. intros H X. apply H. apply drop_incl. exact X. Qed.
Lemma blanks_skipped f line x : tokenize true StartField false false [] line (write_field f ++ x) =
  if needs_quotes f then tokenize true StartField false false [] line (write_field f ++ x) else tokenize true StartField false false [] line (write_field (drop_blanks f) ++ x).
Proof.
  destruct (needs_quotes f) eqn:N; [reflexivity|]. unfold write_field. rewrite N, (drop_needs f N). clear N.
  induction f as [|c f IH]; [reflexivity|]. cbn [drop_blanks]. destruct (Z.eqb_spec c 32) as [->|]; [|reflexivity].
  rewrite <- IH. reflexivity.
Qed.
(** A quoted field keeps its blanks. *)
Lemma skip_comma f line r : ~ In 13 f -> tokenize true StartField false false [] line (write_field f ++ 44 :: r) = tokenize true StartField false false [] (seen f :: line) r.
Proof.
  intro C. rewrite blanks_skipped. unfold seen. destruct (needs_quotes f) eqn:N.
  - unfold write_field. rewrite N. rewrite <- !app_assoc. cbn [app tokenize]. change (34 =? 44) with false. change (34 =? 10) with false. change (34 =? 13) with false. cbv iota. rewrite ?Z.eqb_refl. cbv iota.
    rewrite in_quoted. cbn [tokenize]. rewrite ?Z.eqb_refl. cbv iota. rewrite rev_app_distr, rev_involutive. reflexivity.
  - apply field_comma; [intro X; apply C; apply drop_incl; exact X|]. intros _. apply drop_blanks_head.
Qed.
Lemma skip_end f line r : ~ In 13 f -> line <> [] -> tokenize true StartField false false [] line (write_field f ++ 10 :: r) = rev (seen f :: line) :: tokenize true StartField false false [] [] r.
Proof.
  intros C L. rewrite blanks_skipped. unfold seen. destruct (needs_quotes f) eqn:N.
  - destruct line as [|l0 line]; [contradiction|]. unfold write_field. rewrite N. rewrite <- !app_assoc. cbn [app tokenize]. change (34 =? 44) with false. change (34 =? 10) with false. change (34 =? 13) with false. cbv iota. rewrite ?Z.eqb_refl. cbv iota.
    rewrite in_quoted. cbn [tokenize]. change (10 =? 44) with false. cbv iota. rewrite ?Z.eqb_refl. cbv iota. unfold end_line. rewrite rev_app_distr, rev_involutive. reflexivity.
  - apply field_end; [intro X; apply C; apply drop_incl; exact X| |exact L]. intros _. apply drop_blanks_head.
Qed.
Lemma skip_fields : forall fs f line r, Forall (fun f => ~ In 13 f) (f :: fs) -> (line <> [] \/ fs <> []) ->
  tokenize true StartField false false [] line (join (t_ ",") (map write_field (f :: fs)) ++ 10 :: r) =
  (rev line ++ map seen (f :: fs)) :: tokenize true StartField false false [] [] r.
Proof.
  induction fs as [|g fs IH]; intros f line r Ok0 L; inversion Ok0 as [|? ? A O']; subst.
  - cbn [map join]. rewrite skip_end by (auto; destruct L; congruence). reflexivity.
  - change (join (t_ ",") (map write_field (f :: g :: fs))) with (write_field f ++ t_ "," ++ join (t_ ",") (map write_field (g :: fs))).
    rewrite <- !app_assoc. change (t_ "," ++ join (t_ ",") (map write_field (g :: fs)) ++ 10 :: r) with (44 :: join (t_ ",") (map write_field (g :: fs)) ++ 10 :: r).
    rewrite skip_comma by auto. rewrite IH; [|exact O'|left; discriminate]. cbn [rev map]. rewrite <- app_assoc. reflexivity.
Qed.
Lemma read_write_skip lines : Forall (fun l => Forall (fun f => ~ In 13 f) l /\ (2 <= length l)%nat) lines -> read_lines true (write_csv lines) = map (map seen) lines.
Proof.
  induction 1 as [|l lines [O L] F IH]; [reflexivity|]. unfold write_csv. cbn [flat_map]. unfold read_lines, write_line. rewrite <- app_assoc. cbn [app].
  destruct l as [|f [|g l]]; cbn [length] in L; try lia. rewrite (skip_fields (g :: l) f [] _ O) by (right; discriminate). cbn [rev app map]. f_equal. exact IH.
Qed.

(** ** Columns of the table. *)
Lemma path_eqb_iff : forall a b, path_eqb a b = true <-> a = b.
Proof.
  induction a as [|x a IH]; intros [|y b]; cbn [path_eqb]; try (split; congruence). rewrite andb_true_iff, key_eqb_iff, IH. split; [intros [-> ->]; reflexivity|]. intro H. injection H. auto.
Qed.
Lemma existsb_path q l : existsb (path_eqb q) l = true <-> In q l.
Proof.
  rewrite existsb_exists. split; [intros [x [I0 E]]; apply path_eqb_iff in E; subst; exact I0|]. intro I0. exists q. split; [exact I0|apply path_eqb_iff; reflexivity].
Qed.
Lemma add_columns l : forall cols, NoDup cols -> NoDup (fold_left add_column l cols) /\ forall q, In q (fold_left add_column l cols) <-> In q cols \/ In q l.
Proof.
  induction l as [|a l IH]; intros cols N; cbn [fold_left]; [split; [exact N|cbn; tauto]|].
  assert (A : NoDup (add_column cols a) /\ forall q, In q (add_column cols a) <-> In q cols \/ q = a).
  { unfold add_column. destruct (existsb (path_eqb a) cols) eqn:E.
    - apply existsb_path in E. split; [exact N|]. intro q. split; [auto|]. intros [H| ->]; assumption.
    - assert (X : ~ In a cols) by (rewrite <- existsb_path; congruence). split.
      + apply (Permutation.Permutation_NoDup (l := a :: cols)); [apply Permutation.Permutation_cons_append|]. constructor; assumption.
      + intro q. rewrite in_app_iff. cbn [In]. intuition. }
  destruct A as [A1 A2]. destruct (IH _ A1) as [B1 B2]. split; [exact B1|]. intro q. rewrite B2, A2. cbn [In]. intuition.
Qed.
Lemma table_columns_spec rows : NoDup (table_columns rows) /\ forall q, In q (table_columns rows) <-> exists row, In row rows /\ In q (map fst row).
Proof.
  destruct (add_columns (flat_map (map fst) rows) [] (NoDup_nil _)) as [A B]. split; [exact A|]. intro q. unfold table_columns. rewrite B, in_flat_map. cbn [In]. intuition.
Qed.
Lemma table_cell_in q (row : state_row) t : NoDup (map fst row) -> In (q, t) row -> table_cell q row = Some t.
Proof.
  unfold table_cell. induction row as [|[k v] row IH]; intros N I0; [destruct I0|]. cbn [find fst]. inversion N as [|? ? N1 N2]; subst. destruct (path_eqb k q) eqn:E.
  - apply path_eqb_iff in E. subst k. destruct I0 as [I0|I0]; [injection I0 as ->; reflexivity|]. exfalso. apply N1. apply (in_map fst) in I0. exact I0.
  - destruct I0 as [I0|I0]; [injection I0 as -> ->|]; [|apply IH; assumption]. assert (path_eqb q q = true) by (apply path_eqb_iff; reflexivity). congruence.
Qed.
Lemma table_cell_none q (row : state_row) : ~ In q (map fst row) -> table_cell q row = None.
Proof.
  unfold table_cell. induction row as [|[k v] row IH]; intro N; [reflexivity|]. cbn [find fst]. cbn [map fst In] in N. destruct (path_eqb k q) eqn:E; [apply path_eqb_iff in E; tauto|apply IH; tauto].
Qed.

(** ** Names of columns. *)
Definition path_ok (q : list key) : Prop := q = time_path \/ exists p, real_place p /\ q = path_of p.
Definition texts_of (q : list key) : list text := [level 0 q; level 1 q; level 2 q].
Definition visible (s : text) : bool := match s with [] => false | c :: _ => negb (c =? 32) && forallb (fun d => 32 <=? d) s end.
Lemma path_texts q : path_ok q -> mapM replace_enum_values (texts_of q) = Ok q /\ forallb visible (texts_of q) = true.
Proof.
  intros [->|[[o v] [R ->]]]; [split; reflexivity|]. unfold real_place in R. cbn [snd fst] in R. destruct (scope_of v) eqn:E.
  - subst o. unfold path_of. cbn [fst snd]. rewrite E. destruct v; try discriminate E; split; vm_compute; reflexivity.
  - destruct R as [i [Hi ->]]. assert (i = 0 \/ i = 1 \/ i = 2 \/ i = 3) as [-> |[-> |[-> | ->]]] by lia; destruct v; try discriminate E; split; vm_compute; reflexivity.
  - subst o. unfold path_of. cbn [fst snd]. rewrite E. destruct v; try discriminate E; split; vm_compute; reflexivity.
Qed.
Lemma visible_seen s : visible s = true -> seen s = s /\ ~ In 13 s /\ s <> [].
Proof.
  destruct s as [|c s]; [discriminate|]. unfold visible. rewrite andb_true_iff, negb_true_iff, Z.eqb_neq, forallb_forall. intros [A B]. split; [apply seen_head; exact A|].
  split; [|discriminate]. intro X. specialize (B 13 X). discriminate.
Qed.
Lemma header_ok cols : Forall path_ok cols -> forall j, header_paths j (map (level 0) cols) (map (level 1) cols) (map (level 2) cols) = map texts_of cols.
Proof.
  induction 1 as [|q cols H F IH]; intro j; [reflexivity|]. cbn [map header_paths]. rewrite IH. f_equal. destruct (path_texts q H) as [_ V].
  unfold texts_of in *. cbn [forallb] in V. rewrite !andb_true_iff in V. destruct V as (A & B & C & _).
  destruct (visible_seen _ A) as (_ & _ & A'), (visible_seen _ B) as (_ & _ & B'), (visible_seen _ C) as (_ & _ & C').
  destruct (level 0 q); [contradiction|]. destruct (level 1 q); [contradiction|]. destruct (level 2 q); [contradiction|]. reflexivity.
Qed.

Lemma forall2_weaken {A B} (P Q : A -> B -> Prop) l m : (forall a b, P a b -> Q a b) -> Forall2 P l m -> Forall2 Q l m.
Proof. intros H F. induction F; constructor; auto. Qed.

(** ** Reading columns. *)
Section Read.
Context (none_too cast : bool) (cuts : list nat).
Lemma nth_app (pre : list text) x r : nth_text (length pre) (pre ++ x :: r) = x.
Proof. unfold nth_text. rewrite app_nth2 by lia. rewrite Nat.sub_diag. reflexivity. Qed.
Lemma read_columns_ok {A} (f : list key -> A -> text) (rows : list A) : forall cols j pre,
  (forall a, length (pre a) = j) ->
  Forall path_ok cols -> (forall q, In q cols -> exists col, state_series_apply q (read_column none_too cast cuts (map (f q) rows)) = Ok col) ->
  exists table, read_columns none_too cast cuts j (map texts_of cols) (map (fun a => pre a ++ map (fun q => f q a) cols) rows) = Ok table /\
    Forall2 (fun q e => fst e = q /\ state_series_apply q (read_column none_too cast cuts (map (f q) rows)) = Ok (snd e)) cols table.
Proof.
  induction cols as [|q cols IH]; intros j pre P F Ap.
  - exists []. split; [reflexivity|constructor].
  - inversion F as [|? ? Fq Fr]; subst. cbn [map read_columns]. destruct (path_texts q Fq) as [Q _]. rewrite Q. cbn [bindr].
    assert (C : map (nth_text j) (map (fun a => pre a ++ f q a :: map (fun q0 => f q0 a) cols) rows) = map (f q) rows).
    { rewrite map_map. apply map_ext. intro a. rewrite <- (P a). apply nth_app. }
    rewrite C. destruct (Ap q (or_introl eq_refl)) as [col Hc]. rewrite Hc. cbn [bindr].
    destruct (IH (S j) (fun a => pre a ++ [f q a])) as [table [R T]].
    + intro a. rewrite app_length, P. cbn. lia.
    + exact Fr.
    + intros q' I0. apply Ap. right. exact I0.
    + assert (M : map (fun a => (pre a ++ [f q a]) ++ map (fun q0 => f q0 a) cols) rows = map (fun a => pre a ++ f q a :: map (fun q0 => f q0 a) cols) rows).
      { apply map_ext. intro a. rewrite <- app_assoc. reflexivity. }
      rewrite M in R. rewrite R. cbn [bindr]. exists ((q, col) :: table). split; [reflexivity|]. constructor; [split; [reflexivity|exact Hc]|exact T].
Qed.
Lemma state_lines_map cols rows : forall i, state_lines i cols rows =
  map (fun ir => str_int (Z.of_nat (fst ir)) :: map (fun q => cell_written (table_cell q (snd ir))) cols) (combine (seq i (length rows)) rows).
Proof. induction rows as [|row rows IH]; intro i; [reflexivity|]. cbn [state_lines length seq combine map fst snd]. rewrite IH. reflexivity. Qed.
Lemma combine_snd {A B} (g : B -> text) (l : list A) (m : list B) : length l = length m -> map (fun ir => g (snd ir)) (combine l m) = map g m.
Proof. revert m. induction l as [|a l IH]; intros [|b m] L; try discriminate; [reflexivity|]. cbn. rewrite IH by (injection L; auto). reflexivity. Qed.
(** A file of rows whose columns can be read is read. *)
Definition texts_in (q : list key) (rows : list state_row) : list text := map (fun row => seen (cell_written (table_cell q row))) rows.
Lemma file_read rows : rows <> [] -> table_columns rows <> [] -> Forall path_ok (table_columns rows) ->
  (forall row q, In row rows -> In q (table_columns rows) -> ~ In 13 (cell_written (table_cell q row))) ->
  (forall q, In q (table_columns rows) -> exists col, state_series_apply q (read_column none_too cast cuts (texts_in q rows)) = Ok col) ->
  exists index table, read_state_csv none_too cast cuts (state_csv rows) = Ok (index :: table) /\ ~ path_ok (fst index) /\
    Forall2 (fun q e => fst e = q /\ state_series_apply q (read_column none_too cast cuts (texts_in q rows)) = Ok (snd e)) (table_columns rows) table.
Proof.
  intros NE NC P CR Ap. set (cols := table_columns rows) in *. unfold read_state_csv, state_csv. fold cols.
  rewrite read_write_skip.
  2: { apply Forall_app. split.
       - apply Forall_map. apply Forall_forall. intros l Il. split.
         + constructor; [intros []|]. apply Forall_map. rewrite Forall_forall in P. apply Forall_forall. intros q Iq. destruct (path_texts q (P q Iq)) as [_ V].
           unfold texts_of in V. cbn [forallb] in V. rewrite !andb_true_iff in V. destruct V as (A & B & C & _).
           cbn [In] in Il. destruct Il as [<-|[<-|[<-|[]]]]; [apply (visible_seen _ A)|apply (visible_seen _ B)|apply (visible_seen _ C)].
         + cbn [length]. rewrite map_length. destruct cols; [contradiction|cbn; lia].
       - rewrite state_lines_map. apply Forall_map. apply Forall_forall. intros [i row] Ir. cbn [fst snd]. split.
         + constructor; [apply number_field|]. apply Forall_map. apply Forall_forall. intros q Iq. apply CR; [|exact Iq]. apply in_combine_r in Ir. exact Ir.
         + cbn [length]. rewrite map_length. destruct cols; [contradiction|cbn; lia]. }
  rewrite map_app. cbn [map app]. rewrite state_lines_map.
  assert (HS : forall l, In l [0; 1; 2]%nat -> map seen (map (level l) cols) = map (level l) cols).
  { intros l Il. rewrite map_map. apply map_ext_in. intros q Iq. rewrite Forall_forall in P. destruct (path_texts q (P q Iq)) as [_ V].
    unfold texts_of in V. cbn [forallb] in V. rewrite !andb_true_iff in V. destruct V as (A & B & C & _).
    cbn [In] in Il. destruct Il as [<-|[<-|[<-|[]]]]; [apply (visible_seen _ A)|apply (visible_seen _ B)|apply (visible_seen _ C)]. }
  rewrite !HS by (cbn; tauto). change (seen []) with (@nil Z). cbn [length]. rewrite !map_length, Nat.eqb_refl. cbn [andb].
  match goal with |- context [forallb _ ?l] => set (lines := l) end.
  assert (LL : lines = map (fun ir => [seen (str_int (Z.of_nat (fst ir)))] ++ map (fun q => seen (cell_written (table_cell q (snd ir)))) cols) (combine (seq 0 (length rows)) rows)).
  { unfold lines. rewrite map_map. apply map_ext. intros ir. cbn [map app]. rewrite map_map. reflexivity. }
  assert (LB : forallb (fun l => (length l <=? S (length cols))%nat) lines = true).
  { rewrite LL. apply forallb_forall. intros l Il. apply in_map_iff in Il. destruct Il as [ir [<- _]]. apply Nat.leb_le. cbn [app length]. rewrite map_length. lia. }
  rewrite LB.
  assert (PD : map (pad (S (length cols))) lines = lines).
  { rewrite LL, map_map. apply map_ext. intro ir. unfold pad. cbn [app length]. rewrite map_length, Nat.sub_diag. cbn [repeat]. rewrite app_nil_r. reflexivity. }
  rewrite PD. cbn [header_paths]. rewrite (header_ok cols P 1). cbn [read_columns].
  change (mapM replace_enum_values [header_text 0 0 []; header_text 1 0 []; header_text 2 0 []]) with
    (@Ok (list key) [KText (t_ "Unnamed: 0_level_0"); KText (t_ "Unnamed: 0_level_1"); KText (t_ "Unnamed: 0_level_2")]).
  cbn [bindr]. unfold state_series_apply at 1. cbn [last]. cbv iota. cbn [bindr].
  destruct (read_columns_ok (fun q (ir : nat * state_row) => seen (cell_written (table_cell q (snd ir)))) (combine (seq 0 (length rows)) rows) cols 1 (fun ir => [seen (str_int (Z.of_nat (fst ir)))])) as [table [R T]].
  - reflexivity.
  - exact P.
  - intros q Iq. rewrite (combine_snd (fun row => seen (cell_written (table_cell q row)))) by (rewrite seq_length; reflexivity). apply Ap. exact Iq.
  - rewrite LL, R. cbn [bindr]. eexists. exists table. split; [reflexivity|]. split.
    + cbn [fst]. intros [X|[p [_ X]]]; [discriminate X|]. unfold path_of in X. destruct (fst p); discriminate X.
    + eapply forall2_weaken; [|exact T]. intros q e [E1 E2]. split; [exact E1|]. rewrite (combine_snd (fun row => seen (cell_written (table_cell q row)))) in E2 by (rewrite seq_length; reflexivity). exact E2.
Qed.
End Read.
