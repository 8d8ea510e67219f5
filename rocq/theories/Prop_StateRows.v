(** C132: a table of states is whole or there is none.

    In English: [execute_as_dataframe] (mahjong/record/universe/executor.py 113-116) gives a table only if every command can
    be executed after those before it, and then the table has exactly one row per command; if some command cannot
    be executed, the table fails as a whole: no rows of the commands before are returned. *)
From Verif Require Import Base Category Tile Text Value Universe Transfer Spec_Transfer Spec_Universe UniverseProofs ExecutorProofs Prop_Executor StateCsv Record Spec_Record Prop_Csv Prop_StateCsv.
From Coq Require Import List ZArith Lia Bool.
Import ListNotations.
Open Scope list_scope.
Open Scope Z_scope.

Lemma mapM_length {A B} (f : A -> res B) : forall l r, mapM f l = Ok r -> length r = length l.
Proof.
  induction l as [|a l IH]; intros r H; cbn [mapM] in H; [injection H as <-; reflexivity|].
  destruct (f a) as [b|]; [|discriminate]. cbn [bindr] in H. destruct (mapM f l) as [bs|]; [|discriminate].
  cbn [bindr] in H. injection H as <-. cbn [length]. now rewrite (IH bs).
Qed.

Theorem C132_table : forall cmds rows, runs (fun fuel => state_rows fuel cmds) rows -> executable cmds /\ length rows = length cmds.
Proof.
  intros cmds rows [M R]. destruct (execute_spec false cmds) as (snaps & h & err & [N E] & P & _).
  destruct (progress_facts _ _ _ _ _ P) as (_ & D & A & _). specialize (R (M + N)%nat ltac:(lia)). specialize (E (M + N)%nat ltac:(lia)).
  unfold state_rows in R. rewrite E in R. destruct err as [e|]; [discriminate|]. assert (L : length snaps = length cmds) by now apply D.
  split; [|rewrite <- L; exact (mapM_length _ _ _ R)].
  intros n c H. apply (A n c); [rewrite L; apply nth_error_Some; congruence|exact H].
Qed.

Theorem C132_no_table : forall cmds, ~ executable cmds -> exists e N, forall fuel, (N <= fuel)%nat -> state_rows fuel cmds = Err e.
Proof.
  intros cmds X. destruct (execute_spec false cmds) as (snaps & h & err & [N E] & P & _).
  destruct (progress_facts _ _ _ _ _ P) as (_ & D & A & _). destruct err as [e|].
  - exists e, N. intros fuel L. unfold state_rows. now rewrite E.
  - exfalso. apply X. intros n c H. apply (A n c); [rewrite (proj1 D eq_refl); apply nth_error_Some; congruence|exact H].
Qed.

(** The 85 commands of the example have a table; with a command of the method that nothing implements after
    them they have none. *)
Definition clearing : command := mkCmd PV_discard_tiles U_CLEAR (SId 1) VNone None VNone None.
Example C132_case : (exists rows, runs (fun fuel => state_rows fuel csv_commands) rows /\ length rows = 85%nat) /\
  ~ executable (csv_commands ++ [clearing]).
Proof.
  split.
  - destruct (C101_example false false []) as (rows & _ & _ & R & L & _). exists rows. auto.
  - intros X. destruct (X (length csv_commands) clearing) as (p & old & w & _ & _ & F & _); [|exact F].
    rewrite nth_error_app2, Nat.sub_diag by lia. reflexivity.
Qed.
(** C136 in English: commands appended to a list of commands change no row of the table that was there before: row n of
    the longer table has the same cells as row n of the shorter one. (A cell is a path and a text; a row has no path twice.)
    Commands that put lists into text properties are excluded: their texts are not covered by C62. *)
Definition texts_plain (cmds : list command) : Prop :=
  Forall (fun c => text_property (c_prop c) -> forall l, c_value c <> VList l) cmds.
Lemma text_not_list v : text_property v -> ~ is_list v.
Proof. unfold text_property, is_list, is_tiles. cbn [In]. intros H J. repeat (destruct H as [<- |H]; [intuition discriminate|]). destruct H. Qed.
Lemma plain_held cs p o : holds_after cs p o -> texts_plain cs -> text_property (snd p) -> forall l, o <> Some (VList l).
Proof.
  intros H. induction H as [p|cs c p o N H IH|cs c p o w A H IH F]; intros P T l E; [discriminate| |].
  - apply Forall_app in P. destruct P as [P _]. exact (IH P T l E).
  - apply Forall_app in P. destruct P as [P Q]. inversion Q as [|? ? Q1 _]; subst. clear Q. destruct A as [A _]. rewrite A in T.
    specialize (IH P ltac:(rewrite A; exact T)). specialize (Q1 T). pose proof (text_not_list _ T) as NL. injection E as ->. unfold effect in F.
    destruct (c_update c).
    all: try (symmetry in F; exact (Q1 l F)); try contradiction.
    + destruct F as [(s & t & _ & _ & X)|[(l1 & m & X & _)|(o' & x & y & _ & _ & _ & X)]]; [discriminate|exact (IH _ X)|discriminate].
    + destruct F as [(X & _)|(_ & o' & x & y & _ & _ & _ & X)]; [contradiction|discriminate].
    + destruct F as [[_ X]|[X _]]; [discriminate|contradiction].
Qed.
Lemma plain_firstn n cmds : texts_plain cmds -> texts_plain (firstn n cmds).
Proof. unfold texts_plain. intros P. rewrite <- (firstn_skipn n cmds) in P. apply Forall_app in P. apply P. Qed.
Lemma rows_fit cmds rows : texts_plain cmds -> runs (fun fuel => state_rows fuel cmds) rows ->
  forall n row, nth_error rows n = Some row -> row_fits cmds n row.
Proof.
  intros P R. destruct (C132_table _ _ R) as [X _]. destruct (C37_all _ X) as (snaps & h & Rp & L).
  destruct (rows_exist cmds snaps h Rp L) as (rows' & R' & _ & F).
  { intros n p l T H. exact (plain_held _ _ _ H (plain_firstn _ _ P) T l eq_refl). }
  destruct R as [N R], R' as [N' R']. specialize (R (N + N')%nat ltac:(lia)). rewrite (R' (N + N')%nat ltac:(lia)) in R. injection R as <-. exact F.
Qed.
Theorem C136_rows : forall cmds more rows rows', texts_plain (cmds ++ more) ->
  runs (fun fuel => state_rows fuel cmds) rows -> runs (fun fuel => state_rows fuel (cmds ++ more)) rows' ->
  length rows = length cmds /\
  forall n row row', nth_error rows n = Some row -> nth_error rows' n = Some row' ->
    NoDup (map fst row) /\ NoDup (map fst row') /\ forall path text, In (path, text) row <-> In (path, text) row'.
Proof.
  intros cmds more rows rows' P R R'. pose proof P as P0. apply Forall_app in P0. destruct P0 as [P0 _]. destruct (C132_table _ _ R) as [_ L].
  split; [exact L|]. intros n row row' E E'. destruct (rows_fit _ _ P0 R n row E) as [D F]. destruct (rows_fit _ _ P R' n row' E') as [D' F'].
  split; [exact D|]. split; [exact D'|]. intros q t. rewrite F, F'.
  assert (B : (n < length cmds)%nat) by (rewrite <- L; apply nth_error_Some; congruence).
  rewrite nth_error_app1 by exact B. rewrite firstn_app. replace (S n - length cmds)%nat with 0%nat by lia. rewrite firstn_O, app_nil_r. reflexivity.
Qed.
(** A table of all commands means a table of the first ones. *)
Theorem C136_table : forall cmds more rows', texts_plain (cmds ++ more) -> runs (fun fuel => state_rows fuel (cmds ++ more)) rows' ->
  exists rows, runs (fun fuel => state_rows fuel cmds) rows.
Proof.
  intros cmds more rows' P R. destruct (C132_table _ _ R) as [X _]. apply Forall_app in P. destruct P as [P _].
  assert (Y : executable cmds).
  { intros n c H. assert (B : (n < length cmds)%nat) by (apply nth_error_Some; congruence). specialize (X n c). rewrite nth_error_app1 in X by exact B. specialize (X H).
    rewrite firstn_app in X. replace (n - length cmds)%nat with 0%nat in X by lia. now rewrite firstn_O, app_nil_r in X. }
  destruct (C37_all _ Y) as (snaps & h & Rp & L). destruct (rows_exist cmds snaps h Rp L) as (rows & Rr & _).
  { intros n p l T H. exact (plain_held _ _ _ H (plain_firstn _ _ P) T l eq_refl). }
  now exists rows.
Qed.
Lemma csv_plain : texts_plain csv_commands.
Proof.
  assert (X : forallb (fun c => match c_value c with VList _ => negb (existsb (view_eqb (c_prop c)) [RV_play_level; RV_seed; GV_extra_reason; PV_name; PV_level; PV_extra_level]) | _ => true end) csv_commands = true)
    by (vm_compute; reflexivity).
  revert X. unfold texts_plain. generalize csv_commands. intros cmds X.
  apply Forall_forall. intros c I0 T l E. rewrite forallb_forall in X. specialize (X c I0). cbv beta in X. rewrite E in X. apply negb_true_iff in X.
  unfold text_property in T. apply not_true_iff_false in X. apply X. apply existsb_exists. exists (c_prop c). split; [exact T|apply view_eqb_iff; reflexivity].
Qed.
Example C136_case : exists cmds more rows', texts_plain (cmds ++ more) /\ length cmds = 40%nat /\
  runs (fun fuel => state_rows fuel (cmds ++ more)) rows' /\ length rows' = 85%nat.
Proof.
  destruct (C101_example false false []) as (rows & _ & _ & R & L & _). destruct (C132_table _ _ R) as [_ Lc]. rewrite L in Lc.
  pose proof csv_plain as P. revert R P Lc. generalize csv_commands. intros cmds R P Lc.
  exists (firstn 40 cmds), (skipn 40 cmds), rows. rewrite firstn_skipn. split; [exact P|]. split; [|split; [exact R|exact L]].
  rewrite firstn_length, <- Lc. reflexivity.
Qed.
Print Assumptions C132_table.
Print Assumptions C132_no_table.
Print Assumptions C136_rows.
Print Assumptions C136_table.
