(** C127: what is shown of a moment of a game does not depend on what happens later. *)
From Coq Require Import String.
From Verif Require Import Base Parse Text Value Json Record Tenhou Event State Spec_Log StateProofs Prop_Meld Reader Paifu Checker Spec_Checker CheckerGame Prop_Checker LogCheck TurnsCheck Prop_TurnsExample.
From Verif Require Import Transfer Universe Translator TenhouCommands CommandProofs Prop_Commands StateCsv Spec_Transfer Spec_Universe Spec_Record ExecutorProofs Prop_Executor Prop_Flatten.
From Coq Require Import List ZArith QArith Lia Bool.
Import ListNotations.
Open Scope list_scope.
Open Scope Z_scope.

(** ** The advice *)
Lemma py_nth_in {A} (l : list A) i v : py_nth l i = Ok v -> In v l.
Proof. unfold py_nth. intro H. repeat match type of H with (if ?b then _ else _) = _ => destruct b | (match ?m with _ => _ end) = _ => destruct m eqn:? end; try discriminate; apply Ok_inj in H; subst; eapply nth_error_In; eassumption. Qed.
Lemma discards_no_riichi p e : is_discard p e = Ok true -> is_richii e = false.
Proof.
  intro H. unfold is_discard, discard_match in H. destruct (py_nth DISCARD_INDICATOR p) as [l|] eqn:E; [|discriminate]. cbn [bindr] in H.
  unfold is_richii, has_tag. destruct (text_eqb (tag e) (t_ "REACH")) eqn:T; [|reflexivity]. exfalso. apply text_eqb_iff in T. rewrite T in H.
  apply py_nth_in in E. unfold DISCARD_INDICATOR in E. vm_compute in E. destruct E as [<-|[<-|[<-|[<-|[]]]]]; vm_compute in H; discriminate H.
Qed.
Lemma group_cut p s richii d g e out : constructed_states s -> g <> [] -> Forall (fun f => is_discard p f = Ok d) (g ++ [e]) ->
  game_group p s richii d (g ++ [e]) = Ok out -> exists out', game_group p s richii d g = Ok out' /\ fst (fst out') = fst (fst out).
Proof.
  intros C NE F H. unfold game_group in *. cbv zeta in *.
  destruct (pass_states s (g ++ [e])) as [s2|] eqn:P; [|destruct (if d then _ else _); discriminate H].
  apply (proj1 (pass_states_split s g [e] s2 C)) in P. destruct P as (s1 & P1 & _).
  rewrite P1. destruct g as [|f g]; [contradiction|]. cbn [app] in H. destruct d.
  - assert (Q : existsb is_richii (f :: g ++ [e]) = existsb is_richii (f :: g)).
    { cbn [existsb]. rewrite existsb_app. cbn [existsb]. apply Forall_app in F. destruct F as [_ F]. apply Forall_inv in F. rewrite (discards_no_riichi p e F), !orb_false_r. reflexivity. }
    rewrite Q in H. destruct (discard_reasoning f (st_hand s) (st_invisible s) p (st_meld s)) as [r|]; [|discriminate]. cbn [bindr] in H |- *.
    apply Ok_inj in H. subst out. eexists. split; [reflexivity|]. reflexivity.
  - cbn [bindr] in H |- *. apply Ok_inj in H. subst out. eexists. split; [reflexivity|]. reflexivity.
Qed.
Lemma loop_first p more : forall s richii d g rows, constructed_states s -> g <> [] -> Forall (fun f => is_discard p f = Ok d) g ->
  game_loop p s richii d g more = Ok rows -> exists out later, game_group p s richii d g = Ok out /\ rows = fst (fst out) ++ later.
Proof.
  induction more as [|e more IH]; intros s richii d g rows C NE F H; cbn [game_loop] in H.
  - destruct (in_generator (game_group p s richii d g)) as [out|] eqn:G; [|discriminate]. cbn [bindr] in H. apply Ok_inj in H. apply (proj1 (in_generator_ok _ _)) in G.
    exists out, []. rewrite app_nil_r. auto.
  - destruct (is_discard p e) as [d'|] eqn:D; [|discriminate]. cbn [bindr] in H. destruct (eqb d' d) eqn:Q.
    + apply eqb_prop in Q. subst d'. assert (F' : Forall (fun f => is_discard p f = Ok d) (g ++ [e])) by (apply Forall_app; auto).
      destruct (IH s richii d (g ++ [e]) rows C) as (out & later & G & ->); [destruct g; discriminate|exact F'|exact H|].
      destruct (group_cut _ _ _ _ _ _ _ C NE F' G) as (out' & G' & E). exists out', later. rewrite E. auto.
    + destruct (in_generator (game_group p s richii d g)) as [out|] eqn:G; [|discriminate]. cbn [bindr] in H. apply (proj1 (in_generator_ok _ _)) in G.
      destruct (game_loop p (snd (fst out)) (snd out) d' [e] more) as [l|]; [|discriminate]. cbn [bindr] in H. apply Ok_inj in H. exists out, l. auto.
Qed.
Lemma group_constructed p s richii d g out : constructed_states s -> game_group p s richii d g = Ok out -> constructed_states (snd (fst out)).
Proof.
  intros C H. unfold game_group in H. cbv zeta in H. destruct (if d then _ else _) as [rows|]; [|discriminate]. cbn [bindr] in H.
  destruct (pass_states s g) as [s'|] eqn:P; [|discriminate]. cbn [bindr] in H. apply Ok_inj in H. subst out. exact (pass_states_constructed _ _ _ C P).
Qed.
Lemma loop_cut p more es : forall s richii d g rows, constructed_states s -> g <> [] -> Forall (fun f => is_discard p f = Ok d) g ->
  game_loop p s richii d g (es ++ more) = Ok rows -> exists known later, game_loop p s richii d g es = Ok known /\ rows = known ++ later.
Proof.
  induction es as [|e es IH]; intros s richii d g rows C NE F H; cbn [app] in H.
  - destruct (loop_first _ _ _ _ _ _ _ C NE F H) as (out & later & G & ->). exists (fst (fst out)), later. split; [|reflexivity].
    cbn [game_loop]. apply (proj2 (in_generator_ok _ _)) in G. rewrite G. reflexivity.
  - cbn [game_loop] in H |- *. destruct (is_discard p e) as [d'|] eqn:D; [|discriminate]. cbn [bindr] in H |- *. destruct (eqb d' d) eqn:Q.
    + apply eqb_prop in Q. subst d'. apply IH; [exact C|destruct g; discriminate|apply Forall_app; auto|exact H].
    + destruct (in_generator (game_group p s richii d g)) as [out|] eqn:G; [|discriminate]. cbn [bindr] in H |- *. apply (proj1 (in_generator_ok _ _)) in G.
      destruct (game_loop p (snd (fst out)) (snd out) d' [e] (es ++ more)) as [l|] eqn:L; [|discriminate]. cbn [bindr] in H. apply Ok_inj in H. subst rows.
      destruct (IH _ (snd out) d' [e] l (group_constructed _ _ _ _ _ _ C G) ltac:(discriminate) ltac:(constructor; [exact D|constructor]) L) as (known & later & K & ->).
      rewrite K. cbn [bindr]. exists (fst (fst out) ++ known), later. split; [reflexivity|]. apply app_assoc.
Qed.

(** The rows about the discards made so far are the first rows of the report on the whole deal. *)
Theorem C127_advice : forall p players before after rows, game_reason_list (before ++ after) p players = Ok rows ->
  exists known later, game_reason_list before p players = Ok known /\ rows = known ++ later.
Proof.
  intros p players before after rows H. unfold game_reason_list, game_reasoning in *. destruct before as [|e before]; [exists [], rows; auto|]. cbn [app] in H.
  destruct (is_discard p e) as [d|] eqn:D; [|discriminate]. cbn [bindr] in H |- *.
  apply (loop_cut p after before (fresh_states p players) false d [e] rows (fresh_constructed p players)); [discriminate|constructor; [exact D|constructor]|exact H].
Qed.
(** So two deals that went the same way up to a moment get the same advice on the discards before it. *)
Theorem C127_no_hindsight : forall p players acts before one other rows rows', seat p -> log acts before -> takes_turns p acts ->
  game_reason_list (before ++ one) p players = Ok rows -> game_reason_list (before ++ other) p players = Ok rows' ->
  forall i, (i < length (discards_of p acts))%nat -> exists row, nth_error rows i = Some row /\ nth_error rows' i = Some row.
Proof.
  intros p players acts before one other rows rows' P L T H H' i Li.
  destruct (C127_advice _ _ _ _ _ H) as (known & later & K & ->). destruct (C127_advice _ _ _ _ _ H') as (known' & later' & K' & ->).
  rewrite K in K'. apply Ok_inj in K'. subst known'. rewrite <- (C53_count p players acts before known P L T K) in Li.
  rewrite !nth_error_app1 by exact Li. destruct (nth_error known i) as [row|] eqn:E; [eauto|]. apply nth_error_None in E. lia.
Qed.

(** ** The universal format *)
Theorem C127_commands : forall unquote so strict before after cmds, to_commands (tenhou_command unquote so) strict (before ++ after) = Ok cmds ->
  exists known later, to_commands (tenhou_command unquote so) strict before = Ok known /\ cmds = known ++ later /\
    Forall (fun c => exists t, c_time c = Some t /\ t < Z.of_nat (length before)) known /\
    Forall (fun c => exists t, c_time c = Some t /\ Z.of_nat (length before) <= t) later.
Proof.
  intros unquote so strict before after. induction after as [|e after IH] using rev_ind; intros cmds H.
  - rewrite app_nil_r in H. exists cmds, []. split; [exact H|]. split; [symmetry; apply app_nil_r|]. split; [|constructor].
    apply Forall_forall. intros c I0. destruct (proj1 (C48_times _ _ _ _ _ H) c I0) as (t & Ht & B & _). exists t. split; [exact Ht|lia].
  - rewrite app_assoc in H. destruct (C48_order _ _ _ _ _ _ H) as (c1 & own & H1 & -> & F). destruct (IH _ H1) as (known & later & K & -> & A & B).
    exists known, (later ++ own). split; [exact K|]. split; [symmetry; apply app_assoc|]. split; [exact A|]. apply Forall_app. split; [exact B|].
    apply Forall_forall. intros c I0. destruct (F c I0) as [Ht _]. eexists. split; [exact Ht|]. rewrite app_length. lia.
Qed.
(** A log that is refused stays refused, with the same error, whatever is added. *)
Theorem C127_refused : forall unquote so strict before after er, to_commands (tenhou_command unquote so) strict before = Err er ->
  to_commands (tenhou_command unquote so) strict (before ++ after) = Err er.
Proof.
  intros unquote so strict before after er H. unfold to_commands in *. rewrite call_all_app.
  destruct (call_all (tenhou_command unquote so) strict 0 before empty_ctx); [discriminate|]. cbn [bindr] in *. exact H.
Qed.

(** ** The exported rows of a deal *)
Theorem C127_rows : forall so gt g before after rows, g_events g = before ++ after -> game_paifu so gt g = Ok rows ->
  exists known later, rows = known ++ later /\ forall g', g_events g' = before -> g_seeds g' = g_seeds g -> game_paifu so gt g' = Ok known.
Proof.
  intros so gt g before after rows E H. unfold game_paifu in H. destruct (game_str gt g) as [s|] eqn:G; [|discriminate]. cbn [bindr] in H. rewrite E in H.
  assert (M : forall l r, mapM (event_paifu so) (before ++ after) = Ok r -> l = before -> exists a b, r = a ++ b /\ mapM (event_paifu so) before = Ok a).
  { intros _ r M _. clear - M. revert r M. induction before as [|e before IH]; intros r M; [exists [], r; auto|]. cbn [app mapM] in M |- *.
    destruct (event_paifu so e) as [x|]; [|discriminate]. cbn [bindr] in M |- *. destruct (mapM (event_paifu so) (before ++ after)) as [y|]; [|discriminate]. cbn [bindr] in M. apply Ok_inj in M. subst r.
    destruct (IH y eq_refl) as (a & b & -> & ->). cbn [bindr]. exists (x :: a), b. auto. }
  destruct (mapM (event_paifu so) (before ++ after)) as [r|] eqn:R; [|discriminate]. cbn [bindr] in H. apply Ok_inj in H. subst rows.
  destruct (M before r eq_refl eq_refl) as (a & b & -> & Ra). rewrite concat_app, map_app. eexists _, _. split; [reflexivity|]. intros g' E' Se.
  unfold game_paifu. replace (game_str gt g') with (game_str gt g) by (unfold game_str, game_index, sub_game_index; rewrite Se; reflexivity). rewrite G. cbn [bindr]. rewrite E', Ra. reflexivity.
Qed.

(** ** The table of states: the cells of a row stay the same when more commands follow. *)
Theorem C127_states : forall strict known later snaps h err snaps' h' err' n a b cells cells',
  replay strict known snaps h err -> replay strict (known ++ later) snaps' h' err' ->
  nth_error snaps n = Some a -> nth_error snaps' n = Some b ->
  (forall p l, text_property (snd p) -> ~ holds_after (firstn (S n) known) p (Some (VList l))) ->
  runs (fun fuel => flatten fuel h a) cells -> runs (fun fuel => flatten fuel h' b) cells' ->
  forall q t, In (q, t) cells <-> In (q, t) cells'.
Proof.
  intros strict known later snaps h err snaps' h' err' n a b cells cells' R R' A B NL C C'.
  assert (Ln : (n < length known)%nat).
  { destruct (C37_snapshots strict known) as (s1 & h1 & e1 & R1 & Le & _). destruct (replay_det _ _ _ _ _ _ _ _ R R1) as [<- _].
    assert (n < length snaps)%nat by (apply nth_error_Some; congruence). lia. }
  assert (F : firstn (S n) (known ++ later) = firstn (S n) known) by (rewrite firstn_app; replace (S n - length known)%nat with 0%nat by lia; apply app_nil_r).
  destruct (nth_error known n) as [c|] eqn:K; [|apply nth_error_None in K; lia].
  assert (K' : nth_error (known ++ later) n = Some c) by (rewrite nth_error_app1; assumption).
  destruct (C62_cells _ _ _ _ _ _ _ _ R A K NL) as (x & Rx & _ & X). destruct (C62_cells strict (known ++ later) snaps' h' err' n b c R' B K' ltac:(rewrite F; exact NL)) as (y & Ry & _ & Y).
  assert (Q : forall (f : nat -> res state_row) u v, runs f u -> runs f v -> u = v).
  { intros f u v [N1 U] [N2 V]. specialize (U (Nat.max N1 N2) ltac:(lia)). specialize (V (Nat.max N1 N2) ltac:(lia)). congruence. }
  rewrite (Q _ _ _ C Rx), (Q _ _ _ C' Ry). intros q t. rewrite X, Y, F. reflexivity.
Qed.

(** ** Cases: the beginning of a deal with one discard, which goes on in two ways. *)
Definition beginning : list event := firstn 3 pon_deal.
Example C127_case : seat 0 /\ log (acts_in beginning) beginning /\ takes_turns 0 (acts_in beginning) /\ discards_of 0 (acts_in beginning) = [130] /\
  exists rows rows', game_reason_list (beginning ++ [said "U128"]) 0 4 = Ok rows /\ game_reason_list (beginning ++ skipn 3 pon_deal) 0 4 = Ok rows' /\
    length rows = 1%nat /\ length rows' = 3%nat.
Proof.
  split; [split; lia|]. split; [apply log_is; vm_compute; reflexivity|]. split.
  - intros before after t t' Q. apply (f_equal (map (fun a => match a with Discard _ _ => true | _ => false end))) in Q. rewrite map_app in Q. cbn [map] in Q.
    match type of Q with ?l = _ => change l with [false; false; true] in Q end. revert Q.
    generalize (map (fun a : action => match a with Discard _ _ => true | _ => false end) before). intros [|x [|y [|z l]]] Q; cbn [app] in Q; try discriminate Q. destruct l; discriminate Q.
  - split; [vm_compute; reflexivity|]. destruct C115_case as (_ & _ & _ & _ & _ & rows' & Er & M & _). eexists _, rows'. split; [vm_compute; reflexivity|].
    split; [unfold beginning; rewrite firstn_skipn; exact Er|]. split; [reflexivity|]. apply (f_equal (@length _)) in M. rewrite map_length in M. exact M.
Qed.
Example C127_commands_case : exists cmds, to_commands (tenhou_command (fun s => s) (fun l => l)) false (firstn 2 ex_record ++ skipn 2 ex_record) = Ok cmds /\ (8 < length cmds)%nat.
Proof.
  destruct (to_commands (tenhou_command (fun s => s) (fun l => l)) false (firstn 2 ex_record ++ skipn 2 ex_record)) as [l|] eqn:E; [|vm_compute in E; discriminate E].
  exists l. split; [reflexivity|]. change (length l) with (length (match Ok l with Ok l => l | Err _ => [] end)). rewrite <- E. vm_compute. lia.
Qed.
(** The first two of three commands, and all three. *)
Definition more_cmds : list command := [mkCmd GV_wind U_REPLACE sub_all (VInt 1) (Some 5) (VInt 1) None].
Example C127_states_case : exists snaps h err a snaps' h' err' b cells cells',
  replay false flat_cmds snaps h err /\ replay false (flat_cmds ++ more_cmds) snaps' h' err' /\ nth_error snaps 1 = Some a /\ nth_error snaps' 1 = Some b /\
  (forall p l, text_property (snd p) -> ~ holds_after (firstn 2 flat_cmds) p (Some (VList l))) /\
  runs (fun fuel => flatten fuel h a) cells /\ runs (fun fuel => flatten fuel h' b) cells'.
Proof.
  destruct (C37_snapshots false flat_cmds) as (snaps & h & err & R & _). destruct (C37_snapshots false (flat_cmds ++ more_cmds)) as (snaps' & h' & err' & R' & _).
  assert (X : exists a b, snaps = [a; b]).
  { destruct (R : exists N, forall fuel, (N <= fuel)%nat -> execute false fuel flat_cmds = (snaps, h, err)) as [N Q].
    pose proof (Q (N + 10)%nat ltac:(lia)) as E. rewrite Nat.add_comm in E. vm_compute in E. injection E as <- _ _. eauto. }
  assert (X' : exists a b c, snaps' = [a; b; c]).
  { destruct (R' : exists N, forall fuel, (N <= fuel)%nat -> execute false fuel (flat_cmds ++ more_cmds) = (snaps', h', err')) as [N Q].
    pose proof (Q (N + 10)%nat ltac:(lia)) as E. rewrite Nat.add_comm in E. vm_compute in E. injection E as <- _ _. eauto. }
  destruct X as (a0 & a & ->), X' as (b0 & b & c & ->).
  assert (NL : forall p l, text_property (snd p) -> ~ holds_after (firstn 2 flat_cmds) p (Some (VList l))).
  { intros p l T H. destruct (holds_written _ _ _ H) as (d & X & Y). cbn in X. unfold text_property in T. rewrite <- Y in T.
    destruct X as [<-|[<-|[]]]; cbn in T; repeat (destruct T as [T|T]; [discriminate T|]); destruct T. }
  destruct (C62_cells false flat_cmds [a0; a] h err 1 a _ R eq_refl eq_refl NL) as (cells & Ru & _).
  destruct (C62_cells false (flat_cmds ++ more_cmds) [b0; b; c] h' err' 1 b _ R' eq_refl eq_refl NL) as (cells' & Ru' & _).
  exists [a0; a], h, err, a, [b0; b; c], h', err', b, cells, cells'. auto 9.
Qed.
Print Assumptions C127_advice.
Print Assumptions C127_no_hindsight.
Print Assumptions C127_commands.
Print Assumptions C127_refused.
Print Assumptions C127_rows.
Print Assumptions C127_states.
