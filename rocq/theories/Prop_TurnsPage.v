(** C115 for the pages: a page is right about the hands actually held; a player who discards once
    from a complete hand gets no page at all. The logs under tests/ are played by the rules. *)
From Coq Require Import String.
From Verif Require Import Base Tile Parse Text Tenhou Event Reader State Spec_Log Checker Spec_Checker Record Spec_Read Report Prop_Report Prop_Show Prop_Meld Spec_Turns Prop_Turns Logs LogCheck TurnsCheck Prop_Logs.
From Coq Require Import List ZArith Lia Bool.
Import ListNotations.
Open Scope list_scope.
Open Scope Z_scope.

Lemma page_deal semi head ds events r url id g0 i p file pg j es : good_log head ds events -> new_record events = Ok r ->
  nth_error (r_players r) i = Some p -> render_template semi p r url id g0 = Ok (file, pg) -> nth_error ds j = Some es ->
  exists caption rows, nth_error (pg_games pg) j = Some (caption, rows) /\
    game_reason_list es (Z.of_nat i) (Z.of_nat (length (r_players r))) = Ok rows.
Proof.
  intros G H N R Nj. apply render_inv in R. destruct R as (games & ids & pt & rt & A & _ & _ & _ & O). injection O as _ ->. cbn [pg_games].
  destruct (games_at _ _ _ _ (record_games _ _ _ _ G H) Nj) as (g & Ng & Nr). destruct (analyses_at _ _ _ _ _ A Nr) as (name & rows & X & _ & E).
  exists name, rows. split; [exact X|]. now rewrite (game_keeps _ _ Ng), (players_indexed _ _ _ _ H N) in E.
Qed.
(** Every row of the page is about the hand the player had at that discard. *)
Theorem C115_page : forall semicolons head ds events r url id generate i p file pg j deal_events acts b,
  good_log head ds events -> new_record events = Ok r ->
  nth_error (r_players r) i = Some p -> length (r_players r) = 3%nat \/ length (r_players r) = 4%nat ->
  render_template semicolons p r url id generate = Ok (file, pg) ->
  nth_error ds j = Some deal_events -> log acts deal_events -> playing (Z.of_nat i) acts b ->
  exists caption rows, nth_error (pg_games pg) j = Some (caption, rows) /\
    Forall2 (right_about (Z.of_nat i) (Z.of_nat (length (r_players r))) deal_events) (own_discards (Z.of_nat i) [] acts) rows.
Proof.
  intros semi head ds events r url id g0 i p file pg j es acts b G H N Ln R Nj LG Pl.
  destruct (page_deal _ _ _ _ _ _ _ _ _ _ _ _ _ _ G H N R Nj) as (caption & rows & X & E). exists caption, rows. split; [exact X|].
  assert (i < length (r_players r))%nat by (apply nth_error_Some; congruence).
  eapply C115_rows; [unfold seat; lia|lia|exact Pl|exact LG|exact E].
Qed.
(** A player who discards once from a complete hand gets no page. *)
Theorem C115_no_page : forall semicolons head ds events r url id generate i p j deal_events acts b before t after out,
  good_log head ds events -> new_record events = Ok r ->
  nth_error (r_players r) i = Some p -> length (r_players r) = 3%nat \/ length (r_players r) = 4%nat ->
  nth_error ds j = Some deal_events -> log acts deal_events -> playing (Z.of_nat i) acts b ->
  acts = before ++ Discard (Z.of_nat i) t :: after -> complete_at (Z.of_nat i) before ->
  render_template semicolons p r url id generate <> Ok out.
Proof.
  intros semi head ds events r url id g0 i p j es acts b before t after [file pg] G H N Ln Nj LG Pl Ea C R.
  destruct (page_deal _ _ _ _ _ _ _ _ _ _ _ _ _ _ G H N R Nj) as (caption & rows & X & E).
  assert (i < length (r_players r))%nat by (apply nth_error_Some; congruence).
  revert E. eapply C115_no_report; [unfold seat; lia|lia|exact Pl|exact LG|exact Ea|exact C].
Qed.
Lemma write_stops semi r url : forall planned i p files outcome, nth_error planned i = Some p ->
  (forall out, render_template semi p r (Some url) None true <> Ok out) -> write_reports semi r url planned = (files, outcome) ->
  (length files <= i)%nat /\ outcome <> Ok tt.
Proof.
  induction planned as [|q planned IH]; intros i p files outcome N R E; [destruct i; discriminate|]. cbn [write_reports] in E.
  destruct (render_template semi q r (Some url) None true) as [[[file|] pg]|x] eqn:Q.
  - destruct i as [|i]; cbn [nth_error] in N; [injection N as ->; exfalso; eapply R; exact Q|].
    destruct (write_reports semi r url planned) as [fs o] eqn:W. injection E as <- <-. destruct (IH i p fs o N R eq_refl) as [A B]. cbn [length]. split; [lia|exact B].
  - injection E as <- <-. split; [cbn; lia|discriminate].
  - injection E as <- <-. split; [cbn; lia|discriminate].
Qed.
(** The script, asked for all players, ends with an error and writes no page for that player nor
    for those after. *)
Theorem C115_script_stops : forall semicolons head ds events r url input i j deal_events acts b before t after files outcome,
  good_log head ds events -> new_record events = Ok r ->
  (i < length (r_players r))%nat -> length (r_players r) = 3%nat \/ length (r_players r) = 4%nat ->
  nth_error ds j = Some deal_events -> log acts deal_events -> playing (Z.of_nat i) acts b ->
  acts = before ++ Discard (Z.of_nat i) t :: after -> complete_at (Z.of_nat i) before ->
  planned_players (r_players r) input = Ok (r_players r) -> main semicolons r url input = (files, outcome) ->
  (length files <= i)%nat /\ outcome <> Ok tt.
Proof.
  intros semi head ds events r url input i j es acts b before t after files outcome G H L Ln Nj LG Pl Ea C Pp M. unfold main in M. rewrite Pp in M.
  destruct (nth_error (r_players r) i) as [p|] eqn:N; [|apply nth_error_None in N; lia].
  eapply write_stops; [exact N| |exact M]. intros out. exact (C115_no_page semi head ds events r (Some url) None true i p j es acts b before t after out G H N Ln Nj LG Pl Ea C).
Qed.

(** The six logs under tests/: every seat plays every deal by the rules. *)
Theorem C115_tests : Forall (fun events => exists n head ds, (n = 3 \/ n = 4) /\ good_log head ds events /\
  Forall (fun deal => exists acts, log acts deal /\ forall p, 0 <= p < n -> exists b, playing p acts b) ds) test_logs.
Proof.
  assert (K : forall n es, (n = 3 \/ n = 4) -> rules_b n es && good_log_b es = true -> exists n head ds, (n = 3 \/ n = 4) /\ good_log head ds es /\
    Forall (fun deal => exists acts, log acts deal /\ forall p, 0 <= p < n -> exists b, playing p acts b) ds).
  { intros n es N Q. apply andb_true_iff in Q. destruct Q as [A B]. exists n, (fst (deal_parts es)), (snd (deal_parts es)). split; [exact N|]. split; [|apply rules_is; [lia|exact A]].
    unfold good_log_b in B. rewrite !andb_true_iff in B. destruct B as [[[H D] Kn] O]. split; [apply deal_parts_all|].
    split; [now apply good_head_is|]. split; [exact (forallb_is _ _ _ good_deal_is D)|]. split; [exact (forallb_is _ _ _ known_tile_is Kn)|].
    destruct (rev es) as [|e l] eqn:R; [discriminate|]. apply (say_is _ _ _ _ numbers_is) in O. destruct O as (s & Hs & Ns). exists (rev l), e, s.
    split; [|auto]. rewrite <- (rev_involutive es), R. reflexivity. }
  repeat apply Forall_cons; [apply (K 3)|apply (K 4)|apply (K 4)|apply (K 4)|apply (K 4)|apply (K 3)|apply Forall_nil]; (lia || (vm_compute; reflexivity)).
Qed.
