(** C103: logs converted one after another do not affect each other. *)
From Verif Require Import Base Parse Text Tenhou Event Value Universe Translator TenhouCommands Prop_Meld CommandProofs Session Spec_Session
  Prop_Commands Prop_Hand Spec_Convert Prop_Convert.
From Coq Require Import String List ZArith Lia Bool Arith Permutation.
Import ListNotations.
Open Scope list_scope.
Open Scope Z_scope.

Section Proofs.
Variable t : translator.
Variable broken : event -> ctx -> ctx.
(** All the commands up to the first exception. *)
Fixpoint stream (strict : bool) (i : Z) (events : list event) (x : ctx) : list command * option exn :=
  match events with
  | [] => ([], None)
  | e :: r =>
    match call t strict e i x with
    | Err er => ([], Some er)
    | Ok (cs, x') => (cs ++ fst (stream strict (i + 1) r x'), snd (stream strict (i + 1) r x'))
    end
  end.
Definition ending (k : nat) (o : option exn) : list outcome := match o with None => repeat Stop k | Some er => Raise er :: repeat Stop k end.
Lemma advance_stream strict : forall events i x,
  match fst (stream strict i events x) with
  | [] => exists x', advance t broken strict i events x = (match snd (stream strict i events x) with None => Stop | Some er => Raise er end, Done, x')
  | c :: l => exists j r pending x', advance t broken strict i events x = (Yield c, Running strict j r pending, x') /\
      l = pending ++ fst (stream strict j r x') /\ snd (stream strict i events x) = snd (stream strict j r x')
  end.
Proof.
  induction events as [|e r IH]; intros i x; cbn [stream advance].
  - cbn [fst snd]. exists x. reflexivity.
  - destruct (call t strict e i x) as [[cs x']|er]; cbn [fst snd].
    + destruct cs as [|c cs]; cbn [app].
      * apply IH.
      * exists (i + 1), r, cs, x'. repeat split; reflexivity.
    + eexists. reflexivity.
Qed.
Fixpoint run (k : nat) (g : gen) (x : ctx) : list outcome * gen * ctx :=
  match k with
  | O => ([], g, x)
  | S k => let '(o, g', x') := next t broken g x in let '(l, g'', x'') := run k g' x' in (o :: l, g'', x'')
  end.
Definition outs_of (r : list outcome * gen * ctx) : list outcome := fst (fst r).
Lemma run_S k g x : outs_of (run (S k) g x) = fst (fst (next t broken g x)) :: outs_of (run k (snd (fst (next t broken g x))) (snd (next t broken g x))).
Proof. cbn [run]. destruct (next t broken g x) as [[o g'] x']. cbn [fst snd]. destruct (run k g' x') as [[l g''] x'']. reflexivity. Qed.
Lemma run_done k : forall x, outs_of (run k Done x) = repeat Stop k.
Proof. induction k as [|k IH]; intro x; [reflexivity|]. rewrite run_S. cbn [next fst snd repeat]. rewrite IH. reflexivity. Qed.
Lemma firstn_repeat {A} (a : A) k : forall n, (k <= n)%nat -> firstn k (repeat a n) = repeat a k.
Proof. induction k as [|k IH]; intros n H; [reflexivity|]. destruct n as [|n]; [lia|]. cbn [repeat firstn]. rewrite IH by lia. reflexivity. Qed.
Lemma firstn_more {A} (a : A) (l m : list A) k : (k <= length (l ++ repeat a k))%nat -> firstn k (l ++ repeat a (S k)) = firstn k (l ++ repeat a k).
Proof.
  intros _. replace (S k) with (k + 1)%nat by lia. rewrite repeat_app, app_assoc, firstn_app.
  replace (k - length (l ++ repeat a k))%nat with 0%nat by (rewrite app_length, repeat_length; lia). cbn [firstn]. apply app_nil_r.
Qed.
Lemma ending_more k l o : firstn k (l ++ ending (S k) o) = firstn k (l ++ ending k o).
Proof.
  destruct o as [er|]; unfold ending.
  - change (Raise er :: repeat Stop (S k)) with ([Raise er] ++ repeat Stop (S k)). change (Raise er :: repeat Stop k) with ([Raise er] ++ repeat Stop k).
    rewrite !app_assoc. apply firstn_more; [exact l|]. rewrite app_length, repeat_length. lia.
  - apply firstn_more; [exact l|]. rewrite app_length, repeat_length. lia.
Qed.
Lemma after_end k o x : firstn (S k) (ending (S k) o) = (match o with None => Stop | Some er => Raise er end) :: outs_of (run k Done x).
Proof.
  rewrite run_done. destruct o as [er|]; cbn [ending firstn repeat]; f_equal.
  - apply (firstn_repeat Stop k (S k)). lia.
  - apply firstn_repeat. lia.
Qed.
Lemma run_running strict : forall k i events pending x,
  outs_of (run k (Running strict i events pending) x) =
  firstn k (map Yield (pending ++ fst (stream strict i events x)) ++ ending k (snd (stream strict i events x))).
Proof.
  induction k as [|k IH]; intros i events pending x; [reflexivity|].
  rewrite run_S. destruct pending as [|c pending]; cbn [next].
  - pose proof (advance_stream strict events i x) as H. cbn [app]. destruct (fst (stream strict i events x)) as [|c l].
    + destruct H as [x' ->]. cbn [fst snd map app]. symmetry. apply after_end.
    + destruct H as [j [r [p [x' [-> [-> Q]]]]]]. cbn [fst snd map app]. rewrite Q. cbn [firstn]. rewrite ending_more, IH. reflexivity.
  - cbn [fst snd map app firstn]. rewrite ending_more, IH. reflexivity.
Qed.
Lemma run_fresh strict k events x :
  outs_of (run k (Fresh strict events) x) =
  firstn k (map Yield (fst (stream strict 0 events empty_ctx)) ++ ending k (snd (stream strict 0 events empty_ctx))).
Proof.
  destruct k as [|k]; [reflexivity|]. rewrite run_S. cbn [next]. pose proof (run_running strict (S k) 0 events [] empty_ctx) as H. rewrite run_S in H. exact H.
Qed.
(** The stream and [call_all]. *)
Lemma stream_all strict : forall events i x,
  match snd (stream strict i events x) with
  | None => exists x', call_all t strict i events x = Ok (fst (stream strict i events x), x')
  | Some er => call_all t strict i events x = Err er /\ exists m x', (m < length events)%nat /\
      call_all t strict i (firstn m events) x = Ok (fst (stream strict i events x), x') /\ call_all t strict i (firstn (S m) events) x = Err er
  end.
Proof.
  induction events as [|e r IH]; intros i x; cbn [stream call_all].
  - cbn [fst snd]. exists x. reflexivity.
  - destruct (call t strict e i x) as [[cs y]|er] eqn:E; cbn [fst snd bindr].
    + specialize (IH (i + 1) y). destruct (snd (stream strict (i + 1) r y)) as [er|].
      * destruct IH as [A [m [x' [L [B C]]]]]. rewrite A. cbn [bindr]. split; [reflexivity|]. exists (S m), x'. split; [cbn [length]; lia|].
        split; [cbn [firstn call_all]|change (firstn (S (S m)) (e :: r)) with (e :: firstn (S m) r); cbn [call_all]]; rewrite E; cbn [bindr snd fst]; [rewrite B|rewrite C]; reflexivity.
      * destruct IH as [x' A]. rewrite A. cbn [bindr fst snd]. exists x'. reflexivity.
    + split; [reflexivity|]. exists 0%nat, x. split; [cbn [length]; lia|]. split; [reflexivity|]. cbn [firstn call_all]. rewrite E. reflexivity.
Qed.
Lemma fresh_alone strict k events x : alone t strict events k (outs_of (run k (Fresh strict events) x)).
Proof.
  rewrite run_fresh. pose proof (stream_all strict events 0 empty_ctx) as H. destruct (snd (stream strict 0 events empty_ctx)) as [er|].
  - destruct H as [A [m [x' [L [B C]]]]]. cbn [ending]. apply (alone_err t strict events k m); [exact L| | |]; unfold to_commands.
    + rewrite A. reflexivity.
    + rewrite B. reflexivity.
    + rewrite C. reflexivity.
  - destruct H as [x' A]. cbn [ending]. apply alone_ok. unfold to_commands. rewrite A. reflexivity.
Qed.
(** Sessions. *)
Lemma nth_set_same g : forall n l, (n < length l)%nat -> nth_error (set_nth n g l) n = Some g.
Proof. induction n as [|n IH]; intros [|a l] H; cbn [length] in H; try lia; [reflexivity|]. cbn [set_nth nth_error]. apply IH. lia. Qed.
Lemma nth_set_other g : forall n m l, n <> m -> nth_error (set_nth n g l) m = nth_error l m.
Proof. induction n as [|n IH]; intros [|m] [|a l] H; try reflexivity; try congruence. cbn [set_nth nth_error]. apply IH. congruence. Qed.
Lemma given_cons n o outs : given_by n (o :: outs) = if Nat.eqb (fst o) n then snd o :: given_by n outs else given_by n outs.
Proof. unfold given_by. cbn [filter]. destruct (Nat.eqb (fst o) n); reflexivity. Qed.
Lemma unused n : forall schedule gens x, ~ In n schedule -> given_by n (session t broken schedule gens x) = [].
Proof.
  induction schedule as [|m rest IH]; intros gens x H; [reflexivity|]. cbn [session]. cbn [In] in H.
  destruct (nth_error gens m) as [g|]; [|apply IH; tauto]. destruct (next t broken g x) as [[o g'] x'].
  rewrite given_cons. cbn [fst]. destruct (Nat.eqb_spec m n) as [->|]; [exfalso; apply H; left; reflexivity|]. apply IH. tauto.
Qed.
Lemma used n : forall k after gens x g, nth_error gens n = Some g -> ~ In n after ->
  given_by n (session t broken (repeat n k ++ after) gens x) = outs_of (run k g x).
Proof.
  induction k as [|k IH]; intros after gens x g N H; cbn [repeat app].
  - rewrite unused by exact H. reflexivity.
  - rewrite run_S. cbn [session]. rewrite N. destruct (next t broken g x) as [[o g'] x']. rewrite given_cons. cbn [fst snd]. rewrite Nat.eqb_refl. f_equal.
    apply IH; [|exact H]. apply nth_set_same. apply nth_error_Some. congruence.
Qed.
Lemma skipped n g : forall before rest gens x, nth_error gens n = Some g -> ~ In n before ->
  exists gens' x', nth_error gens' n = Some g /\ given_by n (session t broken (before ++ rest) gens x) = given_by n (session t broken rest gens' x').
Proof.
  induction before as [|m b IH]; intros rest gens x N H; cbn [app].
  - exists gens, x. split; [exact N|reflexivity].
  - cbn [In] in H. cbn [session]. destruct (nth_error gens m) as [h|]; [|apply IH; tauto].
    destruct (next t broken h x) as [[o h'] x']. destruct (IH rest (set_nth m h' gens) x') as [gens' [y [A B]]].
    + rewrite nth_set_other by tauto. exact N.
    + tauto.
    + exists gens', y. split; [exact A|]. rewrite given_cons. cbn [fst]. destruct (Nat.eqb_spec m n); [tauto|exact B].
Qed.
End Proofs.

(** C103: a generator whose calls of [next] are not interrupted by those of another gives what it gives alone,
    whatever was done before (also when it was interrupted or failed) and whatever is done after. *)
Theorem C103_uninterrupted_partial : forall unquote so broken gens x n strict events before k after,
  nth_error gens n = Some (Fresh strict events) -> ~ In n before -> ~ In n after ->
  alone (tenhou_command unquote so) strict events k
    (given_by n (session (tenhou_command unquote so) broken (before ++ repeat n k ++ after) gens x)).
Proof.
  intros unquote so broken gens x n strict events before k after N B A.
  destruct (skipped (tenhou_command unquote so) broken n _ before (repeat n k ++ after) gens x N B) as [gens' [y [N' ->]]].
  rewrite (used _ _ n k after gens' y _ N' A). apply fresh_alone.
Qed.
(** The full statement, that the order of the calls never matters, is false: a proper log that is
    converted without exception raises one when its generator takes turns with another. *)
Theorem C103_interleaved_refuted : exists unquote so broken events gens schedule e cmds,
  proper 4 2 ex_play events /\ gens = [Fresh false events; Fresh false events] /\
  to_commands (tenhou_command unquote so) false events = Ok cmds /\
  In (Raise e) (given_by 1 (session (tenhou_command unquote so) broken schedule gens empty_ctx)) /\
  forall k, ~ alone (tenhou_command unquote so) false events k (given_by 1 (session (tenhou_command unquote so) broken schedule gens empty_ctx)).
Proof.
  assert (R : exists e, In (Raise e) (given_by 1 (session (tenhou_command (fun s => s) (fun l => l)) (fun _ x => x) (concat (repeat [0; 1] 60))%nat
    [Fresh false ex_game; Fresh false ex_game] empty_ctx))).
  { eexists. apply (nth_error_In _ 53). vm_compute. reflexivity. }
  destruct R as [e R]. destruct (C96_converted (fun s => s) (fun l => l) 4 2 ex_play ex_game (fun l => Permutation_refl l) ex_proper) as [cmds Q].
  exists (fun s => s), (fun l => l), (fun _ x => x), ex_game, [Fresh false ex_game; Fresh false ex_game], (concat (repeat [0; 1] 60))%nat, e, cmds.
  split; [exact ex_proper|]. split; [reflexivity|]. split; [exact Q|]. split; [exact R|].
  intros k A. revert R. generalize dependent (given_by 1 (session (tenhou_command (fun s => s) (fun l => l)) (fun _ x => x) (concat (repeat [0; 1] 60))%nat
    [Fresh false ex_game; Fresh false ex_game] empty_ctx)). intros outs A R.
  destruct A as [cs E|m cs er L E _ _]; [|congruence].
  assert (R' : In (Raise e) (map Yield cs ++ repeat Stop k)). { rewrite <- (firstn_skipn k). apply in_or_app. left. exact R. }
  apply in_app_or in R'. destruct R' as [R'|R'].
  - apply in_map_iff in R'. destruct R' as [c [H _]]. discriminate H.
  - apply repeat_spec in R'. discriminate R'.
Qed.

Lemma alone_converted t strict events k outs cmds : alone t strict events k outs -> to_commands t strict events = Ok cmds ->
  outs = firstn k (map Yield cmds ++ repeat Stop k).
Proof. intros [cs E|m cs er L E _ _] Q; rewrite Q in E; [|discriminate]. apply Ok_inj in E. subst. reflexivity. Qed.
(** Used one after the other, the second log of a program is converted like the first; here the first was abandoned after 10 commands. *)
Example C103_example : exists cmds, to_commands (tenhou_command (fun s => s) (fun l => l)) false ex_game = Ok cmds /\
  given_by 1 (session (tenhou_command (fun s => s) (fun l => l)) (fun _ x => x) (repeat 0%nat 10 ++ repeat 1%nat 100 ++ []) [Fresh true ex_record; Fresh false ex_game] empty_ctx) =
  firstn 100 (map Yield cmds ++ repeat Stop 100).
Proof.
  destruct (C96_converted (fun s => s) (fun l => l) 4 2 ex_play ex_game (fun l => Permutation_refl l) ex_proper) as [cmds Q]. exists cmds. split; [exact Q|].
  eapply alone_converted; [|exact Q].
  apply C103_uninterrupted_partial; [reflexivity| |intros []]. intro K. apply repeat_spec in K. discriminate K.
Qed.
Print Assumptions C103_uninterrupted_partial.
Print Assumptions C103_interleaved_refuted.
