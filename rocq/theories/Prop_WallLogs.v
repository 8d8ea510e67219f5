(** The six logs of the tests meet the hypotheses of C121, at every moment. *)
From Verif Require Import Base Category Tile Parse Text Tenhou Event Const Reader Value Json Universe Translator TenhouCommands LogCheck
  Spec_Meld Spec_Log Transfer Spec_Transfer Spec_Universe Spec_Play Spec_Convert Prop_Convert Prop_Logs Logs Spec_Moment Prop_Moment Spec_Wall Prop_Wall.
From Coq Require Import String List ZArith Lia Bool Permutation.
Import ListNotations.
Open Scope list_scope.
Open Scope Z_scope.

Lemma proper_acts n w es : proper_b n w es = true -> exists acts, acts_of es = Some acts /\ proper n w acts es.
Proof.
  intro H. apply opt_b_true in H. destruct H as (acts & E & H). exists acts. split; [exact E|].
  rewrite !andb_true_iff in H. destruct H as [[[[[[N L] W] C] A] O] F].
  assert (N' : n = 3 \/ n = 4) by lia. split; [exact N'|]. split; [split; [exact (forallb_is _ _ _ legal_is L)|exact (forall2_is _ _ writes_is _ _ W)]|].
  split; [exact (forallb_is _ _ _ (complete_is n w) C)|]. split; [refine (forallb_is _ _ _ (fun a => at_table_is n a _) A); lia|]. split.
  - intros before e after Q. apply (order_is es false false []) with (before := before) (e := e) (after := after) in O; [exact O|discriminate|discriminate|exact Q].
  - intros p P before a after e Q Ne. rewrite forallb_forall in F. assert (I0 : In p four) by (unfold four; cbn; lia). specialize (F p I0).
    destruct (p <? n) eqn:R; [|lia]. cbn in F. apply (fair_run_is p acts es [] []) with (before := before) (a := a) (after := after); [|exact F|exact Q|exact Ne].
    intro t. cbn [In]. split; [intros []|intro K; exact (in_hand_none _ _ K)].
Qed.

Lemma flat_count (f : Z -> list Z) g t : (forall p, (count_occ Z.eq_dec (f p) t <= count_occ Z.eq_dec (g p) t)%nat) ->
  forall l, (count_occ Z.eq_dec (flat_map f l) t <= count_occ Z.eq_dec (flat_map g l) t)%nat.
Proof. intros H l. induction l as [|p l IH]; [reflexivity|]. cbn [flat_map]. rewrite !count_occ_app. specialize (H p). lia. Qed.
(** What left the wall stays away. *)
Lemma wall_count n d after more t : (count_occ Z.eq_dec (left_wall n d after) t <= count_occ Z.eq_dec (left_wall n d (after ++ more)) t)%nat.
Proof.
  unfold left_wall. rewrite !count_occ_app. apply Nat.add_le_mono.
  - apply flat_count. intro p. unfold got, draws_of. rewrite flat_map_app, !count_occ_app. lia.
  - unfold new_doras. rewrite flat_map_app. change (d_dora d :: ?l ++ ?m) with ((d_dora d :: l) ++ m). rewrite count_occ_app. lia.
Qed.
Lemma wall_prefix n d after more : NoDup (left_wall n d (after ++ more)) -> Forall valid_tile (left_wall n d (after ++ more)) ->
  NoDup (left_wall n d after) /\ Forall valid_tile (left_wall n d after).
Proof.
  intros N V. split.
  - apply (NoDup_count_occ Z.eq_dec). intro t. rewrite (wall_count n d after more t). now apply NoDup_count_occ.
  - apply Forall_forall. intros t I0. rewrite Forall_forall in V. apply V. apply (count_occ_In Z.eq_dec) in I0. apply (count_occ_In Z.eq_dec). pose proof (wall_count n d after more t). lia.
Qed.

(** The play up to the next deal. *)
Fixpoint one_deal (acts : list action) : list action :=
  match acts with
  | [] => []
  | Deal _ :: _ => []
  | a :: r => a :: one_deal r
  end.
Lemma one_deal_prefix : forall after rest, no_deal after -> exists more, one_deal (after ++ rest) = after ++ more.
Proof.
  induction after as [|a after IH]; intros rest N; [exists (one_deal rest); reflexivity|]. inversion N as [|? ? Na N']; subst. destruct (IH rest N') as [more E]. exists more.
  destruct a; [destruct (Na I)| | | | |]; cbn [app one_deal]; now rewrite E.
Qed.
Fixpoint walls_b (n : Z) (acts : list action) : bool :=
  match acts with
  | [] => true
  | Deal d :: r => let w := left_wall n d (one_deal r) in nodup_b w && forallb valid_b w && walls_b n r
  | _ :: r => walls_b n r
  end.
Lemma walls_is n : forall acts before d after rest, walls_b n acts = true -> acts = before ++ Deal d :: after ++ rest -> no_deal after ->
  NoDup (left_wall n d after) /\ Forall valid_tile (left_wall n d after).
Proof.
  induction acts as [|a acts IH]; intros before d after rest H E N; [destruct before; discriminate|].
  destruct before as [|b before]; cbn [app] in E; injection E as -> E.
  - cbn [walls_b] in H. rewrite !andb_true_iff in H. destruct H as [[H1 H2] _]. subst acts. destruct (one_deal_prefix after rest N) as [more Q]. rewrite Q in *.
    apply (wall_prefix _ _ _ more); [now apply nodup_is|exact (forallb_is _ _ _ valid_is H2)].
  - assert (K : walls_b n acts = true) by (destruct b; [cbn [walls_b] in H; now apply andb_true_iff in H| exact H ..]). exact (IH _ _ _ _ K E N).
Qed.

(** All of it, for one log. *)
Definition counted_log (es : list event) : Prop :=
  exists n w acts, proper n w acts es /\ forall before d after rest, acts = before ++ Deal d :: after ++ rest -> no_deal after ->
    NoDup (left_wall n d after) /\ Forall valid_tile (left_wall n d after).
Definition counted_b (n w : Z) (es : list event) : bool := proper_b n w es && opt_b (acts_of es) (walls_b n).
Lemma counted_is n w es : counted_b n w es = true -> counted_log es.
Proof.
  unfold counted_b. rewrite andb_true_iff. intros [P H]. destruct (proper_acts _ _ _ P) as (acts & E & Pr). rewrite E in H. cbn [opt_b] in H. exists n, w, acts. split; [exact Pr|].
  intros before d after rest Q N. eapply walls_is; eassumption.
Qed.
Theorem tests_counted : Forall counted_log test_logs.
Proof.
  repeat apply Forall_cons; [apply (counted_is 3 2)|apply (counted_is 4 1)|apply (counted_is 4 2)|apply (counted_is 4 1)|apply (counted_is 4 2)|apply (counted_is 3 2)|apply Forall_nil];
    vm_compute; reflexivity.
Qed.
(** So, of each of them, stopped anywhere in a deal, no tile is shown more often than there are copies. *)
Theorem C121_tests : Forall (fun es => exists n w acts, proper n w acts es /\ forall unquote so strict cmds now later k before d after,
  (forall l, Permutation (so l) l) -> to_commands (tenhou_command unquote so) strict es = Ok cmds -> cmds = now ++ later ->
  (forall c, In c now -> happened_before k c) -> (forall c, In c later -> ~ happened_before k c) ->
  firstn k acts = before ++ Deal d :: after -> no_deal after ->
  exists all, shown_at_table now n all /\ (forall t, valid_tile t -> (times (name_of t) all <= copies t)%nat) /\ (length all <= 136)%nat) test_logs.
Proof.
  eapply Forall_impl; [|exact tests_counted]. intros es (n & w & acts & Pr & W). exists n, w, acts. split; [exact Pr|].
  intros unquote so strict cmds now later k before d after SO H Ec Bn Bl Ef Nd.
  destruct (W before d after (skipn k acts)) as [Nw Vw]; [|exact Nd|].
  - rewrite <- (firstn_skipn k acts) at 1. rewrite Ef, <- app_assoc. reflexivity.
  - exact (C121_copies _ _ _ _ _ _ _ _ _ _ _ _ _ _ SO Pr H Ec Bn Bl Ef Nd Nw Vw).
Qed.
Print Assumptions C121_tests.
