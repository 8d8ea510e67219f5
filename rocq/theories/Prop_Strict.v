(** C111: when the commands converted from a log are replayed in strict mode. *)
From Verif Require Import Base Category Tile Parse Text Tenhou TenhouProofs Spec_Tile Spec_Meld MeldProofs Prop_Meld Event Const Reader State Spec_Log StateProofs Prop_State Value Universe Translator TenhouCommands
  Transfer Spec_Transfer Spec_Universe UniverseProofs Prop_Executor CommandProofs Prop_Commands Spec_Play CommandState CommandPlay PlaySteps PlayProofs Prop_Play Prop_Hand Spec_Score FinishProofs Prop_Score
  Spec_Header Prop_Header Prop_Reader Spec_Read Spec_Convert ConvertProofs Prop_Convert Spec_Seats SeatsProofs CsvProofs LogCheck Spec_Strict StrictProofs StrictCheck.
From Coq Require Import String List ZArith Lia Bool Permutation.
Import ListNotations.
Open Scope list_scope.
Open Scope Z_scope.

Lemma by_players_seated n e : n = 3 \/ n = 4 -> by_players n e -> seated e.
Proof.
  intros N B T s H. destruct (B T) as (p & P & Hw). unfold holds in *. rewrite Hw in H. injection H as <-.
  assert (p = 0 \/ p = 1 \/ p = 2 \/ p = 3) as [-> | [-> | [-> | ->]]] by lia; cbn; tauto.
Qed.

(** The strict replay of a proper log goes through if the log never contradicts itself, and otherwise stops with
    AssertionError at a command of the first event that does. *)
Theorem C111_strict : forall unquote so strict n w acts es cmds, (forall l, Permutation (so l) l) ->
  proper n w acts es -> Forall (whole_scores n) es -> Forall (by_players n) es ->
  to_commands (tenhou_command unquote so) strict es = Ok cmds ->
  exists snaps h err, replay true cmds snaps h err /\
  ((err = None /\ length snaps = length cmds /\ consistent unquote n es) \/
   (err = Some AssertionError /\ exists before e after c, es = before ++ e :: after /\ consistent unquote n before /\ ~ repeats unquote n before e /\
      nth_error cmds (length snaps) = Some c /\ c_time c = Some (Z.of_nat (length before)))).
Proof.
  intros unquote so strict n w acts es cmds SO Pr Wh By H. pose proof Pr as (N & [_ Lg] & _). assert (Len : length acts = length es) by (eapply CsvProofs.forall2_length; exact Lg).
  assert (Se : Forall seated es) by (eapply Forall_impl; [|exact By]; intros e; now apply by_players_seated). pose proof (seated_only _ _ _ _ _ Se H) as So.
  unfold to_commands in H. peelb H. destruct v as [l x]. apply Ok_inj in H. cbn [fst] in H. subst l. destruct (call_all_facts _ _ _ _ _ _ _ _ E) as [A B].
  assert (W : Forall well_addressed cmds).
  { apply Forall_forall. intros c I0. rewrite Forall_forall in B, So. destruct (B c I0) as [S0 _]. unfold well_addressed.
    destruct (scope_of (c_prop c)); try exact S0. destruct S0 as [i S0]. exists i. split; [exact (So c I0 i S0)|exact S0]. }
  assert (Ex : executable cmds). { eapply states_executable; [exact A|exact W|]. eapply Forall_impl; [|exact B]. intros c [_ K]. exact K. }
  destruct (C39_strict cmds Ex) as (snaps & h & err & R & Fi & D). exists snaps, h, err. split; [exact R|]. destruct D as [[-> Ln]|[-> (c & Nc & Ct)]].
  - left. split; [reflexivity|]. split; [exact Ln|]. apply (sound_log unquote so SO strict n w es acts cmds x Len Pr Wh By W E).
    intros i c Q. cbn [app]. apply Fi; [|exact Q]. rewrite Ln. apply nth_error_Some. congruence.
  - right. split; [reflexivity|]. destruct (first_contradiction unquote so SO strict n w acts es cmds x _ c Len Pr Wh By W E Fi Nc Ct) as (b & e & af & K1 & K2 & K3 & K4).
    exists b, e, af, c. auto.
Qed.
(** So it goes through exactly for the consistent logs. *)
Theorem C111_exactly : forall unquote so strict n w acts es cmds, (forall l, Permutation (so l) l) ->
  proper n w acts es -> Forall (whole_scores n) es -> Forall (by_players n) es ->
  to_commands (tenhou_command unquote so) strict es = Ok cmds ->
  exists snaps h err, replay true cmds snaps h err /\ (err = None <-> consistent unquote n es).
Proof.
  intros unquote so strict n w acts es cmds SO Pr Wh By H. destruct (C111_strict _ _ _ _ _ _ _ _ SO Pr Wh By H) as (snaps & h & err & R & D). exists snaps, h, err. split; [exact R|].
  destruct D as [(-> & _ & C)|(-> & b & e & af & c & -> & _ & Nr & _)]; [tauto|]. split; [discriminate|]. intro C. exfalso. apply Nr. apply (C b e af). reflexivity.
Qed.

(** The seats are announced, and one of them again after it was gone; then under the name it had. *)
Definition ex_back (name : string) : list event :=
  [ex_event (t_ "GO") [(t_ "type", t_ "169")]; ex_event (t_ "UN") [(t_ "n0", t_ "A"); (t_ "n1", t_ "B"); (t_ "n2", t_ "C"); (t_ "n3", t_ "D")];
   ex_event (t_ "BYE") [(t_ "who", t_ "1")]; ex_event (t_ "UN") [(t_ "n1", t_ name)]].
Definition ex_strict_b (es : list event) : bool := proper_b 4 2 es && forallb known_b es && forallb (whole_b 4) es && forallb (players_b 4) es.
Lemma ex_strict es : ex_strict_b es = true -> exists acts cmds, proper 4 2 acts es /\ Forall (whole_scores 4) es /\ Forall (by_players 4) es /\
  to_commands (tenhou_command (fun s => s) (fun l => l)) true es = Ok cmds.
Proof.
  unfold ex_strict_b. rewrite !andb_true_iff. intros [[[A B] C] D]. apply proper_is in A. destruct A as [acts A].
  destruct (C96_strict (fun s => s) (fun l => l) 4 2 acts es (fun l => Permutation_refl l) A (forallb_is _ _ _ known_is B)) as [cmds H]. exists acts, cmds.
  split; [exact A|]. split; [exact (forallb_is _ _ _ (whole_is 4) C)|]. split; [exact (forallb_is _ _ _ (players_is 4) D)|exact H].
Qed.
Example C111_same_example : exists cmds snaps h, to_commands (tenhou_command (fun s => s) (fun l => l)) true (ex_back "B") = Ok cmds /\ replay true cmds snaps h None.
Proof.
  destruct (ex_strict (ex_back "B")) as (acts & cmds & A & B & C & H); [vm_compute; reflexivity|].
  destruct (C111_exactly _ _ _ _ _ _ _ _ (fun l => Permutation_refl l) A B C H) as (snaps & h & err & R & K). exists cmds, snaps, h. split; [exact H|].
  replace (@None exn) with err; [exact R|]. apply K. apply consistent_is. vm_compute. reflexivity.
Qed.
(** Under another name, the replay stops there. *)
Example C111_other_example : exists cmds snaps h, to_commands (tenhou_command (fun s => s) (fun l => l)) true (ex_back "X") = Ok cmds /\ replay true cmds snaps h (Some AssertionError).
Proof.
  destruct (ex_strict (ex_back "X")) as (acts & cmds & A & B & C & H); [vm_compute; reflexivity|].
  destruct (C111_strict _ _ _ _ _ _ _ _ (fun l => Permutation_refl l) A B C H) as (snaps & h & err & R & [(_ & _ & K)|[-> _]]); [|exists cmds, snaps, h; auto].
  exfalso. destruct (K (firstn 3 (ex_back "X")) (ex_event (t_ "UN") [(t_ "n1", t_ "X")]) [] eq_refl) as (_ & _ & G).
  assert (Q : t_ "X" = t_ "B"); [|discriminate Q].
  apply (G 1 (t_ "X") (ex_event (t_ "UN") [(t_ "n0", t_ "A"); (t_ "n1", t_ "B"); (t_ "n2", t_ "C"); (t_ "n3", t_ "D")]) (t_ "B")).
  - unfold seat. lia.
  - split; [reflexivity|]. split; [reflexivity|]. exists 88. split; [now left|]. cbn. intuition discriminate.
  - right. now left.
  - split; [reflexivity|]. split; [reflexivity|]. exists 66. split; [now left|]. cbn. intuition discriminate.
Qed.
(** The game of C96, whose only score events are one deal and its end. *)
Example C111_game_example : consistent (fun s => s) 4 ex_game /\ Forall (whole_scores 4) ex_game /\ Forall (by_players 4) ex_game.
Proof.
  split; [apply consistent_is; vm_compute; reflexivity|]. split; [apply (forallb_is (whole_b 4)); [exact (whole_is 4)|]|apply (forallb_is (players_b 4)); [exact (players_is 4)|]]; vm_compute; reflexivity.
Qed.
Print Assumptions C111_strict.
Print Assumptions C111_exactly.
