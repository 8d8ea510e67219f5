(** C38 (for records) and C48: the commands of a record. *)
From Verif Require Import Base Category Tile Parse Text Tenhou Prop_Meld Event Value Universe Translator TenhouCommands
  Transfer Spec_Transfer Spec_Universe UniverseProofs ExecutorProofs Prop_Executor CommandProofs.
From Coq Require Import String List ZArith Lia Bool Permutation.
Import ListNotations.
Open Scope list_scope.
Open Scope Z_scope.

Lemma with_states_forall (P : command -> Prop) : (forall c v, P c -> P (set_state c v)) ->
  forall cmds s s' cmds', with_states s cmds = Ok (s', cmds') -> Forall P cmds -> Forall P cmds'.
Proof.
  intros HP. induction cmds as [|c r IH]; intros s s' cmds' E F; cbn [with_states] in E.
  - apply Ok_inj in E. inversion E; subst. constructor.
  - peelb E. destruct v as [s1 w], v0 as [s2 r']. cbn [fst snd] in *. apply Ok_inj in E. assert (Q : cmds' = set_state c w :: r') by congruence. subst cmds'. clear E.
    inversion F; subst. constructor; [auto|]. eapply IH; eassumption.
Qed.
(** What every call gives. *)
Definition stamped (i : Z) (c : command) : Prop := c_time c = Some i /\ c_event c <> None.
Lemma call_facts unquote so strict e i x cmds x' : call (tenhou_command unquote so) strict e i x = Ok (cmds, x') ->
  states_ok (x_vals x) cmds (x_vals x') /\ Forall ok_cmd cmds /\ Forall (stamped i) cmds.
Proof.
  rewrite call_eq. intro H. peelb H. destruct (handle_good unquote so _ _ _ E) as [[A B] C]. destruct v as [l x1]. cbn [fst snd] in *.
  unfold finish in H. cbn [fst snd] in H. destruct l as [|c0 l0].
  - destruct strict; [discriminate|]. apply Ok_inj in H. injection H as -> ->. rewrite A. split; [constructor|]. split; constructor.
  - unfold postprocess in H. peelb H. destruct v as [s' cs]. cbn [fst snd] in H. apply Ok_inj in H. injection H as -> ->. cbn [x_vals].
    rewrite A in E0. split; [apply states_ok_time; eapply with_states_ok; exact E0|]. split.
    + apply Forall_map. pose proof (with_states_forall ok_cmd ltac:(intros c v K; exact K) _ _ _ _ E0 B) as K.
      eapply Forall_impl; [|exact K]. intros c Q. exact Q.
    + apply Forall_map. pose proof (with_states_forall (fun c => c_event c <> None) ltac:(intros c v K; exact K) _ _ _ _ E0 C) as K.
      eapply Forall_impl; [|exact K]. intros c Q. split; [reflexivity|exact Q].
Qed.
Lemma call_all_app t strict a : forall b i x, call_all t strict i (a ++ b) x =
  do r <- call_all t strict i a x; do r' <- call_all t strict (i + Z.of_nat (length a)) b (snd r); Ok (fst r ++ fst r', snd r').
Proof.
  induction a as [|e a IH]; intros b i x; cbn [call_all app length].
  - cbn [bindr fst snd]. replace (i + Z.of_nat 0) with i by lia. destruct (call_all t strict i b x) as [[l y]|]; reflexivity.
  - destruct (call t strict e i x) as [[l y]|]; cbn [bindr fst snd]; [|reflexivity]. rewrite IH.
    destruct (call_all t strict (i + 1) a y) as [[m z]|]; cbn [bindr fst snd]; [|reflexivity].
    replace (i + 1 + Z.of_nat (length a)) with (i + Z.of_nat (S (length a))) by lia.
    destruct (call_all t strict (i + Z.of_nat (S (length a))) b z) as [[k w]|]; cbn [bindr fst snd]; [|reflexivity].
    now rewrite app_assoc.
Qed.
Lemma call_all_facts unquote so strict : forall es i x cmds x', call_all (tenhou_command unquote so) strict i es x = Ok (cmds, x') ->
  states_ok (x_vals x) cmds (x_vals x') /\ Forall ok_cmd cmds.
Proof.
  induction es as [|e es IH]; intros i x cmds x' H; cbn [call_all] in H.
  - apply Ok_inj in H. injection H as -> ->. split; constructor.
  - peelb H. destruct v as [l y], v0 as [m z]. cbn [fst snd] in *. apply Ok_inj in H. injection H as -> ->.
    destruct (call_facts _ _ _ _ _ _ _ _ E) as [A [B _]]. destruct (IH _ _ _ _ E0) as [C D].
    split; [eapply states_ok_app; eassumption|]. apply Forall_app. auto.
Qed.

(** ** C48. The commands of a record one event longer are those of the record, followed by
    commands that all carry the position of the last event and an event type. *)
Theorem C48_order : forall unquote so strict events e cmds,
  to_commands (tenhou_command unquote so) strict (events ++ [e]) = Ok cmds ->
  exists before own, to_commands (tenhou_command unquote so) strict events = Ok before /\ cmds = before ++ own /\
    forall c, In c own -> c_time c = Some (Z.of_nat (length events)) /\ c_event c <> None.
Proof.
  intros unquote so strict events e cmds H. unfold to_commands in H. rewrite call_all_app in H. peelb H.
  peelb E. destruct v0 as [l x], v1 as [m y]. cbn [fst snd] in *. apply Ok_inj in E. subst v. apply Ok_inj in H. subst cmds. cbn [fst snd].
  exists l, m. unfold to_commands. rewrite E0. split; [reflexivity|]. split; [reflexivity|].
  cbn [call_all] in E1. peelb E1. destruct v as [own x1]. apply Ok_inj in E1. assert (Q : m = own ++ []) by (cbn [fst snd] in E1; congruence). rewrite Q. rewrite app_nil_r.
  destruct (call_facts _ _ _ _ _ _ _ _ E) as [_ [_ F]]. intros c I0. rewrite Forall_forall in F. exact (F c I0).
Qed.
(** So timestamps never decrease, and every one is the position of some event. *)
Theorem C48_times : forall unquote so strict events cmds, to_commands (tenhou_command unquote so) strict events = Ok cmds ->
  (forall c, In c cmds -> exists t, c_time c = Some t /\ 0 <= t < Z.of_nat (length events) /\ c_event c <> None) /\
  (forall i j c d, (i <= j)%nat -> nth_error cmds i = Some c -> nth_error cmds j = Some d ->
     exists s t, c_time c = Some s /\ c_time d = Some t /\ s <= t).
Proof.
  intros unquote so strict events. induction events as [|e events IH] using rev_ind; intros cmds H.
  - cbn in H. apply Ok_inj in H. subst. split; [intros c []|]. intros i j c d _ Q. destruct i; discriminate.
  - destruct (C48_order _ _ _ _ _ _ H) as [before [own [Hb [-> F]]]]. destruct (IH _ Hb) as [A B]. rewrite app_length. cbn [length].
    split.
    + intros c I0. apply in_app_iff in I0. destruct I0 as [I0|I0].
      * destruct (A c I0) as [t [T [L N]]]. exists t. split; [exact T|]. split; [lia|exact N].
      * destruct (F c I0) as [T N]. eexists. split; [exact T|]. split; [lia|exact N].
    + intros i j c d L Hi Hj. destruct (Nat.lt_ge_cases j (length before)) as [Lj|Gj].
      * rewrite nth_error_app1 in Hi, Hj by lia. exact (B i j c d L Hi Hj).
      * rewrite nth_error_app2 in Hj by lia. apply nth_error_In in Hj. destruct (F d Hj) as [Td _].
        destruct (Nat.lt_ge_cases i (length before)) as [Li|Gi].
        -- rewrite nth_error_app1 in Hi by lia. apply nth_error_In in Hi. destruct (A c Hi) as [t [T [R _]]]. exists t. eexists. split; [exact T|]. split; [exact Td|]. lia.
        -- rewrite nth_error_app2 in Hi by lia. apply nth_error_In in Hi. destruct (F c Hi) as [Tc _]. eexists. eexists. split; [exact Tc|]. split; [exact Td|]. lia.
Qed.

(** ** C38 for records: the only condition is that the log names no seat but 0..3. *)
Definition seats_only (c : command) : Prop := forall i, c_sub c = SId i -> 0 <= i <= 3.
Theorem C38_record : forall unquote so strict events cmds,
  to_commands (tenhou_command unquote so) strict events = Ok cmds -> Forall seats_only cmds ->
  exists snaps h, replay false cmds snaps h None /\ length snaps = length cmds /\
  forall n c, nth_error cmds n = Some c ->
  exists T p, snapshot snaps h n T /\ addressed c p /\ at_path key_eqb T (path_of p) = Some (TLeaf (c_state c)).
Proof.
  intros unquote so strict events cmds H Se. unfold to_commands in H. peelb H. destruct v as [l x]. apply Ok_inj in H. cbn [fst] in H. subst l.
  destruct (call_all_facts _ _ _ _ _ _ _ _ E) as [A B].
  assert (W : Forall well_addressed cmds).
  { apply Forall_forall. intros c I0. rewrite Forall_forall in B, Se. destruct (B c I0) as [S0 _]. unfold well_addressed.
    destruct (scope_of (c_prop c)); try exact S0. destruct S0 as [i S0]. exists i. split; [exact (Se c I0 i S0)|exact S0]. }
  destruct (states_shown _ _ A W) as [snaps [h [err [R [F G]]]]].
  destruct F as [-> L]. { eapply Forall_impl; [|exact B]. intros c [_ K]. exact K. }
  exists snaps, h. split; [exact R|]. split; [exact L|]. intros n c Q. apply G; [|exact Q]. rewrite L. apply nth_error_Some. congruence.
Qed.

(** A small record: game type, two deals' start, draw, discard. *)
Definition ev (n : string) (l : list (string * string)) : event := mkEvent (t_ n) (map (fun a => (t_ (fst a), t_ (snd a))) l).
Definition ex_record : list event :=
  [ev "SHUFFLE" [("seed", "mt19937ar-sha512-n288-base64,AAAA")];
   ev "GO" [("type", "169"); ("lobby", "0")];
   ev "UN" [("n0", "A"); ("n1", "B"); ("n2", "C"); ("n3", "D"); ("dan", "11,12,13,14"); ("rate", "1500.00,1600.50,1700.00,1800.00"); ("sx", "M,M,F,M")];
   ev "TAIKYOKU" [("oya", "0")];
   ev "INIT" [("seed", "0,0,0,3,5,100"); ("ten", "250,250,250,250"); ("oya", "0");
              ("hai0", "0,4,8,12,16,20,24,28,32,36,40,44,48"); ("hai1", "1,5,9,13,17,21,25,29,33,37,41,45,49");
              ("hai2", "2,6,10,14,18,22,26,30,34,38,42,46,50"); ("hai3", "3,7,11,15,19,23,27,31,35,39,43,47,51")];
   ev "T52" []; ev "D0" []; ev "U53" []; ev "E53" []; ev "V54" []; ev "REACH" [("who", "2"); ("step", "1")]]%string.
Example C48_example : exists cmds, to_commands (tenhou_command (fun s => s) (fun l => l)) false ex_record = Ok cmds /\
  length cmds = 85%nat /\ forallb (fun c => match c_sub c with SId i => (0 <=? i) && (i <=? 3) | _ => true end) cmds = true.
Proof. eexists. split; [vm_compute; reflexivity|]. vm_compute. auto. Qed.
Print Assumptions C48_order.
Print Assumptions C48_times.
Print Assumptions C38_record.
