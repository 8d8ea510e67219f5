(** The logs under tests/ of the repository meet the hypotheses of the theorems about logs. Each log is checked by a boolean
    function whose soundness LogCheck.v proves; then theorems are applied to all six. *)
From Verif Require Import Base Category Tile Parse Text Tenhou Event Const Reader Spec_Log Value Json Universe Translator TenhouCommands
  Spec_Universe Spec_Play Spec_Header Spec_Read Prop_Read Spec_Convert Prop_Convert Url Spec_Url Record Spec_Record Csv Spec_Csv Prop_Csv Spec_Seats Export Spec_Export Prop_Export
  Transfer Prop_Executor Logs LogCheck Spec_Strict StrictCheck Prop_Strict.
From Coq Require Import String List ZArith Lia Bool Permutation.
Import ListNotations.
Open Scope list_scope.
Open Scope Z_scope.

(** What the theorems about logs ask for, together. *)
Definition log_ok (es : list event) : Prop :=
  (exists n w acts, proper n w acts es) /\ (exists head ds, good_log head ds es) /\ Forall known es /\
  Forall (clean_event py_unquote) es /\ Forall seated es /\ Z.of_nat (length es) <= 2 ^ 63.
Definition log_ok_b (n w : Z) (es : list event) : bool :=
  proper_b n w es && good_log_b es && forallb known_b es && forallb (clean_b py_unquote) es && forallb seated_b es && (Z.of_nat (length es) <=? 2 ^ 63).
Lemma log_ok_is n w es : log_ok_b n w es = true -> log_ok es.
Proof.
  unfold log_ok_b. rewrite !andb_true_iff. intros [[[[[A B] C] D] E] F]. split; [exists n, w; now apply proper_is|]. split; [now apply good_log_is|].
  split; [exact (forallb_is _ _ _ known_is C)|]. split; [exact (forallb_is _ _ _ (clean_is py_unquote) D)|]. split; [exact (forallb_is _ _ _ seated_is E)|].
  exact (proj1 (Z.leb_le _ _) F).
Qed.
(** Three players and two winds in the first and the last, one wind in the second and the fourth. *)
Theorem tests_ok : Forall log_ok test_logs.
Proof.
  repeat apply Forall_cons; [apply (log_ok_is 3 2)|apply (log_ok_is 4 1)|apply (log_ok_is 4 2)|apply (log_ok_is 4 1)|apply (log_ok_is 4 2)|apply (log_ok_is 3 2)|apply Forall_nil];
    vm_compute; reflexivity.
Qed.
(** C71 and C96: all are read and converted, in strict mode too, in any order of sets. *)
Theorem tests_read_and_converted : Forall (fun es => (exists r, new_record es = Ok r) /\
  forall unquote so, (forall l, Permutation (so l) l) -> exists cmds, to_commands (tenhou_command unquote so) true es = Ok cmds) test_logs.
Proof.
  eapply Forall_impl; [|exact tests_ok]. intros es ((n & w & acts & Pr) & (head & ds & G) & K & _). split.
  - destruct (C71_reads _ _ _ G) as (r & R & _). exists r. exact R.
  - intros unquote so SO. exact (C96_strict unquote so n w acts es SO Pr K).
Qed.
(** C98 and C104: the converter script saves every one of them, and the clean loader gets the commands back. *)
Theorem tests_saved : Forall (fun es => forall semicolons so server base ps frag id none_too cast cuts,
  (forall l, Permutation (so l) l) -> trimmed (link base ps frag) -> plain_base base -> plain_params ps -> names_log ps id ->
  server (t_ "http://e.mjv.jp/0/log/?" ++ id) = Ok es ->
  exists file cmds cmds',
    main semicolons so server (link base ps frag) =
      Ok (id ++ t_ "_command.csv", file, t_ "command and state saved to '" ++ id ++ t_ "_command.csv" ++ t_ "'") /\
    to_commands (tenhou_command py_unquote so) false es = Ok cmds /\ read_clean_csv none_too cast cuts file = Ok cmds' /\ Forall2 same_header cmds cmds') test_logs.
Proof.
  eapply Forall_impl; [|exact tests_ok]. intros es ((n & w & acts & Pr) & (head & ds & G) & _ & Cl & Se & Ln) semicolons so server base ps frag id none_too cast cuts SO T Pb Pp Nl Sv.
  destruct (C104_script semicolons so server [] base ps frag [] id head ds es n w acts none_too cast cuts SO (Forall_nil _) (Forall_nil _) T Pb Pp Nl Sv G Pr Cl Se Ln)
    as (file & cmds & cmds' & M & H & _ & R & Hd & _).
  cbn [app] in M. rewrite app_nil_r in M. exists file, cmds, cmds'. auto.
Qed.

(** C111: all six are consistent, so their commands replay in strict mode, whatever the order of sets (tests/uni_record/test_executor.py 9-12). *)
Definition strict_ok_b (n w : Z) (es : list event) : bool :=
  proper_b n w es && forallb known_b es && forallb (whole_b n) es && forallb (players_b n) es && consistent_b py_unquote n [] es.
Lemma strict_ok_is n w es : strict_ok_b n w es = true -> forall so, (forall l, Permutation (so l) l) ->
  exists cmds snaps h, to_commands (tenhou_command py_unquote so) true es = Ok cmds /\ replay true cmds snaps h None /\ length snaps = length cmds.
Proof.
  unfold strict_ok_b. rewrite !andb_true_iff. intros [[[[A B] C] D] E] so SO. apply proper_is in A. destruct A as [acts A].
  destruct (C96_strict py_unquote so n w acts es SO A (forallb_is _ _ _ known_is B)) as [cmds H].
  destruct (C111_strict py_unquote so true n w acts es cmds SO A (forallb_is _ _ _ (whole_is n) C) (forallb_is _ _ _ (players_is n) D) H) as (snaps & h & err & R & K).
  destruct K as [(-> & L & _)|(_ & b & e & af & c & -> & _ & N & _)]; [exists cmds, snaps, h; auto|]. exfalso. apply N. apply consistent_is in E. exact (E b e af eq_refl).
Qed.
Theorem tests_strict : Forall (fun es => forall so, (forall l, Permutation (so l) l) ->
  exists cmds snaps h, to_commands (tenhou_command py_unquote so) true es = Ok cmds /\ replay true cmds snaps h None /\ length snaps = length cmds) test_logs.
Proof.
  repeat apply Forall_cons; [apply (strict_ok_is 3 2)|apply (strict_ok_is 4 1)|apply (strict_ok_is 4 2)|apply (strict_ok_is 4 1)|apply (strict_ok_is 4 2)|apply (strict_ok_is 3 2)|apply Forall_nil];
    vm_compute; reflexivity.
Qed.
