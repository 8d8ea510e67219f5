(** Properties C29 and C30: StageGroupby. Vocabulary in Spec_Stage.v. The key comparison
    [keqb] is any function deciding equality of keys. *)
From Verif Require Import Base Stage Spec_Stage StageProofs.
From Coq Require Import List ZArith Lia Bool Arith.
Import ListNotations.
Open Scope nat_scope.

(** ** C29: [list((k, list(g)) for k, g in StageGroupby(xs, *stages, key=key))] is the
    partition, with its keys; more fuel changes nothing. *)
Theorem C29_partition : forall (T K : Type) (keqb : K -> K -> bool), (forall a b, keqb a b = true <-> a = b) ->
  forall (key : T -> K) (stages : list K) (xs : list T),
  exists kgs, (forall fuel, 2 * length xs < fuel -> consume keqb key stages fuel (start xs) = Ok kgs) /\
    stage_partition key stages xs (map snd kgs) /\
    Forall (fun kg => group_key key stages (snd kg) (fst kg)) kgs.
Proof.
  intros T K keqb KE key stages xs.
  destruct (greedy_exists keqb key stages (length xs) xs (le_n _)) as (gs & G & E).
  assert (L : length gs <= length xs).
  { subst xs. clear -G. induction gs as [|[|x r] gs IH]; cbn in *; try lia. rewrite app_length. destruct G as [G _]. specialize (IH G). lia. }
  assert (C : forall fuel, 2 * length xs < fuel -> exists kgs, consume keqb key stages fuel (start xs) = Ok kgs /\ map snd kgs = gs /\
    Forall (fun kg => match snd kg with y :: _ => fst kg = startT keqb stages (key y) | [] => False end) kgs).
  { intros fuel Hf. rewrite <- E. apply (consume_related keqb KE key stages fuel _ (ideal_start gs)).
    - now apply rel_initial.
    - cbn. rewrite E. lia. }
  destruct (C (S (2 * length xs)) ltac:(lia)) as (kgs & E1 & M & F). exists kgs. split; [|split].
  - intros fuel Hf. destruct (C fuel Hf) as (kgs' & E2 & M' & F'). rewrite E2. f_equal.
    rewrite <- M in M'. clear -M' F F'. revert kgs' M' F'. induction F as [|[k g] kgs Hk F IH]; intros [|[k' g'] kgs'] M F'; try discriminate; auto.
    cbn in M. injection M as -> M. inversion F' as [|? ? Hk' F'']; subst. cbn [fst snd] in *. f_equal; [|now apply IH].
    destruct g as [|y g]; [destruct Hk|]. congruence.
  - rewrite M. split; auto. now apply greedy_spec in G.
  - eapply Forall_impl; [|exact F]. intros [k [|y g]]; cbn; [intros []|]. intros ->.
    unfold startT, new_target. pose proof (from_stage_spec keqb KE stages (key y)) as S.
    destruct (from_stage keqb stages (Some (key y))) as [l|]; [left|auto].
    destruct S as (b & r & A & B & ->). eauto.
Qed.
(** There is only one such partition. *)
Theorem C29_unique : forall (T K : Type) (keqb : K -> K -> bool), (forall a b, keqb a b = true <-> a = b) ->
  forall (key : T -> K) (stages : list K) (xs : list T) gs gs',
  stage_partition key stages xs gs -> stage_partition key stages xs gs' -> gs = gs'.
Proof.
  intros T K keqb KE key stages xs gs gs' (A & B) (A' & B'). apply (greedy_unique keqb key stages).
  - now apply greedy_spec.
  - now apply greedy_spec.
  - congruence.
Qed.
Example C29_ex : consume Nat.eqb (fun x => x) [1; 2; 3] 100 (start [1; 1; 3; 2; 7; 7; 2; 3; 1]) =
  Ok [(TStages [1; 2; 3], [1; 1; 3]); (TStages [2; 3], [2]); (TUnknown (Some 7), [7; 7]); (TStages [2; 3], [2; 3]); (TStages [1; 2; 3], [1])].
Proof. reflexivity. Qed.

(** ** C30: any sequence of calls behaves as the ideal machine over the partition. *)
Definition C30_statement (allowed : list op -> Prop) : Prop :=
  forall (T K : Type) (keqb : K -> K -> bool), (forall a b, keqb a b = true <-> a = b) ->
  forall (key : T -> K) (stages : list K) (xs : list T) gs ops,
  stage_partition key stages xs gs -> allowed ops ->
  map observe (run keqb key stages (start xs) ops) = ideal_run (ideal_start gs) ops.
Definition C30_full : Prop := C30_statement (fun _ => True).
(** True when elements are pulled from the group opened last only. *)
Theorem C30_partial : C30_statement (latest_only 0).
Proof.
  intros T K keqb KE key stages xs gs ops (A & B) L. rewrite <- A. apply (run_related keqb KE key stages ops _ _ 0); auto.
  apply rel_initial. now apply greedy_spec.
Qed.
(** False in general: here the element 2 is lost, though its group is asked for everything. *)
Definition lossy : list op := [Next; Pull 0; Next; Pull 0; Pull 1; Pull 1].
Theorem C30_refuted : stage_partition (fun x : nat => x) [1; 2; 3] [1; 2; 3] [[1; 2; 3]] /\
  stage_partition (fun x : nat => x) [] [1; 2; 2] [[1]; [2; 2]] /\
  map observe (run Nat.eqb (fun x => x) [] (start [1; 2; 2]) lossy) = [Opened; Element 1; Opened; End; Element 2; End] /\
  ideal_run (ideal_start [[1]; [2; 2]]) lossy = [Opened; Element 1; Opened; End; Element 2; Element 2].
Proof.
  split; [|split; [|split; reflexivity]].
  - destruct (C29_partition nat nat Nat.eqb Nat.eqb_eq (fun x => x) [1; 2; 3] [1; 2; 3]) as (k & A & B & _).
    specialize (A 7 ltac:(cbn; lia)). vm_compute in A. injection A as <-. exact B.
  - destruct (C29_partition nat nat Nat.eqb Nat.eqb_eq (fun x => x) [] [1; 2; 2]) as (k & A & B & _).
    specialize (A 7 ltac:(cbn; lia)). vm_compute in A. injection A as <-. exact B.
Qed.
Theorem C30_full_refuted : ~ C30_full.
Proof.
  intros H. destruct C30_refuted as (_ & P & E1 & E2).
  specialize (H nat nat Nat.eqb Nat.eqb_eq (fun x => x) [] [1; 2; 2] [[1]; [2; 2]] lossy P I). rewrite E1, E2 in H. discriminate.
Qed.
(** Whatever the schedule, no element is delivered twice or out of order. *)
Theorem C30_in_order : forall (T K : Type) (keqb : K -> K -> bool), (forall a b, keqb a b = true <-> a = b) ->
  forall (key : T -> K) (stages : list K) (xs : list T) ops,
  subsequence (delivered (map observe (run keqb key stages (start xs) ops))) xs.
Proof.
  intros T K keqb KE key stages xs ops.
  replace (delivered (map observe (run keqb key stages (start xs) ops))) with (flat_map given (run keqb key stages (start xs) ops)).
  - apply (run_inv keqb KE key stages ops false (start xs)). split; [discriminate|split; [|discriminate]].
    intros _. split; [reflexivity|discriminate].
  - unfold delivered. generalize (run keqb key stages (start xs) ops). induction l as [|[] l IH]; cbn; auto. now rewrite IH.
Qed.
Example C30_in_order_ex :
  delivered (map observe (run Nat.eqb (fun x => x) [] (start [1; 2; 2; 3]) [Next; Pull 0; Next; Pull 0; Pull 1; Pull 0; Next; Pull 2; Pull 1])) = [1; 2; 3].
Proof. reflexivity. Qed.
Example C30_partial_ex : latest_only 0 [Next; Pull 0; Next; Next; Pull 2; Pull 2; Next] /\
  map observe (run Nat.eqb (fun x => x) [1; 2] (start [1; 2; 1; 5; 5]) [Next; Pull 0; Next; Next; Pull 2; Pull 2; Next]) =
  [Opened; Element 1; Opened; Opened; Element 5; Element 5; Stop].
Proof. split; [cbn; auto 10|reflexivity]. Qed.

Print Assumptions C29_partition.
Print Assumptions C29_unique.
Print Assumptions C30_partial.
Print Assumptions C30_full_refuted.
Print Assumptions C30_in_order.
