(** Property C47: builder scopes are lexical. *)
From Verif Require Import Base Builder.
From Coq Require Import List ZArith Lia Bool.
Import ListNotations.

(** ** Specification: a lexically scoped reading of the same programs. An environment says what each field is bound to;
    a block extends the environment of its body only. *)
Section Spec.
Context {K V R : Type} (keqb : K -> K -> bool) (make : (K -> option V) -> res R).
Definition env := K -> option V.
(** The fields bound in [kw] take their value there. *)
Definition extend (e : env) (kw : list (K * V)) : env :=
  fun k => match kw_get keqb kw k with Some v => Some v | None => e k end.
Fixpoint lexical (e : env) (p : prog K V R) : list env * option exn :=
  match p with
  | Done => ([], None)
  | Raise x => ([], Some x)
  | Call kw k => let here := extend e kw in let '(l, o) := lexical e (k (make here)) in (here :: l, o)
  | When kw body k =>
    let '(l, o) := lexical (extend e kw) body in let '(l', o') := lexical e (k o) in (l ++ l', o')
  end.
(** Keyword dictionaries have no key twice (Python guarantees it). *)
Fixpoint proper (p : prog K V R) : Prop :=
  match p with
  | Done | Raise _ => True
  | Call kw k => NoDup (map fst kw) /\ forall r, proper (k r)
  | When kw body k => NoDup (map fst kw) /\ proper body /\ forall o, proper (k o)
  end.
End Spec.

(** ** Proofs. *)
Section Proofs.
Context {K V R : Type} (keqb : K -> K -> bool) (KE : forall a b, keqb a b = true <-> a = b).
Lemma keqb_refl : forall k, keqb k k = true. Proof. intros. now apply KE. Qed.
Lemma kw_get_put : forall (d : list (K * V)) k v j, kw_get keqb (kw_put keqb d k v) j = if keqb k j then Some v else kw_get keqb d j.
Proof.
  induction d as [|[k' v'] d IH]; intros k v j; cbn [kw_put kw_get]; auto. destruct (keqb k' k) eqn:E; cbn [kw_get].
  - apply KE in E. subst. destruct (keqb k j); auto.
  - rewrite IH. destruct (keqb k' j) eqn:E1; destruct (keqb k j) eqn:E2; auto. apply KE in E1, E2. subst.
    rewrite keqb_refl in E. discriminate.
Qed.
Lemma kw_get_notin : forall (d : list (K * V)) k, ~ In k (map fst d) -> kw_get keqb d k = None.
Proof.
  induction d as [|[k' v] d IH]; intros k H; cbn in *; auto. destruct (keqb k' k) eqn:E; [apply KE in E; tauto|]. apply IH. tauto.
Qed.
Lemma kw_update_get : forall (o d : list (K * V)) k, NoDup (map fst o) ->
  kw_get keqb (kw_update keqb d o) k = match kw_get keqb o k with Some v => Some v | None => kw_get keqb d k end.
Proof.
  unfold kw_update. induction o as [|[k' v] o IH]; intros d k N; cbn [fold_left kw_get fst snd]; auto.
  inversion N as [|? ? N1 N2]; subst. rewrite IH by auto. rewrite kw_get_put. destruct (keqb k' k) eqn:E; auto.
  apply KE in E. subst. now rewrite kw_get_notin.
Qed.
Lemma merged_snoc : forall (s : list (list (K * V))) kw k, NoDup (map fst kw) ->
  kw_get keqb (merged_dict keqb (enter s kw)) k = extend keqb (kw_get keqb (merged_dict keqb s)) kw k.
Proof. intros s kw k N. unfold merged_dict, enter. rewrite fold_left_app. cbn [fold_left]. now apply kw_update_get. Qed.
Lemma exit_enter : forall (s : list (list (K * V))) kw, exit_ (enter s kw) = Ok s.
Proof. intros s kw. unfold exit_, enter. rewrite rev_app_distr. cbn. now rewrite rev_involutive. Qed.
Lemma lexical_ext : forall make (RM : forall g h, (forall k, g k = h k) -> make g = make h) (p : prog K V R) e e', (forall k, e k = e' k) ->
  Forall2 (fun a b => forall k, a k = b k) (fst (lexical keqb make e p)) (fst (lexical keqb make e' p)) /\
  snd (lexical keqb make e p) = snd (lexical keqb make e' p).
Proof.
  intros make RM. induction p as [|x|kw k IH|kw body IHb k IHk]; intros e e' E; cbn [lexical].
  - split; constructor.
  - split; constructor.
  - assert (X : forall j, extend keqb e kw j = extend keqb e' kw j) by (intros j; unfold extend; now rewrite E).
    rewrite (RM _ _ X). destruct (IH (make (extend keqb e' kw)) e e' E) as [A B].
    destruct (lexical keqb make e (k _)), (lexical keqb make e' (k _)). cbn [fst snd] in *. split; auto. 
  - assert (X : forall j, extend keqb e kw j = extend keqb e' kw j) by (intros j; unfold extend; now rewrite E).
    destruct (IHb _ _ X) as [A B]. destruct (lexical keqb make (extend keqb e kw) body) as [l o], (lexical keqb make (extend keqb e' kw) body) as [l2 o2].
    cbn [fst snd] in *. subst o2. destruct (IHk o e e' E) as [C D].
    destruct (lexical keqb make e (k o)), (lexical keqb make e' (k o)). cbn [fst snd] in *. split; auto. now apply Forall2_app.
Qed.
End Proofs.

(** ** C47. Any program, started with any stack: the run ends as the lexical reading says, the constructor
    gets exactly the lexical bindings at every call, and the stack is left as it was found -- also when exceptions leave
    blocks. ([make] is the constructor; it sees its keyword arguments only.) *)
Theorem C47_lexical : forall (K V R : Type) (keqb : K -> K -> bool), (forall a b, keqb a b = true <-> a = b) ->
  forall (make : (K -> option V) -> res R), (forall g h, (forall k, g k = h k) -> make g = make h) ->
  forall (p : prog K V R) stack, proper p ->
  exists log, run keqb (fun kw => make (kw_get keqb kw)) stack p =
      Ok (log, snd (lexical keqb make (kw_get keqb (merged_dict keqb stack)) p), stack) /\
    Forall2 (fun kw e => forall k, kw_get keqb kw k = e k) log (fst (lexical keqb make (kw_get keqb (merged_dict keqb stack)) p)).
Proof.
  intros K V R keqb KE make RM. induction p as [|x|kw k IH|kw body IHb k IHk]; intros stack P; cbn [run lexical].
  - exists []. split; constructor.
  - exists []. split; constructor.
  - destruct P as [N P]. unfold call. rewrite exit_enter. cbn [bindr].
    set (e := kw_get keqb (merged_dict keqb stack)).
    assert (E : forall j, kw_get keqb (merged_dict keqb (enter stack kw)) j = extend keqb e kw j) by (intros; now apply merged_snoc).
    rewrite (RM _ _ E). destruct (IH (make (extend keqb e kw)) stack (P _)) as (log & Q & F). fold e in Q, F. rewrite Q. cbn [bindr].
    destruct (lexical keqb make e (k (make (extend keqb e kw)))) as [l o]. cbn [fst snd] in *.
    exists (merged_dict keqb (enter stack kw) :: log). split; auto.
  - destruct P as (N & Pb & Pk). set (e := kw_get keqb (merged_dict keqb stack)).
    destruct (IHb (enter stack kw) Pb) as (log & Q & F). rewrite Q. cbn [bindr]. rewrite exit_enter. cbn [bindr].
    assert (E : forall j, kw_get keqb (merged_dict keqb (enter stack kw)) j = extend keqb e kw j) by (intros; now apply merged_snoc).
    destruct (lexical_ext keqb make RM body _ _ E) as [X1 X2].
    destruct (lexical keqb make (kw_get keqb (merged_dict keqb (enter stack kw))) body) as [l1 o1].
    destruct (lexical keqb make (extend keqb e kw) body) as [l o]. cbn [fst snd] in *. subst o1.
    destruct (IHk o stack (Pk o)) as (log' & Q' & F'). fold e in Q', F'. rewrite Q'. cbn [bindr].
    destruct (lexical keqb make e (k o)) as [l' o']. cbn [fst snd] in *. exists (log ++ log'). split; auto.
    apply Forall2_app; auto. clear -F X1. revert l X1. induction F as [|a b la lb H F IH]; intros l X; inversion X; subst; constructor; auto.
    intros j. rewrite H. auto.
Qed.
(** In particular: after a block that was left by an exception, the bindings are as before. *)
Theorem C47_restored : forall (K V R : Type) (keqb : K -> K -> bool), (forall a b, keqb a b = true <-> a = b) ->
  forall (make : (K -> option V) -> res R), (forall g h, (forall k, g k = h k) -> make g = make h) ->
  forall (body : prog K V R) kw stack, proper (When kw body (fun _ => Done)) ->
  exists log out, run keqb (fun d => make (kw_get keqb d)) stack (When kw body (fun _ => Done)) = Ok (log, out, stack).
Proof.
  intros K V R keqb KE make RM body kw stack P. destruct (C47_lexical K V R keqb KE make RM _ stack P) as (log & Q & _). eauto.
Qed.
(** Fields 0 and 1, nested blocks, the constructor fails when field 1 is 9; then a call after the blocks. *)
Definition ex_make (e : nat -> option nat) : res nat :=
  match e 1%nat with Some 9%nat => Err ValueError | Some n => Ok n | None => Ok 0%nat end.
Definition ex_prog : prog nat nat nat :=
  When [(0, 5); (1, 1)]%nat
    (Call [] (fun _ => When [(1, 9)]%nat (Call [(0, 7)]%nat (fun r => match r with Err e => Raise e | Ok _ => Done end)) (fun o => match o with Some e => Raise e | None => Done end)))
    (fun _ => Call [(1, 2)]%nat (fun _ => Done)).
Example C47_ex : proper ex_prog /\
  run Nat.eqb (fun d => ex_make (kw_get Nat.eqb d)) [] ex_prog = Ok ([[(0, 5); (1, 1)]; [(0, 7); (1, 9)]; [(1, 2)]]%nat, None, []).
Proof.
  split; [|reflexivity]. cbn. repeat split; try (repeat constructor; cbn; intuition discriminate); auto.
  - intros [a|e]; exact I.
  - intros [e|]; exact I.
Qed.

Print Assumptions C47_lexical.
Print Assumptions C47_restored.
