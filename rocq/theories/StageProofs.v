(** Proofs about StageGroupby. *)
From Verif Require Import Base Stage Spec_Stage.
From Coq Require Import List ZArith Lia Bool Arith.
Import ListNotations.
Open Scope nat_scope.

Section P.
Context {T K : Type} (keqb : K -> K -> bool) (keqb_iff : forall a b, keqb a b = true <-> a = b) (key : T -> K) (stages : list K).

Notation accepted := (stage_accepted keqb).
(** One key against a target: the target afterwards, if it is accepted. *)
Definition stepT (t : target K) (k : K) : option (target K) :=
  match accepted t (Some k) with (true, t') => Some t' | (false, _) => None end.
Fixpoint runT (t : target K) (ks : list K) : option (target K) :=
  match ks with [] => Some t | k :: r => match stepT t k with Some t' => runT t' r | None => None end end.

Lemma keqb_refl : forall k, keqb k k = true.
Proof. intros k. now apply keqb_iff. Qed.
Lemma drop_found : forall l k l', drop_stages keqb l (Some k) = (true, l') -> exists r, l' = k :: r.
Proof.
  induction l as [|s l IH]; intros k l' H; [discriminate|]. cbn [drop_stages okeqb] in H.
  destruct (keqb k s) eqn:E; [apply keqb_iff in E; injection H as <-; subst; eauto|eauto].
Qed.
Lemma stepT_idem : forall t k t', stepT t k = Some t' -> accepted t' (Some k) = (true, t').
Proof.
  intros [v|l] k t'; unfold stepT; cbn [stage_accepted].
  - destruct (okeqb keqb v (Some k)) eqn:E; [|discriminate]. intros [= <-]. cbn [stage_accepted]. now rewrite E.
  - destruct (drop_stages keqb l (Some k)) as [b l'] eqn:E. destruct b; [|discriminate]. intros [= <-].
    destruct (drop_found _ _ _ E) as [r ->]. cbn [stage_accepted drop_stages okeqb]. now rewrite keqb_refl.
Qed.
Definition startT (k : K) : target K := new_target keqb stages (Some k).
Lemma from_stage_spec : forall l k, match from_stage keqb l (Some k) with
  | Some l' => exists before r, l = before ++ k :: r /\ ~ In k before /\ l' = k :: r
  | None => ~ In k l end.
Proof.
  induction l as [|s l IH]; intros k; cbn [from_stage okeqb]; [intros []|].
  destruct (keqb s k) eqn:E.
  - apply keqb_iff in E. subst. exists [], l. auto.
  - assert (N : s <> k) by (intros ->; rewrite keqb_refl in E; discriminate). specialize (IH k).
    destruct (from_stage keqb l (Some k)) as [l'|].
    + destruct IH as (before & r & -> & A & ->). exists (s :: before), r. split; auto. split; auto. intros [B|B]; auto.
    + intros [B|B]; auto.
Qed.
Lemma start_accepts : forall k, accepted (startT k) (Some k) = (true, startT k).
Proof.
  intros k. unfold startT, new_target. pose proof (from_stage_spec stages k) as F.
  destruct (from_stage keqb stages (Some k)) as [l'|].
  - destruct F as (b & r & _ & _ & ->). cbn [stage_accepted drop_stages okeqb]. now rewrite keqb_refl.
  - cbn [stage_accepted okeqb]. now rewrite keqb_refl.
Qed.

(** Greedy partitions. *)
Fixpoint greedy (gs : list (list T)) : Prop :=
  match gs with
  | [] => True
  | [] :: _ => False
  | (x :: r) :: gs' =>
    greedy gs' /\
    exists t, runT (startT (key x)) (map key r) = Some t /\
      match gs' with (y :: _) :: _ => stepT t (key y) = None | _ => True end
  end.

(** ** The machine against the ideal one. *)
(** What is left of the open group is [r]; the target is [t]; then come [todo]. *)
Definition ahead (t : target K) (r : list T) (todo : list (list T)) : Prop :=
  greedy todo /\ exists t1, runT t (map key r) = Some t1 /\
    match todo with (y :: _) :: _ => stepT t1 (key y) = None | _ => True end.

Lemma skip_ahead : forall r t todo v k, accepted t (Some k) = (true, t) -> ahead t r todo ->
  match todo with
  | [] => exists t' v' k', skip keqb key t v (Some k) (r ++ concat todo) = (t', v', Some k', None) /\ accepted t' (Some k') = (true, t')
  | (y :: g) :: gs => exists t', skip keqb key t v (Some k) (r ++ concat todo) = (t', Some y, Some (key y), Some (g ++ concat gs))
  | [] :: _ => False
  end.
Proof.
  induction r as [|x r IH]; intros t todo v k A (G & t1 & R & N).
  - cbn [map runT] in R. injection R as <-. cbn [app]. destruct todo as [|[|y g] gs].
    + cbn [concat skip]. rewrite A. eauto 6.
    + destruct G.
    + cbn [concat app]. cbn [skip]. rewrite A. unfold stepT in N.
      destruct (accepted t (Some (key y))) as [b t'] eqn:E. destruct b; [discriminate|].
      destruct (g ++ concat gs); cbn [skip]; rewrite E; eauto.
  - cbn [map runT] in R. destruct (stepT t (key x)) as [t'|] eqn:E; [|discriminate].
    cbn [app]. 
    assert (Q : skip keqb key t v (Some k) (x :: r ++ concat todo) = skip keqb key t (Some x) (Some (key x)) (r ++ concat todo)).
    { cbn [skip]. now rewrite A. }
    rewrite Q. pose proof (stepT_idem _ _ _ E) as A'.
    assert (Q' : skip keqb key t (Some x) (Some (key x)) (r ++ concat todo) = skip keqb key t' (Some x) (Some (key x)) (r ++ concat todo)).
    { unfold stepT in E. destruct (accepted t (Some (key x))) as [b t''] eqn:E'. destruct b; [|discriminate]. injection E as ->.
      destruct (r ++ concat todo); cbn [skip]; now rewrite E', A'. }
    rewrite Q'. apply (IH t' todo (Some x) (key x)); auto. split; auto. exists t1. auto.
Qed.

Definition last_gen (s : st T K) (n : nat) (g : gen) : Prop := exists l, groups s = l ++ [g] /\ length l = n.
Inductive related (s : st T K) (d : ideal T) : Prop :=
| rel_start : opened d = 0 -> groups s = [] -> cur s = None -> open d = None -> rest d = [] ->
    tgtkey s = TUnknown None -> currkey s = None -> it s = concat (todo d) -> greedy (todo d) -> related s d
| rel_new : forall x r n, opened d = S n -> open d = Some n -> cur s = Some n -> last_gen s n GNew ->
    rest d = x :: r -> currvalue s = Some x -> currkey s = Some (key x) -> accepted (tgtkey s) (Some (key x)) = (true, tgtkey s) ->
    ahead (tgtkey s) r (todo d) -> it s = r ++ concat (todo d) -> related s d
| rel_suspended : forall k n, opened d = S n -> open d = Some n -> cur s = Some n -> last_gen s n GSuspended ->
    currkey s = Some k -> accepted (tgtkey s) (Some k) = (true, tgtkey s) ->
    ahead (tgtkey s) (rest d) (todo d) -> it s = rest d ++ concat (todo d) -> related s d
| rel_done : forall y g gs n t', opened d = S n -> open d = Some n -> cur s = Some n -> last_gen s n GDone -> rest d = [] ->
    todo d = (y :: g) :: gs -> greedy (todo d) -> currvalue s = Some y -> currkey s = Some (key y) ->
    accepted (tgtkey s) (Some (key y)) = (false, t') -> it s = g ++ concat gs -> related s d
| rel_exhausted : forall k n, opened d = n -> length (groups s) = n -> rest d = [] -> todo d = [] ->
    (cur s = None /\ open d = None \/ exists m, n = S m /\ cur s = Some m /\ open d = Some m /\ last_gen s m GDone) ->
    accepted (tgtkey s) k = (true, tgtkey s) -> currkey s = k -> it s = [] -> related s d.

Lemma greedy_cons : forall y g gs, greedy ((y :: g) :: gs) -> ahead (startT (key y)) g gs.
Proof. intros y g gs (G & t & R & N). split; eauto. Qed.
Lemma skip_reject : forall t v k l t', accepted t k = (false, t') -> skip keqb key t v k l = (t', v, k, Some l).
Proof. intros t v k l t' A. destruct l; cbn [skip]; now rewrite A. Qed.

Lemma related_len : forall s d, related s d -> length (groups s) = opened d.
Proof.
  intros s d [A B|x r n A B C (l & D & E)|k n A B C (l & D & E)|y g gs n t' A B C (l & D & E)|k n A B].
  - now rewrite A, B.
  - rewrite D, app_length, A, E. cbn. lia.
  - rewrite D, app_length, A, E. cbn. lia.
  - rewrite D, app_length, A, E. cbn. lia.
  - congruence.
Qed.
Lemma set_nth_last : forall A (l : list A) a b, set_nth (l ++ [a]) (length l) b = l ++ [b].
Proof. induction l as [|x l IH]; intros a b; auto. cbn [app length set_nth]. now rewrite IH. Qed.
Lemma nth_last : forall A (l : list A) a, nth_error (l ++ [a]) (length l) = Some a.
Proof. intros. rewrite nth_error_app2, Nat.sub_diag by lia. reflexivity. Qed.

Lemma next_related : forall s d, related s d ->
  let '(o, s') := next_group keqb key stages s in let '(a, d') := ideal_step d Next in
  observe o = a /\ related s' d' /\
  (forall t, o = OGroup t -> exists y g gs, todo d = (y :: g) :: gs /\ t = startT (key y) /\ rest d' = y :: g).
Proof.
  intros s d R. pose proof (related_len s d R) as Len.
  assert (Open : forall y g gs t0, greedy (todo d) -> todo d = (y :: g) :: gs ->
    skip keqb key (tgtkey s) (currvalue s) (currkey s) (it s) = (t0, Some y, Some (key y), Some (g ++ concat gs)) ->
    let '(o, s') := next_group keqb key stages s in let '(a, d') := ideal_step d Next in
    observe o = a /\ related s' d' /\
    (forall t, o = OGroup t -> exists y g gs, todo d = (y :: g) :: gs /\ t = startT (key y) /\ rest d' = y :: g)).
  { intros y g gs t0 G E Sk. unfold next_group. rewrite Sk. cbn [ideal_step]. rewrite E. cbn [observe]. split; auto. split.
    - rewrite E in G. pose proof (greedy_cons _ _ _ G) as Ah. eapply rel_new with (x := y) (r := g) (n := opened d); cbn; auto.
      + exists (groups s). cbn. auto.
      + apply start_accepts.
    - intros t [= <-]. exists y, g, gs. auto. }
  assert (Stop : forall t v k, todo d = [] -> skip keqb key (tgtkey s) (currvalue s) (currkey s) (it s) = (t, v, k, None) ->
    accepted t k = (true, t) ->
    let '(o, s') := next_group keqb key stages s in let '(a, d') := ideal_step d Next in
    observe o = a /\ related s' d' /\
    (forall t, o = OGroup t -> exists y g gs, todo d = (y :: g) :: gs /\ t = startT (key y) /\ rest d' = y :: g)).
  { intros t v k E Sk A. unfold next_group. rewrite Sk. cbn [ideal_step]. rewrite E. cbn [observe]. split; auto. split; [|discriminate].
    eapply rel_exhausted with (k := k); cbn; eauto. }
  inversion R as [A B C D E F G H I|x r n A B C D E F G H I J|k n A B C D E F G H|y g gs n t' A B C D E F G H I J L|k n A B C D E F G H].
  - (* first group *)
    destruct (todo d) as [|[|y g] gs] eqn:Td.
    + apply (Stop (TUnknown None) (currvalue s) None); auto. rewrite F, G, H. reflexivity.
    + destruct I.
    + eapply (Open y g gs (TUnknown None)); auto. rewrite F, G, H. cbn [concat app skip stage_accepted okeqb].
      destruct (g ++ concat gs); reflexivity.
  - (* open group not started: currvalue is its first element *)
    pose proof (skip_ahead r (tgtkey s) (todo d) (currvalue s) (key x) H I) as Sk. rewrite J, G in *. destruct I as (I & _).
    destruct (todo d) as [|[|y g] gs] eqn:Td.
    + destruct Sk as (t' & v' & k' & Sk & Sa). now apply (Stop t' v' (Some k')).
    + destruct Sk.
    + destruct Sk as (t' & Sk). now apply (Open y g gs t').
  - pose proof (skip_ahead (rest d) (tgtkey s) (todo d) (currvalue s) k F G) as Sk. rewrite H, E in *. destruct G as (G & _).
    destruct (todo d) as [|[|y g] gs] eqn:Td.
    + destruct Sk as (t' & v' & k' & Sk & Sa). now apply (Stop t' v' (Some k')).
    + destruct Sk.
    + destruct Sk as (t' & Sk). now apply (Open y g gs t').
  - eapply (Open y g gs t'); auto. rewrite I, L, H. now apply skip_reject.
  - apply (Stop (tgtkey s) (currvalue s) k); auto. rewrite H, G. cbn [skip]. now rewrite F.
Qed.

Lemma pull_related : forall s d i, related s d -> S i = opened d \/ opened d <= i ->
  let '(o, s') := pull keqb key s i in let '(a, d') := ideal_step d (Pull i) in
  observe o = a /\ related s' d'.
Proof.
  intros s d i R Hi. pose proof (related_len s d R) as Len. unfold pull. destruct Hi as [Hi|Hi].
  2:{ replace (nth_error (groups s) i) with (@None gen) by (symmetry; apply nth_error_None; lia). cbn [ideal_step].
      assert (E : match open d with Some j => i =? j | None => false end = false).
      { inversion R as [A B C D|x r n A B|k n A B|y g gs n t' A B|k n A B C D E]; try (rewrite B; apply Nat.eqb_neq; lia).
        - now rewrite D.
        - destruct E as [[_ ->]|(m & M & _ & -> & _)]; auto. apply Nat.eqb_neq. lia. }
      rewrite E. cbn. auto. }
  inversion R as [A B C D E F G H I|x r n A B C (l & L1 & L2) E F G H I J|k n A B C (l & L1 & L2) E F G H|y g gs n t' A B C (l & L1 & L2) E F G H I J L|k n A B C D E F G H].
  - lia.
  - assert (i = n) by lia. subst i n. rewrite L1, nth_last. unfold test_group. rewrite C, Nat.eqb_refl, G, H, F.
    cbn [ideal_step]. rewrite B, Nat.eqb_refl, E. cbn [observe]. split; auto.
    eapply rel_suspended with (n := length l) (k := key x); cbn; auto. exists l. cbn [groups]. rewrite ?L1, set_nth_last. auto.
  - assert (i = n) by lia. subst i n. rewrite L1, nth_last. cbn [ideal_step]. rewrite B, Nat.eqb_refl.
    destruct (rest d) as [|x r] eqn:Rd.
    + destruct G as (G & t1 & R1 & N). cbn [map runT] in R1. injection R1 as <-. rewrite H. cbn [app].
      destruct (todo d) as [|[|y g] gs] eqn:Td.
      * cbn [concat]. cbn [observe]. split; auto. eapply rel_exhausted with (k := Some k); cbn; eauto.
        -- rewrite ?L1, set_nth_last, app_length in *. cbn in *. lia.
        -- right. exists (length l). split; [|split; [auto|split; [auto|exists l; cbn; rewrite ?L1, set_nth_last; auto]]]. lia.
      * destruct G.
      * cbn [concat app]. unfold test_group. cbn [cur tgtkey currkey currvalue it groups]. rewrite C, Nat.eqb_refl.
        unfold stepT in N. destruct (accepted (tgtkey s) (Some (key y))) as [b t'] eqn:Ey. destruct b; [discriminate|].
        cbn [observe]. split; auto.
        assert (Em : exists t'', accepted t' (Some (key y)) = (false, t'')).
        { clear -Ey keqb_iff. destruct (tgtkey s) as [v|l0]; cbn [stage_accepted] in *; [injection Ey as E1 <-; cbn [stage_accepted]; rewrite E1; eauto|].
          destruct (drop_stages keqb l0 (Some (key y))) as [b l1] eqn:E. injection Ey as -> <-.
          assert (l1 = []) as ->; [|eexists; reflexivity].
          clear -E. induction l0 as [|z l0 IH]; cbn [drop_stages] in E; [congruence|]. destruct (okeqb keqb (Some (key y)) (Some z)); [discriminate|auto]. }
        destruct Em as [t'' Em].
        eapply rel_done with (n := length l); cbn; eauto.
        -- exists l. cbn. rewrite ?L1, set_nth_last. auto.
        -- now rewrite Td.
    + destruct G as (G & t1 & R1 & N). cbn [map runT] in R1. destruct (stepT (tgtkey s) (key x)) as [t'|] eqn:E'; [|discriminate].
      rewrite H. cbn [app]. unfold test_group. cbn [cur tgtkey currkey currvalue it groups]. rewrite C, Nat.eqb_refl.
      pose proof (stepT_idem _ _ _ E') as Id. unfold stepT in E'. destruct (accepted (tgtkey s) (Some (key x))) as [b t''] eqn:Ex.
      destruct b; [|discriminate]. injection E' as ->. cbn [observe]. split; auto.
      eapply rel_suspended with (n := length l) (k := key x); cbn; auto.
      * exists l. cbn. rewrite ?L1, set_nth_last. auto.
      * split; eauto.
  - assert (i = n) by lia. subst i n. rewrite L1, nth_last. cbn [ideal_step]. rewrite B, Nat.eqb_refl, E. cbn. auto.
  - cbn [ideal_step].
    destruct E as [[E1 E2]|(m & M & E1 & E2 & (l & L1 & L2))].
    + rewrite E2.
      assert (Fin : forall g, related (mkSt [] (currvalue s) (currkey s) (tgtkey s) (cur s) (set_nth (groups s) i g)) d).
      { intros g0. eapply rel_exhausted with (k := k); cbn; eauto. clear -B. revert B. generalize (groups s). intros l0 <-.
        revert i. induction l0 as [|z l0 IH]; intros [|i]; cbn; auto. }
      destruct (nth_error (groups s) i) as [[| |]|]; cbn [observe]; auto.
      * unfold test_group. rewrite E1. cbn [observe]. rewrite H, <- E1. auto.
      * rewrite H. cbn [observe]. auto.
    + rewrite E2. assert (i = m) by lia. subst i. rewrite L1, <- L2, nth_last, Nat.eqb_refl, C. cbn. auto.
Qed.

Lemma rel_initial : forall gs, greedy gs -> related (start (K := K) (concat gs)) (ideal_start gs).
Proof. intros gs G. apply rel_start; auto. Qed.

(** Schedules that pull from the last group only. *)
Lemma run_related : forall ops s d n, related s d -> opened d <= n -> (opened d = n \/ open d = None /\ todo d = []) -> latest_only n ops ->
  map observe (run keqb key stages s ops) = ideal_run d ops.
Proof.
  induction ops as [|o ops IH]; intros s d n R Hn Hd L; auto. cbn [run ideal_run].
  destruct o as [|i].
  - cbn [step]. pose proof (next_related s d R) as N. destruct (next_group keqb key stages s) as [o s'].
    destruct (ideal_step d Next) as [a d'] eqn:E. destruct N as (O & R' & _). cbn [map]. rewrite O. f_equal.
    cbn [latest_only] in L. apply (IH s' d' (S n)); auto.
    + cbn [ideal_step] in E. destruct (todo d); injection E as <- <-; cbn; lia.
    + cbn [ideal_step] in E. destruct (todo d) eqn:Td; injection E as <- <-; cbn; [auto|].
      left. destruct Hd as [Hd|[_ Hd]]; [lia|congruence].
  - cbn [step]. cbn [latest_only] in L. destruct L as [Li L].
    assert (Hi : S i = opened d \/ opened d <= i) by (destruct Hd as [Hd|[_ Hd]]; lia).
    pose proof (pull_related s d i R Hi) as N. destruct (pull keqb key s i) as [o s'].
    destruct (ideal_step d (Pull i)) as [a d'] eqn:E. destruct N as (O & R'). cbn [map]. rewrite O. f_equal.
    assert (Q : opened d' = opened d /\ open d' = open d /\ todo d' = todo d).
    { cbn [ideal_step] in E. destruct (match open d with Some j => i =? j | None => false end); [destruct (rest d)|]; injection E as <- <-; auto. }
    destruct Q as (Q1 & Q2 & Q3). apply (IH s' d' n); auto; [lia|]. rewrite Q1, Q2, Q3. auto.
Qed.

(** ** Full consumption. *)
Lemma drain_related : forall fuel s d i, related s d -> open d = Some i -> opened d = S i -> length (rest d) < fuel ->
  exists s', drain keqb key fuel s i = Ok (rest d, s') /\ related s' (mkIdeal (todo d) [] (open d) (opened d)).
Proof.
  induction fuel as [|f IH]; intros s d i R O N F; [lia|]. cbn [drain].
  pose proof (pull_related s d i R (or_introl (eq_sym N))) as P.
  destruct (pull keqb key s i) as [o s']. cbn [ideal_step] in P. rewrite O, Nat.eqb_refl in P.
  destruct (rest d) as [|x r] eqn:Rd.
  - destruct P as [P R']. destruct o; try discriminate. exists s'. split; auto. destruct d as [td rs op on]. cbn in *. subst. exact R'.
  - destruct P as [P R']. destruct o as [| |x'|]; try discriminate. injection P as ->.
    destruct (IH s' _ i R' eq_refl N ltac:(cbn in *; lia)) as (s'' & E & R''). cbn [rest todo open opened] in *.
    rewrite E. cbn [bindr fst snd]. rewrite O. eauto.
Qed.
Lemma consume_related : forall fuel s d, related s d -> length (concat (todo d)) + length (todo d) < fuel ->
  exists kgs, consume keqb key stages fuel s = Ok kgs /\ map snd kgs = todo d /\
    Forall (fun kg => match snd kg with y :: _ => fst kg = startT (key y) | [] => False end) kgs.
Proof.
  induction fuel as [|f IH]; intros s d R F; [lia|]. cbn [consume].
  pose proof (next_related s d R) as P. destruct (next_group keqb key stages s) as [o s'].
  cbn [ideal_step] in P. destruct (todo d) as [|g gs] eqn:Td.
  - destruct P as (P & _). destruct o; try discriminate. exists []. auto.
  - destruct P as (P & R' & K'). destruct o as [|t| |]; try discriminate. rewrite (related_len s d R).
    cbn [concat length] in F. rewrite app_length in F.
    destruct (drain_related f s' _ (opened d) R' eq_refl eq_refl ltac:(cbn; lia)) as (s'' & E & R''). rewrite E. cbn [bindr fst snd].
    cbn [todo rest open opened] in R''.
    destruct (IH s'' _ R'' ltac:(cbn; lia)) as (kgs & E' & M & Fk). rewrite E'. cbn [bindr].
    exists ((t, g) :: kgs). cbn [map snd todo] in *. split; auto. split; [now rewrite M|]. constructor; auto. cbn [snd fst].
    destruct (K' t eq_refl) as (y & g' & gs' & E1 & E2 & E3). injection E1 as -> ->. auto.
Qed.
End P.

Section Q.
Context {T K : Type} (keqb : K -> K -> bool) (keqb_iff : forall a b, keqb a b = true <-> a = b) (key : T -> K) (stages : list K).
Notation F l ks := (exists ps, non_decreasing ps /\ Forall2 (fun p (k : K) => nth_error l p = Some k) ps ks).

Lemma ndec_cons : forall a l, non_decreasing (a :: l) <-> Forall (le a) l /\ non_decreasing l.
Proof.
  intros a l. split.
  - revert a. induction l as [|b l IH]; intros a H; [split; constructor|]. destruct H as [A B]. destruct (IH b B) as [C D].
    split; [|exact B]. constructor; auto. eapply Forall_impl; [|exact C]. cbn. intros; lia.
  - intros [A B]. destruct l as [|b l]; [constructor|]. split; [now inversion A|exact B].
Qed.
Lemma ndec_map : forall (f : nat -> nat) l, (forall a b, a <= b -> f a <= f b) -> non_decreasing l -> non_decreasing (map f l).
Proof.
  intros f l H. induction l as [|a l IH]; auto. intros N. cbn [map]. rewrite ndec_cons in *. destruct N as [A B]. split; auto.
  apply Forall_forall. intros x X. apply in_map_iff in X as (y & <- & Y). rewrite Forall_forall in A. apply H. auto.
Qed.
Lemma F_none : forall (l : list K) k ks, ~ In k l -> ~ F l (k :: ks).
Proof. intros l k ks N (ps & _ & H). inversion H; subst. eapply N, nth_error_In. eauto. Qed.
Lemma F_first : forall (pre r : list K) k ks, ~ In k pre -> (F (pre ++ k :: r) (k :: ks) <-> F (k :: r) ks).
Proof.
  intros pre r k ks N. split.
  - intros (ps & D & H). inversion H as [|p ? ps' ? Hp H']; subst. apply ndec_cons in D as [D1 D2].
    assert (P : length pre <= p).
    { destruct (le_lt_dec (length pre) p); auto. rewrite nth_error_app1 in Hp by lia. apply nth_error_In in Hp. contradiction. }
    exists (map (fun q => q - length pre) ps'). split; [apply ndec_map; auto; intros; lia|].
    clear -D1 H' P. induction H' as [|q k' ps ks Hq H' IH]; cbn [map]; constructor.
    + inversion D1; subst. now rewrite nth_error_app2 in Hq by lia.
    + apply IH. now inversion D1.
  - intros (ps & D & H). exists (length pre :: map (fun q => length pre + q) ps). split.
    + rewrite ndec_cons. split; [|apply ndec_map; auto; intros; lia]. apply Forall_forall. intros x X.
      apply in_map_iff in X as (y & <- & _). lia.
    + constructor; [rewrite nth_error_app2, Nat.sub_diag by lia; reflexivity|].
      clear -H. induction H; cbn [map]; constructor; auto.
      rewrite nth_error_app2 by lia. replace (length pre + x - length pre) with x by lia. auto.
Qed.
Lemma drop_spec : forall l k, match drop_stages keqb l (Some k) with
  | (true, l') => exists pre r, l = pre ++ k :: r /\ ~ In k pre /\ l' = k :: r
  | (false, _) => ~ In k l end.
Proof.
  induction l as [|s l IH]; intros k; cbn [drop_stages okeqb]; [intros []|]. destruct (keqb k s) eqn:E.
  - apply keqb_iff in E. subst. exists [], l. auto.
  - assert (N : s <> k) by (intros ->; rewrite (proj2 (keqb_iff k k) eq_refl) in E; discriminate). specialize (IH k).
    destruct (drop_stages keqb l (Some k)) as [[|] l'].
    + destruct IH as (pre & r & -> & A & ->). exists (s :: pre), r. split; auto. split; auto. intros [B|B]; auto.
    + intros [B|B]; auto.
Qed.
Lemma run_stages : forall ks l, (exists t, runT keqb (TStages l) ks = Some t) <-> F l ks.
Proof.
  induction ks as [|k ks IH]; intros l.
  - split; [|cbn; eauto]. intros _. exists []. split; constructor.
  - cbn [runT]. unfold stepT. cbn [stage_accepted]. pose proof (drop_spec l k) as D.
    destruct (drop_stages keqb l (Some k)) as [[|] l'].
    + destruct D as (pre & r & -> & N & ->). now rewrite IH, F_first.
    + split; [intros [t E]; discriminate|]. intros H. now apply F_none in H.
Qed.
Lemma run_unknown : forall ks k, (exists t, runT keqb (TUnknown (Some k)) ks = Some t) <-> Forall (eq k) ks.
Proof.
  induction ks as [|k' ks IH]; intros k; [split; cbn; eauto|]. cbn [runT]. unfold stepT. cbn [stage_accepted okeqb].
  destruct (keqb k k') eqn:E.
  - apply keqb_iff in E. subst. rewrite IH. split; [constructor; auto|now inversion 1].
  - split; [intros [t H]; discriminate|]. intros H. inversion H; subst. rewrite (proj2 (keqb_iff k' k') eq_refl) in E. discriminate.
Qed.
Lemma start_may : forall k ks, (exists t, runT keqb (startT keqb stages k) ks = Some t) <-> may_group stages (k :: ks).
Proof.
  intros k ks. unfold startT, new_target, may_group, follows. pose proof (from_stage_spec keqb keqb_iff stages k) as S.
  destruct (from_stage keqb stages (Some k)) as [l'|].
  - destruct S as (b & r & E & N & ->). rewrite run_stages, <- (F_first b r k ks N), <- E. split; auto.
    intros [H|(k' & A & B)]; auto. exfalso. inversion B; subst k'. apply A. rewrite E. apply in_elt.
  - rewrite run_unknown. split.
    + intros H. right. exists k. auto.
    + intros [H|(k' & A & B)]; [now apply F_none in H|]. inversion B; subst. auto.
Qed.
Lemma runT_app : forall a b t, runT keqb t (a ++ b) = match runT keqb t a with Some t' => runT keqb t' b | None => None end.
Proof. induction a as [|k a IH]; intros b t; auto. cbn [app runT]. destruct (stepT keqb t k); auto. Qed.
Lemma run_extend : forall k ks y t, runT keqb (startT keqb stages k) ks = Some t ->
  (stepT keqb t y = None <-> ~ may_group stages (k :: ks ++ [y])).
Proof.
  intros k ks y t E. rewrite <- start_may, runT_app, E. cbn [runT]. destruct (stepT keqb t y); split; try congruence; auto.
  - intros H. exfalso. eauto.
  - intros _ [t' H]. discriminate.
Qed.
Lemma greedy_spec : forall gs, greedy keqb key stages gs <->
  Forall (fun g => g <> []) gs /\ Forall (fun g => may_group stages (map key g)) gs /\ maximal key stages gs.
Proof.
  induction gs as [|[|x r] gs IH].
  - cbn. split; auto.
  - cbn [greedy]. split; [intros []|]. intros (H & _). inversion H. congruence.
  - cbn [greedy]. rewrite IH. clear IH. split.
    + intros ((A & B & C) & t & E & N). split; [constructor; auto; discriminate|]. split.
      * constructor; auto. cbn [map]. apply start_may. eauto.
      * destruct gs as [|[|y g] gs]; cbn [maximal]; auto. split; auto. rewrite <- app_comm_cons. cbn [map]. rewrite map_app. cbn [map].
        now apply (run_extend (key x) (map key r) (key y) t E).
    + intros (A & B & C). inversion A as [|? ? _ A']; inversion B as [|? ? B1 B2]; subst. cbn [map] in B1. apply start_may in B1 as [t E].
      split; [|exists t; split; auto].
      * split; auto. split; auto. destruct gs as [|[|y g] gs]; [exact I|inversion A'; congruence|]. destruct C as [_ C]. exact C.
      * destruct gs as [|[|y g] gs]; auto. destruct C as [C _]. rewrite <- app_comm_cons in C. cbn [map] in C. rewrite map_app in C.
        now apply (run_extend (key x) (map key r) (key y) t E).
Qed.
Lemma longest : forall l t, exists r rest t1, l = r ++ rest /\ runT keqb t (map key r) = Some t1 /\
  match rest with [] => True | y :: _ => stepT keqb t1 (key y) = None end.
Proof.
  induction l as [|x l IH]; intros t.
  - exists [], [], t. auto.
  - destruct (stepT keqb t (key x)) as [t'|] eqn:E.
    + destruct (IH t') as (r & rest & t1 & A & B & C). exists (x :: r), rest, t1. subst. cbn [map runT app]. rewrite E. auto.
    + exists [], (x :: l), t. auto.
Qed.
Lemma greedy_exists : forall n xs, length xs <= n -> exists gs, greedy keqb key stages gs /\ concat gs = xs.
Proof.
  induction n as [|n IH]; intros [|x xs] L; try (exists []; cbn; auto; fail); cbn in L; [lia|].
  destruct (longest xs (startT keqb stages (key x))) as (r & rest & t1 & A & B & C).
  destruct (IH rest) as (gs & G & E); [subst; rewrite app_length in L; lia|].
  exists ((x :: r) :: gs). cbn [greedy concat app]. rewrite E, A. split; auto. split; auto. exists t1. split; auto.
  destruct gs as [|[|y g] gs]; auto. cbn in E. subst rest. auto.
Qed.
Lemma prefix_cases : forall (a b c d : list T), a ++ b = c ++ d ->
  (exists y z, c = a ++ y :: z /\ b = (y :: z) ++ d) \/ (exists y z, a = c ++ y :: z /\ d = (y :: z) ++ b) \/ (a = c /\ b = d).
Proof.
  induction a as [|x a IH]; intros b [|y c] d E; cbn in *; auto.
  - left. eauto.
  - right. left. exists x, a. auto.
  - injection E as -> E. destruct (IH _ _ _ E) as [(u & z & -> & ->)|[(u & z & -> & ->)|[-> ->]]]; eauto 6.
Qed.
Lemma greedy_unique : forall gs gs', greedy keqb key stages gs -> greedy keqb key stages gs' -> concat gs = concat gs' -> gs = gs'.
Proof.
  assert (No : forall x r y z gs, (exists t, runT keqb (startT keqb stages (key x)) (map key r) = Some t /\
      match gs with (y :: _) :: _ => stepT keqb t (key y) = None | _ => True end) ->
      greedy keqb key stages gs -> forall c, concat gs = (y :: z) ++ c ->
      ~ exists t, runT keqb (startT keqb stages (key x)) (map key (r ++ y :: z)) = Some t).
  { intros x r y z gs (t & E & N) G c Ec [t' E']. destruct gs as [|[|u g] gs]; [discriminate|destruct G|]. cbn in Ec. injection Ec as -> _.
    rewrite map_app, runT_app, E in E'. cbn [map runT] in E'. rewrite N in E'. discriminate. }
  induction gs as [|[|x r] gs IH]; intros [|[|x' r'] gs'] G G' E; auto; try (now destruct G); try (now destruct G'); try discriminate.
  cbn [concat app] in E. injection E as <- E. cbn [greedy] in G, G'. destruct G as [G X], G' as [G' X'].
  destruct (prefix_cases _ _ _ _ E) as [(y & z & -> & Eb)|[(y & z & -> & Eb)|[-> Eb]]].
  - exfalso. destruct X' as (t' & Et & _). apply (No x r y z gs X G _ Eb). eauto.
  - exfalso. destruct X as (t' & Et & _). apply (No x r' y z gs' X' G' _ Eb). eauto.
  - f_equal. now apply IH.
Qed.
End Q.

(** ** Any schedule: nothing is delivered twice or out of order. *)
Section R.
Context {T K : Type} (keqb : K -> K -> bool) (keqb_iff : forall a b, keqb a b = true <-> a = b) (key : T -> K) (stages : list K).
Notation accepted := (stage_accepted keqb).
(** [fresh]: the current value was not delivered yet. *)
Definition key_of (s : st T K) : Prop := forall x, currvalue s = Some x -> currkey s = Some (key x).
Definition settled (s : st T K) : Prop :=
  accepted (tgtkey s) (currkey s) = (true, tgtkey s) /\ forall j, cur s = Some j -> nth_error (groups s) j <> Some GNew.
Definition pending (fresh : bool) (s : st T K) : list T :=
  (if fresh then match currvalue s with Some x => [x] | None => [] end else []) ++ it s.
Definition inv (fresh : bool) (s : st T K) : Prop :=
  key_of s /\ (fresh = false -> settled s) /\ forall j, cur s = Some j -> j < length (groups s).
Definition given (o : out T K) : list T := match o with OElem x => [x] | _ => [] end.

Lemma sub_nil : forall (b : list T), subsequence [] b.
Proof. induction b; now constructor. Qed.
Lemma sub_app : forall (a b c : list T), subsequence a c -> subsequence a (b ++ c).
Proof. induction b; cbn; intros; auto. constructor. auto. Qed.
Lemma set_nth_len : forall A (l : list A) i a, length (set_nth l i a) = length l.
Proof. induction l as [|x l IH]; intros [|i] a; cbn; auto. Qed.
Lemma set_nth_other : forall A (l : list A) i j a, i <> j -> nth_error (set_nth l i a) j = nth_error l j.
Proof. induction l as [|x l IH]; intros [|i] [|j] a N; cbn; auto; try congruence. Qed.
Lemma set_nth_same : forall A (l : list A) i a, i < length l -> nth_error (set_nth l i a) i = Some a.
Proof. induction l as [|x l IH]; intros [|i] a N; cbn in *; auto; try lia. apply IH. lia. Qed.
Lemma set_nth_notnew : forall (l : list gen) i j a, a <> GNew -> nth_error l j <> Some GNew -> nth_error (set_nth l i a) j <> Some GNew.
Proof.
  intros l i j a Na N. destruct (Nat.eq_dec i j) as [->|E]; [|now rewrite set_nth_other].
  destruct (Nat.lt_ge_cases j (length l)) as [L|L]; [rewrite set_nth_same; congruence|].
  assert (nth_error (set_nth l j a) j = None) by (apply nth_error_None; now rewrite set_nth_len). congruence.
Qed.
Lemma acc_idem : forall t k t', accepted t k = (true, t') -> accepted t' k = (true, t').
Proof.
  intros t [k|] t' H.
  - apply (stepT_idem keqb keqb_iff t). unfold stepT. now rewrite H.
  - destruct t as [v|l]; cbn [stage_accepted] in H.
    + injection H as H <-. cbn [stage_accepted]. now rewrite H.
    + exfalso. induction l as [|x l IH]; cbn [drop_stages okeqb] in H; [discriminate|auto].
Qed.
Lemma skip_inv : forall l t v k t' v' k' r, skip keqb key t v k l = (t', v', k', r) ->
  (forall x, v = Some x -> k = Some (key x)) ->
  (forall x, v' = Some x -> k' = Some (key x)) /\
  match r with
  | None => accepted t' k' = (true, t')
  | Some r => v' = v /\ r = l /\ fst (accepted t k) = false \/ exists u x, l = u ++ x :: r /\ v' = Some x
  end.
Proof.
  induction l as [|y l IH]; intros t v k t' v' k' r H Hk; cbn [skip] in H; destruct (accepted t k) as [[|] t1] eqn:E.
  - injection H as <- <- <- <-. split; auto. eapply acc_idem, E.
  - injection H as _ <- <- <-. split; auto.
  - apply IH in H; [|intros x [= <-]; reflexivity]. destruct H as [H1 H2]. split; auto. destruct r as [r|]; auto.
    right. destruct H2 as [(-> & -> & _)|(u & x & -> & ->)]; [exists [], y|exists (y :: u), x]; auto.
  - injection H as _ <- <- <-. split; auto.
Qed.
Lemma next_inv : forall b s o s', inv b s -> next_group keqb key stages s = (o, s') ->
  given o = [] /\ exists b' u, inv b' s' /\ pending b s = u ++ pending b' s'.
Proof.
  intros b s o s' (Ik & Is & Ic) H. unfold next_group in H.
  destruct (skip keqb key (tgtkey s) (currvalue s) (currkey s) (it s)) as [[[t v] k] r] eqn:E.
  apply skip_inv in E; [|exact Ik]. destruct E as [E1 E2]. destruct r as [r|]; injection H as <- <-; (split; [reflexivity|]).
  - exists true. destruct E2 as [(-> & -> & E2)|(u & x & E2 & ->)].
    + exists []. split.
      * split; [exact E1|split; [discriminate|]]. intros j [= <-]. cbn [groups]. rewrite app_length. cbn. lia.
      * destruct b; [reflexivity|]. destruct (Is eq_refl) as [A _]. rewrite A in E2. discriminate.
    + exists ((if b then match currvalue s with Some y => [y] | None => [] end else []) ++ u). split.
      * split; [exact E1|split; [discriminate|]]. intros j [= <-]. cbn [groups]. rewrite app_length. cbn. lia.
      * unfold pending. rewrite E2. cbn [currvalue it]. now rewrite <- app_assoc.
  - exists false, (pending b s). split; [|cbn; now rewrite app_nil_r].
    split; [exact E1|split; [|discriminate]]. intros _. split; [exact E2|discriminate].
Qed.
Lemma test_inv : forall b s i o s', inv b s -> (cur s = Some i -> b = true) -> i < length (groups s) -> test_group keqb s i = (o, s') ->
  exists b', inv b' s' /\ pending b s = given o ++ pending b' s'.
Proof.
  intros b s i o s' (Ik & Is & Ic) Hc Hi H. unfold test_group in H.
  assert (Q : match cur s with Some j => Nat.eqb i j | None => false end = true <-> cur s = Some i).
  { destruct (cur s) as [j|]; [|easy]. rewrite Nat.eqb_eq. split; congruence. }
  destruct (match cur s with Some j => Nat.eqb i j | None => false end).
  - assert (C : cur s = Some i) by now apply Q. specialize (Hc C). subst b.
    assert (V : forall t, inv true (mkSt (it s) (currvalue s) (currkey s) t (cur s) (set_nth (groups s) i GDone))).
    { intros t. split; [exact Ik|split; [discriminate|]]. intros j Hj. cbn [groups cur] in *. rewrite set_nth_len. auto. }
    destruct (accepted (tgtkey s) (currkey s)) as [[|] t] eqn:A; [|injection H as <- <-; exists true; auto].
    destruct (currvalue s) as [x|] eqn:X.
    + injection H as <- <-. exists false. split.
      * split; [|split].
        -- intros y [= <-]. cbn [currkey]. now apply Ik.
        -- intros _. split; [exact (acc_idem _ _ _ A)|]. cbn [cur groups]. intros j Hj. assert (j = i) by congruence. subst j.
           rewrite set_nth_same; [discriminate|exact Hi].
        -- cbn [cur groups]. intros j Hj. rewrite set_nth_len. auto.
      * unfold pending. rewrite X. reflexivity.
    + injection H as <- <-. exists true. split; [apply V|]. unfold pending. rewrite X. reflexivity.
  - injection H as <- <-. exists b. split; [|reflexivity]. split; [exact Ik|split].
    + intros Hb. destruct (Is Hb) as [A B]. split; [exact A|]. cbn [cur groups]. intros j Hj. apply set_nth_notnew; [discriminate|auto].
    + cbn [cur groups]. intros j Hj. rewrite set_nth_len. auto.
Qed.
Lemma pull_inv : forall b s i o s', inv b s -> pull keqb key s i = (o, s') ->
  exists b' u, inv b' s' /\ pending b s = u ++ given o ++ pending b' s'.
Proof.
  intros b s i o s' V H. pose proof V as (Ik & Is & Ic). unfold pull in H. destruct (nth_error (groups s) i) as [g|] eqn:G.
  2: { injection H as <- <-. exists b, []. auto. }
  assert (L : i < length (groups s)) by (apply nth_error_Some; congruence).
  destruct g.
  - apply test_inv with (b := b) in H; auto.
    + destruct H as (b' & A & B). exists b', []. auto.
    + intros C. destruct b; auto. destruct (Is eq_refl) as [_ N]. destruct (N _ C G).
  - destruct (it s) as [|x r] eqn:E.
    + injection H as <- <-. exists b, []. split; [|unfold pending; cbn [currvalue it given app]; now rewrite E].
      split; [exact Ik|split].
      * intros Hb. destruct (Is Hb) as [A B]. split; [exact A|]. cbn [cur groups]. intros j Hj. apply set_nth_notnew; [discriminate|auto].
      * cbn [cur groups]. intros j Hj. rewrite set_nth_len. auto.
    + apply test_inv with (b := true) in H; auto.
      * destruct H as (b' & A & B). exists b', (if b then match currvalue s with Some y => [y] | None => [] end else []). split; [exact A|].
        unfold pending at 1. rewrite <- B, E. reflexivity.
      * split; [|split; [discriminate|exact Ic]]. intros y [= <-]. reflexivity.
  - injection H as <- <-. exists b, []. auto.
Qed.
Lemma run_inv : forall ops b s, inv b s -> subsequence (flat_map given (run keqb key stages s ops)) (pending b s).
Proof.
  induction ops as [|o ops IH]; intros b s V; cbn [run flat_map]; [apply sub_nil|].
  destruct (step keqb key stages s o) as [x s'] eqn:E. cbn [flat_map].
  assert (Q : exists b' u, inv b' s' /\ pending b s = u ++ given x ++ pending b' s').
  { destruct o as [|i]; cbn [step] in E; [|eapply pull_inv; eauto]. eapply next_inv in E; [|exact V].
    destruct E as (-> & b' & u & A & B). exists b', u. auto. }
  destruct Q as (b' & u & A & ->). apply sub_app. specialize (IH _ _ A).
  destruct x; cbn [given app]; auto. now constructor.
Qed.
End R.
