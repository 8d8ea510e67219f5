(** Common vocabulary: Python exceptions as values, list helpers, sums, bisect. *)
From Coq Require Import List ZArith Lia Bool Arith.
Import ListNotations.
Open Scope Z_scope.

(** The Python exception classes that the modelled code can raise, plus
    [OutOfFuel], which is not a Python exception: it marks a loop that did not
    finish within the fuel given to the model. *)
Inductive exn :=
| AssertionError | IndexError | KeyError | ValueError | TypeError
| StopIteration | RuntimeError | ZeroDivisionError | AttributeError
| StructError | OutOfFuel.

Inductive res (A : Type) := Ok (a : A) | Err (e : exn).
Arguments Ok {A} a.
Arguments Err {A} e.

Definition bindr {A B} (x : res A) (f : A -> res B) : res B :=
  match x with Ok a => f a | Err e => Err e end.
Notation "'do' x <- e ; k" := (bindr e (fun x => k))
  (at level 200, x name, e at level 100, k at level 200).

Definition is_ok {A} (x : res A) : bool := match x with Ok _ => true | Err _ => false end.

(** Python's [l[i]] on a list or tuple: negative indices count from the end. *)
Definition py_nth {A} (l : list A) (i : Z) : res A :=
  let n := Z.of_nat (length l) in
  let j := if i <? 0 then i + n else i in
  if (j <? 0) || (n <=? j) then Err IndexError
  else match nth_error l (Z.to_nat j) with Some a => Ok a | None => Err IndexError end.

(** [sum(f(x) for x in l)]. *)
Fixpoint sumZ {A} (f : A -> Z) (l : list A) : Z :=
  match l with [] => 0 | x :: r => f x + sumZ f r end.

Fixpoint mapM {A B} (f : A -> res B) (l : list A) : res (list B) :=
  match l with
  | [] => Ok []
  | x :: r => do y <- f x; do ys <- mapM f r; Ok (y :: ys)
  end.

(** [bisect.bisect_right] / [bisect.bisect_left] of CPython, over a comparison
    [lt]: the classic halving loop. [bisect_*_loop] runs with fuel; the list
    length is always enough because the interval shrinks every round. *)
Section Bisect.
  Context {A : Type} (lt : A -> A -> bool) (d : A).
  Fixpoint bisect_right_loop (fuel : nat) (l : list A) (x : A) (lo hi : nat) : nat :=
    match fuel with
    | O => lo
    | S f =>
      if (lo <? hi)%nat then
        let mid := Nat.div (lo + hi) 2 in
        if lt x (nth mid l d) then bisect_right_loop f l x lo mid
        else bisect_right_loop f l x (S mid) hi
      else lo
    end.
  Definition bisect_right (l : list A) (x : A) : nat :=
    bisect_right_loop (length l) l x 0 (length l).
  Fixpoint bisect_left_loop (fuel : nat) (l : list A) (x : A) (lo hi : nat) : nat :=
    match fuel with
    | O => lo
    | S f =>
      if (lo <? hi)%nat then
        let mid := Nat.div (lo + hi) 2 in
        if lt (nth mid l d) x then bisect_left_loop f l x (S mid) hi
        else bisect_left_loop f l x lo mid
      else lo
    end.
  Definition bisect_left (l : list A) (x : A) : nat :=
    bisect_left_loop (length l) l x 0 (length l).

  Lemma bisect_right_loop_spec : forall fuel l x lo hi,
    (hi - lo <= fuel)%nat -> (lo <= hi <= length l)%nat ->
    (forall i j, (i < j < length l)%nat -> lt x (nth i l d) = true -> lt x (nth j l d) = true) ->
    (forall i, (i < lo)%nat -> lt x (nth i l d) = false) ->
    (forall i, (hi <= i < length l)%nat -> lt x (nth i l d) = true) ->
    let r := bisect_right_loop fuel l x lo hi in
    (lo <= r <= hi)%nat /\
    (forall i, (i < r)%nat -> lt x (nth i l d) = false) /\
    (forall i, (r <= i < length l)%nat -> lt x (nth i l d) = true).
  Proof.
    induction fuel as [|f IH]; intros l x lo hi Hf Hb Hm Hlo Hhi; cbn -[Nat.div Nat.ltb].
    - assert (lo = hi) by lia. subst. repeat split; try lia; auto.
    - destruct (lo <? hi)%nat eqn:E.
      + apply Nat.ltb_lt in E.
        assert (Hmid : (lo <= Nat.div (lo + hi) 2 < hi)%nat).
        { split. apply Nat.div_le_lower_bound; lia. apply Nat.div_lt_upper_bound; lia. }
        set (mid := Nat.div (lo + hi) 2) in *.
        destruct (lt x (nth mid l d)) eqn:F.
        * destruct (IH l x lo mid) as (A1 & A2 & A3); try lia; auto.
          { intros i Hi. destruct (Nat.eq_dec i mid). congruence.
            apply (Hm mid i); auto; lia. }
          repeat split; try lia; auto.
        * destruct (IH l x (S mid) hi) as (A1 & A2 & A3); try lia; auto.
          { intros i Hi. destruct (Nat.eq_dec i mid). congruence.
            destruct (lt x (nth i l d)) eqn:G; auto.
            rewrite (Hm i mid) in F; auto; lia. }
          repeat split; try lia; auto.
      + apply Nat.ltb_ge in E. assert (lo = hi) by lia. subst. repeat split; try lia; auto.
  Qed.

  Lemma bisect_left_loop_spec : forall fuel l x lo hi,
    (hi - lo <= fuel)%nat -> (lo <= hi <= length l)%nat ->
    (forall i j, (i < j < length l)%nat -> lt (nth j l d) x = true -> lt (nth i l d) x = true) ->
    (forall i, (i < lo)%nat -> lt (nth i l d) x = true) ->
    (forall i, (hi <= i < length l)%nat -> lt (nth i l d) x = false) ->
    let r := bisect_left_loop fuel l x lo hi in
    (lo <= r <= hi)%nat /\
    (forall i, (i < r)%nat -> lt (nth i l d) x = true) /\
    (forall i, (r <= i < length l)%nat -> lt (nth i l d) x = false).
  Proof.
    induction fuel as [|f IH]; intros l x lo hi Hf Hb Hm Hlo Hhi; cbn -[Nat.div Nat.ltb].
    - assert (lo = hi) by lia. subst. repeat split; try lia; auto.
    - destruct (lo <? hi)%nat eqn:E.
      + apply Nat.ltb_lt in E.
        assert (Hmid : (lo <= Nat.div (lo + hi) 2 < hi)%nat).
        { split. apply Nat.div_le_lower_bound; lia. apply Nat.div_lt_upper_bound; lia. }
        set (mid := Nat.div (lo + hi) 2) in *.
        destruct (lt (nth mid l d) x) eqn:F.
        * destruct (IH l x (S mid) hi) as (A1 & A2 & A3); try lia; auto.
          { intros i Hi. destruct (Nat.eq_dec i mid). congruence.
            apply (Hm i mid); auto; lia. }
          repeat split; try lia; auto.
        * destruct (IH l x lo mid) as (A1 & A2 & A3); try lia; auto.
          { intros i Hi. destruct (Nat.eq_dec i mid). congruence.
            destruct (lt (nth i l d) x) eqn:G; auto.
            rewrite (Hm mid i) in F; auto; lia. }
          repeat split; try lia; auto.
      + apply Nat.ltb_ge in E. assert (lo = hi) by lia. subst. repeat split; try lia; auto.
  Qed.

  Lemma bisect_right_spec : forall l x,
    (forall i j, (i < j < length l)%nat -> lt x (nth i l d) = true -> lt x (nth j l d) = true) ->
    let r := bisect_right l x in
    (r <= length l)%nat /\
    (forall i, (i < r)%nat -> lt x (nth i l d) = false) /\
    (forall i, (r <= i < length l)%nat -> lt x (nth i l d) = true).
  Proof.
    intros l x Hm. unfold bisect_right.
    destruct (bisect_right_loop_spec (length l) l x 0 (length l)) as (A1 & A2 & A3);
      try lia; auto. repeat split; try lia; auto.
  Qed.

  Lemma bisect_left_spec : forall l x,
    (forall i j, (i < j < length l)%nat -> lt (nth j l d) x = true -> lt (nth i l d) x = true) ->
    let r := bisect_left l x in
    (r <= length l)%nat /\
    (forall i, (i < r)%nat -> lt (nth i l d) x = true) /\
    (forall i, (r <= i < length l)%nat -> lt (nth i l d) x = false).
  Proof.
    intros l x Hm. unfold bisect_left.
    destruct (bisect_left_loop_spec (length l) l x 0 (length l)) as (A1 & A2 & A3);
      try lia; auto. repeat split; try lia; auto.
  Qed.
End Bisect.

Lemma sumZ_app : forall A (f : A -> Z) l1 l2, sumZ f (l1 ++ l2) = sumZ f l1 + sumZ f l2.
Proof. induction l1; intros; cbn; rewrite ?IHl1; lia. Qed.
Lemma sumZ_ext : forall A (f g : A -> Z) l, (forall x, In x l -> f x = g x) -> sumZ f l = sumZ g l.
Proof. induction l; cbn; intros H; auto. rewrite IHl, H; auto. Qed.
Lemma sumZ_le : forall A (f g : A -> Z) l, (forall x, In x l -> f x <= g x) -> sumZ f l <= sumZ g l.
Proof. induction l; cbn; intros H; [lia|]. pose proof (H a). specialize (IHl (fun x h => H x (or_intror h))). auto with zarith. Qed.
Lemma sumZ_nonneg : forall A (f : A -> Z) l, (forall x, In x l -> 0 <= f x) -> 0 <= sumZ f l.
Proof. induction l; cbn; intros H; [lia|]. pose proof (H a (or_introl eq_refl)). specialize (IHl (fun x h => H x (or_intror h))). lia. Qed.
Lemma sumZ_zero : forall A (f : A -> Z) l, (forall x, In x l -> f x = 0) -> sumZ f l = 0.
Proof. induction l; cbn; intros H; auto. rewrite IHl, H; auto. Qed.
Lemma sumZ_plus : forall A (f g : A -> Z) l, sumZ (fun x => f x + g x) l = sumZ f l + sumZ g l.
Proof. induction l; cbn; lia. Qed.
Lemma sumZ_opp : forall A (f : A -> Z) l, sumZ (fun x => - f x) l = - sumZ f l.
Proof. induction l; cbn; lia. Qed.
Lemma sumZ_map : forall A B (f : B -> Z) (g : A -> B) l, sumZ f (map g l) = sumZ (fun x => f (g x)) l.
Proof. induction l; cbn; lia. Qed.
Lemma sumZ_in_le : forall A (f : A -> Z) l x,
  (forall y, In y l -> 0 <= f y) -> In x l -> f x <= sumZ f l.
Proof.
  induction l; cbn; intros x H Hin; [tauto|].
  assert (0 <= sumZ f l) by (apply sumZ_nonneg; auto).
  destruct Hin as [->|Hin]. lia. pose proof (H a (or_introl eq_refl)).
  specialize (IHl x (fun y h => H y (or_intror h)) Hin). lia.
Qed.
Lemma sumZ_eq_le : forall A (f g : A -> Z) l,
  (forall x, In x l -> f x <= g x) -> sumZ f l = sumZ g l -> forall x, In x l -> f x = g x.
Proof.
  induction l; cbn; intros H E x Hx; [tauto|].
  pose proof (H a (or_introl eq_refl)).
  pose proof (sumZ_le _ f g l (fun y h => H y (or_intror h))).
  destruct Hx as [->|Hx]; [lia|]. apply IHl; auto. lia.
Qed.

Lemma Forall2_len : forall A B (R : A -> B -> Prop) l1 l2, Forall2 R l1 l2 -> length l1 = length l2.
Proof. induction 1; cbn; auto. Qed.
