(** Property C51: the combinatorial helpers. *)
From Verif Require Import Base Comb.
From Coq Require Import List ZArith Lia Bool Arith Factorial.
Import ListNotations.
Open Scope Z_scope.

(** ** Specification: Pascal's triangle and factorials. *)
Fixpoint binomial (n k : nat) : Z :=
  match n, k with
  | _, O => 1
  | O, S _ => 0
  | S n', S k' => binomial n' k' + binomial n' (S k')
  end.
Fixpoint falling (n : Z) (k : nat) : Z := match k with O => 1 | S k' => n * falling (n - 1) k' end.
Definition equals (q : quotient) (v : Z) : Prop := q_den q <> 0 /\ q_num q = v * q_den q.

(** ** Proofs. *)
Lemma fold_mul : forall l a, fold_left Z.mul l a = a * fold_left Z.mul l 1.
Proof.
  induction l as [|x l IH]; intros a; cbn [fold_left]; [lia|]. rewrite IH, (IH (1 * x)). lia.
Qed.
Lemma range_down_S : forall n k, range_down n (n - Z.of_nat (S k)) = n :: range_down (n - 1) (n - 1 - Z.of_nat k).
Proof.
  intros n k. unfold range_down. replace (Z.to_nat (n - (n - Z.of_nat (S k)))) with (S k) by lia.
  replace (Z.to_nat (n - 1 - (n - 1 - Z.of_nat k))) with k by lia. cbn [seq map]. f_equal; [lia|].
  rewrite <- seq_shift, map_map. apply map_ext. intros i. lia.
Qed.
Lemma nar_falling : forall k n, n_a_r n (Z.of_nat k) = falling n k.
Proof.
  induction k as [|k IH]; intros n; unfold n_a_r.
  - unfold range_down. replace (Z.to_nat (n - (n - Z.of_nat 0))) with 0%nat by lia. reflexivity.
  - rewrite range_down_S. cbn [fold_left falling]. rewrite fold_mul. unfold n_a_r in IH. rewrite IH. lia.
Qed.
Definition factZ (n : nat) : Z := Z.of_nat (fact n).
Lemma factZ_S : forall n, factZ (S n) = Z.of_nat (S n) * factZ n.
Proof. intros n. unfold factZ. rewrite <- Nat2Z.inj_mul. reflexivity. Qed.
Lemma factZ_pos : forall n, 0 < factZ n.
Proof. intros n. unfold factZ. pose proof (lt_O_fact n). lia. Qed.
Lemma falling_fact : forall k n, (k <= n)%nat -> falling (Z.of_nat n) k * factZ (n - k) = factZ n.
Proof.
  induction k as [|k IH]; intros n H.
  - cbn [falling]. rewrite Nat.sub_0_r. lia.
  - destruct n as [|n]; [lia|]. cbn [falling]. replace (Z.of_nat (S n) - 1) with (Z.of_nat n) by lia.
    rewrite factZ_S, <- (IH n) by lia. replace (S n - S k)%nat with (n - k)%nat by lia. lia.
Qed.
Lemma binomial_out : forall n k, (n < k)%nat -> binomial n k = 0.
Proof. induction n as [|n IH]; intros [|k] H; cbn; try lia. rewrite !IH by lia. lia. Qed.
Lemma binomial_diag : forall n, binomial n n = 1.
Proof. induction n as [|n IH]; cbn [binomial]; auto. rewrite IH, binomial_out by lia. lia. Qed.
Lemma binomial_fact : forall n k, (k <= n)%nat -> binomial n k * factZ k * factZ (n - k) = factZ n.
Proof.
  induction n as [|n IH]; intros k H.
  - assert (k = 0%nat) by lia. subst. reflexivity.
  - destruct k as [|k]; [cbn [binomial]; rewrite Nat.sub_0_r; unfold factZ at 1; cbn [fact]; lia|].
    cbn [binomial]. replace (S n - S k)%nat with (n - k)%nat by lia.
    destruct (Nat.eq_dec k n) as [->|N].
    + rewrite binomial_diag, (binomial_out n (S n)), Nat.sub_diag by lia. unfold factZ at 2. cbn [fact]. lia.
    + pose proof (IH k ltac:(lia)) as A. pose proof (IH (S k) ltac:(lia)) as B.
      replace (n - k)%nat with (S (n - S k)) in * by lia. rewrite !factZ_S in *.
      replace (Z.of_nat (S n)) with (Z.of_nat (S k) + Z.of_nat (S (n - S k))) by lia.
      generalize dependent (Z.of_nat (S k)). generalize dependent (Z.of_nat (S (n - S k))). intros q A p B.
      transitivity (p * (binomial n k * factZ k * (q * factZ (n - S k))) + q * (binomial n (S k) * (p * factZ k) * factZ (n - S k))); [ring|].
      rewrite A, B. ring.
Qed.
Lemma binomial_sym : forall n k, (k <= n)%nat -> binomial n k = binomial n (n - k).
Proof.
  intros n k H. pose proof (binomial_fact n k H) as A. pose proof (binomial_fact n (n - k) ltac:(lia)) as B.
  replace (n - (n - k))%nat with k in B by lia. pose proof (factZ_pos k). pose proof (factZ_pos (n - k)).
  apply (Z.mul_reg_r _ _ (factZ k * factZ (n - k))); [nia|]. rewrite Z.mul_assoc, A, <- B. ring.
Qed.

(** [n_a_r(n, r)] is n!/(n-r)!, the product of r factors from n down; for r beyond n it is 0, and for
    negative r it is 1. *)
Theorem C51_n_a_r : forall n r, 0 <= r <= n ->
  n_a_r n r = falling n (Z.to_nat r) /\ n_a_r n r * Z.of_nat (fact (Z.to_nat (n - r))) = Z.of_nat (fact (Z.to_nat n)).
Proof.
  intros n r H. replace r with (Z.of_nat (Z.to_nat r)) at 1 3 by lia. rewrite !nar_falling. split; auto.
  pose proof (falling_fact (Z.to_nat r) (Z.to_nat n) ltac:(lia)) as F. unfold factZ in F.
  replace (Z.to_nat (n - r)) with (Z.to_nat n - Z.to_nat r)%nat by lia. rewrite Z2Nat.id in F by lia. exact F.
Qed.
Theorem C51_n_a_r_outside : forall n r, (0 <= n < r -> n_a_r n r = 0) /\ (r <= 0 -> n_a_r n r = 1).
Proof.
  intros n r. split; intros H.
  - replace r with (Z.of_nat (Z.to_nat r)) by lia. rewrite nar_falling.
    assert (G : forall k m, 0 <= m < Z.of_nat k -> falling m k = 0).
    { induction k as [|k IH]; intros m M; [lia|]. cbn [falling]. destruct (Z.eq_dec m 0) as [->|]; [lia|]. rewrite IH by lia. lia. }
    apply G. lia.
  - unfold n_a_r, range_down. replace (Z.to_nat (n - (n - r))) with 0%nat by lia. reflexivity.
Qed.
(** [n_c_r(n, r)] divides two integers whose quotient is the binomial coefficient. *)
Theorem C51_n_c_r : forall n r, 0 <= r <= n ->
  exists q, n_c_r n r = Ok q /\ equals q (binomial (Z.to_nat n) (Z.to_nat r)).
Proof.
  intros n r H. unfold n_c_r. set (k := Z.to_nat (Z.min r (n - r))).
  replace (Z.min r (n - r)) with (Z.of_nat k) by lia. rewrite !nar_falling.
  pose proof (falling_fact k k (le_n _)) as Fk. rewrite Nat.sub_diag in Fk. change (factZ 0) with 1 in Fk. rewrite Z.mul_1_r in Fk.
  pose proof (factZ_pos k) as P. unfold true_div. rewrite Fk. destruct (Z.eqb_spec (factZ k) 0) as [E|E]; [lia|].
  eexists. split; [reflexivity|]. unfold equals. cbn [q_num q_den]. split; auto.
  assert (B : binomial (Z.to_nat n) (Z.to_nat r) = binomial (Z.to_nat n) k).
  { destruct (Z.leb_spec r (n - r)).
    - f_equal. lia.
    - rewrite (binomial_sym _ (Z.to_nat r)) by lia. f_equal. lia. }
  rewrite B. pose proof (falling_fact k (Z.to_nat n) ltac:(lia)) as F. pose proof (binomial_fact (Z.to_nat n) k ltac:(lia)) as G.
  rewrite Z2Nat.id in F by lia. pose proof (factZ_pos (Z.to_nat n - k)).
  apply (Z.mul_reg_r _ _ (factZ (Z.to_nat n - k))); [lia|]. rewrite F, G. reflexivity.
Qed.
(** Outside that range it is not: choosing more than there are gives 1, not 0. *)
Theorem C51_n_c_r_outside : forall n r, 0 <= n < r -> n_c_r n r = Ok (mkQuot 1 1).
Proof.
  intros n r H. unfold n_c_r. rewrite Z.min_r by lia.
  destruct (C51_n_a_r_outside n (n - r)) as [_ A]. destruct (C51_n_a_r_outside (n - r) (n - r)) as [_ B].
  rewrite A, B by lia. reflexivity.
Qed.
Example C51_ex : n_a_r 7 3 = 210 /\ n_c_r 10 8 = Ok (mkQuot 90 2) /\ binomial 10 8 = 45 /\ n_c_r 3 5 = Ok (mkQuot 1 1).
Proof. repeat split. Qed.

Print Assumptions C51_n_a_r.
Print Assumptions C51_n_a_r_outside.
Print Assumptions C51_n_c_r.
Print Assumptions C51_n_c_r_outside.
