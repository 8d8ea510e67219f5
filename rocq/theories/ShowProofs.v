(** Facts about printed decimals. *)
From Verif Require Import Base Tile Parse Text Tenhou Event Reader StateProofs Spec_Log Spec_Meld Value Prop_Reader Prop_Read Url Show Spec_Show.
From Coq Require Import String List ZArith Lia Bool.
Import ListNotations.
Open Scope list_scope.
Open Scope Z_scope.

Lemma p10_pos k : 0 < p10 k.
Proof. unfold p10. apply Z.pow_pos_nonneg; lia. Qed.
Lemma p10_add a b : p10 (a + b) = p10 a * p10 b.
Proof. unfold p10. rewrite Nat2Z.inj_add, Z.pow_add_r by lia. reflexivity. Qed.
Lemma digits_of_length : forall fuel n p, 0 <= n < p10 (S p) -> (length (digits_of fuel n) <= S p)%nat.
Proof.
  induction fuel as [|f IH]; intros n p B; cbn [digits_of length]; [lia|]. destruct (Z.ltb_spec n 10) as [L|L]; [cbn [length]; lia|].
  rewrite app_length. cbn [length]. destruct p as [|p]; [change (p10 1) with 10 in B; lia|].
  assert (C : 0 <= n / 10 < p10 (S p)).
  { split; [apply Z.div_pos; lia|]. apply Z.div_lt_upper_bound; [lia|]. change (S (S p)) with (1 + S p)%nat in B. rewrite p10_add in B. exact (proj2 B). }
  specialize (IH _ p C). lia.
Qed.
Lemma str_int_length n p : 0 <= n < p10 (S p) -> (length (str_int n) <= S p)%nat.
Proof. intro B. unfold str_int. rewrite (proj2 (Z.ltb_ge n 0)) by lia. now apply digits_of_length. Qed.
Lemma digits_forall s : forallb ch_digit s = true <-> Forall (fun c => 48 <= c <= 57) s.
Proof.
  rewrite forallb_forall, Forall_forall. split; intros H x I; specialize (H x I); unfold ch_digit in *.
  - apply andb_true_iff in H. rewrite !Z.leb_le in H. exact H.
  - apply andb_true_iff. rewrite !Z.leb_le. exact H.
Qed.

Lemma fixed_spelled p n : (num_k n <= S p)%nat -> spelled (S p) (num_m n * p10 (S p - num_k n)) (fixed (S p) n).
Proof.
  intro K. unfold fixed. rewrite (proj2 (Nat.leb_le _ _) K). set (q := Z.abs (num_m n) * p10 (S p - num_k n)).
  pose proof (p10_pos (S p)) as P. pose proof (p10_pos (S p - num_k n)) as P'. assert (Q : 0 <= q) by (unfold q; lia).
  pose proof (Z.mod_pos_bound q _ P) as M. destruct (str_int_nonneg (q mod p10 (S p)) ltac:(lia)) as (_ & D & V).
  pose proof (str_int_length _ _ M) as L.
  exists (q / p10 (S p)), (repeat 48 (S p - length (str_int (q mod p10 (S p)))) ++ str_int (q mod p10 (S p))).
  split; [|split; [|split; [|split]]].
  - replace (num_m n * p10 (S p - num_k n) <? 0) with (num_m n <? 0); [reflexivity|].
    destruct (Z.ltb_spec (num_m n) 0), (Z.ltb_spec (num_m n * p10 (S p - num_k n)) 0); try reflexivity; nia.
  - apply Z.div_pos; lia.
  - rewrite app_length, repeat_length. lia.
  - apply digits_forall. rewrite forallb_app, D, andb_true_r. generalize (S p - length (str_int (q mod p10 (S p))))%nat. clear. intro k. induction k; [reflexivity|]. cbn [repeat forallb]. rewrite IHk. reflexivity.
  - rewrite zeros_val, V. change (10 ^ Z.of_nat (S p)) with (p10 (S p)). pose proof (Z.div_mod q (p10 (S p)) ltac:(lia)) as DM.
    rewrite (Z.abs_mul (num_m n)), (Z.abs_eq (p10 (S p - num_k n))) by lia. fold q. lia.
Qed.

Lemma number_read neg i f n : num_of_digits neg i f = n ->
  (num_k n <= length f)%nat /\ num_m n * p10 (length f - num_k n) = (if neg then -1 else 1) * digits_val (i ++ f).
Proof.
  unfold num_of_digits. cbv zeta. intro H. pose proof (p10_pos (length f)) as P. change (10 ^ Z.of_nat (length f)) with (p10 (length f)) in H.
  set (s := if neg then - digits_val (i ++ f) else digits_val (i ++ f)) in *.
  assert (E : s = (if neg then -1 else 1) * digits_val (i ++ f)) by (unfold s; destruct neg; lia). rewrite <- E. clear E.
  destruct (Z.eqb_spec (s mod p10 (length f)) 0) as [Z0|N].
  - subst n. cbn [num_k num_m]. split; [lia|]. rewrite Nat.sub_0_r. pose proof (Z.div_mod s (p10 (length f)) ltac:(lia)). lia.
  - subst n. cbn [num_k num_m]. split; [lia|]. rewrite Nat.sub_diag. change (p10 0) with 1. lia.
Qed.
Lemma digit_not_point s : Forall (fun c => 48 <= c <= 57) s -> ~ In 46 s /\ ~ In 44 s.
Proof. intro F. rewrite Forall_forall in F. split; intro I; specialize (F _ I); lia. Qed.
Lemma denotes_read p m s : denotes p m s -> exists n, py_number s = Ok n /\ (num_k n <= p)%nat /\ num_m n * p10 (p - num_k n) = m.
Proof.
  intros (neg & i & f & tail & -> & T & Ni & D & L & ->).
  assert (Di : Forall (fun c => 48 <= c <= 57) i /\ Forall (fun c => 48 <= c <= 57) f) by (apply Forall_app; exact D).
  destruct Di as [Di Df]. pose proof (proj1 (digit_not_point _ Di)) as Pi. pose proof (proj1 (digit_not_point _ Df)) as Pf.
  assert (B : py_number ((if neg then t_ "-" else []) ++ i ++ tail) = Ok (num_of_digits neg i f)).
  { destruct i as [|c i0]; [congruence|]. set (i := c :: i0) in *.
    assert (Hc : 48 <= c <= 57) by (inversion Di; assumption).
    assert (Body : match split_on 46 (i ++ tail) with
      | [i] => match i with [] => Err ValueError | _ => if forallb ch_digit i then Ok (num_of_digits neg i []) else Err ValueError end
      | [i; f] => match (i ++ f)%list with [] => Err ValueError | _ => if forallb ch_digit (i ++ f) then Ok (num_of_digits neg i f) else Err ValueError end
      | _ => Err ValueError end = Ok (num_of_digits neg i f)).
    { destruct T as [[-> ->]|[Nf ->]].
      - rewrite app_nil_r, split_on_none by exact Pi. unfold i at 1. fold i. rewrite (proj2 (digits_forall i) Di). reflexivity.
      - change (t_ ".") with [46]. cbn [app]. rewrite split_on_app, split_on_none by assumption.
        unfold i at 1. cbn [app]. fold i. change (c :: i0 ++ f) with (i ++ f).
        rewrite (proj2 (digits_forall (i ++ f)) D). reflexivity. }
    unfold py_number. destruct neg; [exact Body|]. unfold i in *. cbn [app].
    cbn [app] in Body. destruct (Z.eq_dec c 45) as [->|N1]; [lia|]. destruct (Z.eq_dec c 43) as [->|N2]; [lia|].
    destruct c as [|c|c]; try lia. do 6 (destruct c as [c|c|]; try exact Body; try lia). }
  exists (num_of_digits neg i f). split; [exact B|]. destruct (number_read neg i f _ eq_refl) as [K V].
  split; [lia|]. replace (p - num_k (num_of_digits neg i f))%nat with ((length f - num_k (num_of_digits neg i f)) + (p - length f))%nat by lia.
  rewrite p10_add, Z.mul_assoc, V. unfold p10. ring.
Qed.
(** A number of a log with at most [p] decimals is printed with [p] decimals, exactly. *)
Lemma number_shown p m s : denotes (S p) m s -> exists n, py_number s = Ok n /\ spelled (S p) m (fixed (S p) n).
Proof.
  intro D. destruct (denotes_read _ _ _ D) as (n & R & K & V). exists n. split; [exact R|]. rewrite <- V. now apply fixed_spelled.
Qed.
(** A number that is not negative is printed as a nearest number with [p] decimals. *)
Lemma round_nearest a b : 0 < b -> 2 * Z.abs (a - round_div a b * b) <= b.
Proof.
  intros B. unfold round_div. pose proof (Z.div_mod a b ltac:(lia)) as D. pose proof (Z.mod_pos_bound a b B) as M.
  destruct (Z.ltb_spec (2 * (a mod b)) b); [|destruct (Z.ltb_spec b (2 * (a mod b))); [|destruct (Z.even (a / b))]]; nia.
Qed.
Lemma round_nonneg a b : 0 <= a -> 0 < b -> 0 <= round_div a b.
Proof.
  intros A B. unfold round_div. pose proof (Z.div_pos a b A B).
  destruct (2 * (a mod b) <? b); [|destruct (b <? 2 * (a mod b)); [|destruct (Z.even (a / b))]]; lia.
Qed.
Lemma digits_spelled p q : 0 <= q ->
  spelled (S p) q (str_int (q / p10 (S p)) ++ t_ "." ++ repeat 48 (S p - length (str_int (q mod p10 (S p)))) ++ str_int (q mod p10 (S p))).
Proof.
  intros Q.
  pose proof (p10_pos (S p)) as P. pose proof (Z.mod_pos_bound q _ P) as M. destruct (str_int_nonneg (q mod p10 (S p)) ltac:(lia)) as (_ & D & V).
  pose proof (str_int_length _ _ M) as L.
  exists (q / p10 (S p)), (repeat 48 (S p - length (str_int (q mod p10 (S p)))) ++ str_int (q mod p10 (S p))).
  split; [|split; [|split; [|split]]].
  - replace (q <? 0) with false by (symmetry; apply Z.ltb_ge; lia). reflexivity.
  - apply Z.div_pos; lia.
  - rewrite app_length, repeat_length. lia.
  - apply digits_forall. rewrite forallb_app, D, andb_true_r. generalize (S p - length (str_int (q mod p10 (S p))))%nat. clear. intro k. induction k; [reflexivity|]. cbn [repeat forallb]. rewrite IHk. reflexivity.
  - rewrite zeros_val, V. change (10 ^ Z.of_nat (S p)) with (p10 (S p)). pose proof (Z.div_mod q (p10 (S p)) ltac:(lia)) as DM. rewrite Z.abs_eq by lia. lia.
Qed.
Lemma number_rounded p q m s : denotes q m s -> 0 <= m -> exists n r, py_number s = Ok n /\ spelled (S p) r (fixed (S p) n) /\
  2 * Z.abs (m * 10 ^ Z.of_nat (S p) - r * 10 ^ Z.of_nat q) <= 10 ^ Z.of_nat q.
Proof.
  intros D M. destruct (denotes_read _ _ _ D) as (n & R & K & V). exists n. pose proof (p10_pos (q - num_k n)) as P1. pose proof (p10_pos q) as P2. pose proof (p10_pos (S p)) as P3.
  change (10 ^ Z.of_nat (S p)) with (p10 (S p)). change (10 ^ Z.of_nat q) with (p10 q).
  destruct (Nat.leb_spec (num_k n) (S p)) as [L|L].
  - exists (num_m n * p10 (S p - num_k n)). split; [exact R|]. split; [now apply fixed_spelled|].
    replace (m * p10 (S p) - num_m n * p10 (S p - num_k n) * p10 q) with 0; [cbn; lia|]. rewrite <- V.
    enough (E : p10 (q - num_k n) * p10 (S p) = p10 (S p - num_k n) * p10 q) by (rewrite <- !Z.mul_assoc, E; lia).
    unfold p10. rewrite <- !Z.pow_add_r by lia. f_equal. lia.
  - assert (N : 0 <= num_m n) by nia. exists (round_div (num_m n) (p10 (num_k n - S p))). pose proof (p10_pos (num_k n - S p)) as P4. split; [exact R|]. split.
    + unfold fixed. rewrite (proj2 (Nat.leb_gt _ _) L), Z.abs_eq by exact N. replace (num_m n <? 0) with false by (symmetry; apply Z.ltb_ge; lia). cbn [app].
      apply digits_spelled. now apply round_nonneg.
    + pose proof (round_nearest (num_m n) (p10 (num_k n - S p)) P4) as X. set (r := round_div (num_m n) (p10 (num_k n - S p))) in *.
      assert (E : p10 q = p10 (q - num_k n) * p10 (S p) * p10 (num_k n - S p)) by (unfold p10; rewrite <- !Z.pow_add_r by lia; f_equal; lia).
      rewrite E, <- V. replace (num_m n * p10 (q - num_k n) * p10 (S p) - r * (p10 (q - num_k n) * p10 (S p) * p10 (num_k n - S p)))
        with ((p10 (q - num_k n) * p10 (S p)) * (num_m n - r * p10 (num_k n - S p))) by ring.
      rewrite Z.abs_mul, (Z.abs_eq (_ * _)) by nia. nia.
Qed.
