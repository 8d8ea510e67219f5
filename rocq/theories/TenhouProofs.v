(** Bit fields, the Tenhou tile numbering. *)
From Verif Require Import Base Category Tile Parse Text Tenhou.
From Coq Require Import String List ZArith Lia Bool.
Import ListNotations.
Open Scope list_scope.
Open Scope Z_scope.

Fixpoint bits_msb (n : nat) (v : Z) : list bool :=
  match n with O => [] | S k => Z.testbit v (Z.of_nat k) :: bits_msb k v end.

Lemma to_bit_bytes_ok : forall v, 0 <= v < 65536 -> to_bit_bytes v = Ok (bits_msb 16 v).
Proof.
  intros v H. unfold to_bit_bytes.
  replace (0 <=? v) with true by (symmetry; apply Z.leb_le; lia).
  replace (v <? 65536) with true by (symmetry; apply Z.ltb_lt; lia). reflexivity.
Qed.
Lemma to_bit_bytes_err : forall v, ~ 0 <= v < 65536 -> to_bit_bytes v = Err StructError.
Proof.
  intros v H. unfold to_bit_bytes. destruct (0 <=? v) eqn:A; auto. destruct (v <? 65536) eqn:B; auto.
  apply Z.leb_le in A. apply Z.ltb_lt in B. lia.
Qed.

Lemma mod_pow2_succ : forall v n, 0 <= n ->
  v mod 2 ^ (n + 1) = (if Z.testbit v n then 1 else 0) * 2 ^ n + v mod 2 ^ n.
Proof.
  intros v n Hn. rewrite Z.pow_add_r by lia. change (2 ^ 1) with 2.
  rewrite Z.rem_mul_r by (try apply Z.pow_nonzero; lia).
  assert (T : Z.testbit v n = Z.odd (v / 2 ^ n)).
  { rewrite Z.testbit_odd. now rewrite Z.shiftr_div_pow2. }
  rewrite T. rewrite Zmod_odd. destruct (Z.odd (v / 2 ^ n)); lia.
Qed.

Lemma bits_val_aux : forall n v a,
  fold_left (fun a (b : bool) => 2 * a + (if b then 1 else 0)) (bits_msb n v) a = a * 2 ^ Z.of_nat n + v mod 2 ^ Z.of_nat n.
Proof.
  induction n; intros v a.
  - cbn [bits_msb fold_left]. change (2 ^ Z.of_nat 0) with 1. rewrite Z.mod_1_r. lia.
  - cbn [bits_msb fold_left]. rewrite IHn.
    replace (Z.of_nat (S n)) with (Z.of_nat n + 1) by lia.
    rewrite mod_pow2_succ by lia. rewrite Z.pow_add_r by lia. change (2 ^ 1) with 2.
    destruct (Z.testbit v (Z.of_nat n)); lia.
Qed.
Lemma bits_val_msb : forall n v, bits_val (bits_msb n v) = v mod 2 ^ Z.of_nat n.
Proof. intros. unfold bits_val. rewrite bits_val_aux. lia. Qed.

Lemma firstn_msb : forall w n v, firstn w (bits_msb (w + n) v) = bits_msb w (v / 2 ^ Z.of_nat n).
Proof.
  induction w; intros n v; auto. cbn [Nat.add bits_msb firstn]. rewrite IHw. f_equal.
  rewrite <- Z.shiftr_div_pow2 by lia. rewrite Z.shiftr_spec by lia. f_equal. lia.
Qed.
Lemma skipn_msb : forall w n v, skipn w (bits_msb (w + n) v) = bits_msb n v.
Proof. induction w; intros n v; auto. cbn [Nat.add bits_msb skipn]. apply IHw. Qed.

Fixpoint width (d : desc) : nat := match d with [] => O | (_, w) :: r => (w + width r)%nat end.
Fixpoint fields (d : desc) (v : Z) : list (string * Z) :=
  match d with
  | [] => []
  | (name, w) :: r => (name, (v / 2 ^ Z.of_nat (width r)) mod 2 ^ Z.of_nat w) :: fields r v
  end.
Lemma unpack_fields : forall d v, unpack_bits d (bits_msb (width d) v) = fields d v.
Proof.
  induction d as [|[name w] r IH]; intros v; auto.
  cbn [unpack_bits width fields]. rewrite firstn_msb, skipn_msb, bits_val_msb, IH. reflexivity.
Qed.
Lemma unpack_with_fields : forall d v, width (rev d) = 16%nat -> 0 <= v < 65536 ->
  unpack_with d v = Ok (fields (rev d) v).
Proof.
  intros d v W H. unfold unpack_with. rewrite to_bit_bytes_ok by auto. cbn [bindr].
  rewrite <- W. now rewrite unpack_fields.
Qed.
Lemma unpack_with_err : forall d v, ~ 0 <= v < 65536 -> unpack_with d v = Err StructError.
Proof. intros d v H. unfold unpack_with. now rewrite to_bit_bytes_err. Qed.

(** ** Tile numbers: closed forms, by cases on the colour. *)
Definition TTC : mixedcat :=
  mkMixed [mkSub [4; 9] (Some 36); mkSub [4; 9] (Some 36); mkSub [4; 9] (Some 36); mkSub [4; 7] (Some 28)] [0; 36; 72; 108; 136].
Lemma ttc_ok : TENHOU_TILE_CATEGORY = Ok TTC.
Proof. reflexivity. Qed.

Lemma ttc_index_eq : forall c n h, 0 <= c < 4 -> ttc_index [c; n; h] = Ok (36 * c + 4 * n + h).
Proof.
  intros c n h H. unfold ttc_index. rewrite ttc_ok. cbn [bindr].
  assert (E0 : mixed_index TTC [0; n; h] = Ok (0 + (n * 4 + h))) by reflexivity.
  assert (E1 : mixed_index TTC [1; n; h] = Ok (36 + (n * 4 + h))) by reflexivity.
  assert (E2 : mixed_index TTC [2; n; h] = Ok (72 + (n * 4 + h))) by reflexivity.
  assert (E3 : mixed_index TTC [3; n; h] = Ok (108 + (n * 4 + h))) by reflexivity.
  assert (C : c = 0 \/ c = 1 \/ c = 2 \/ c = 3) by lia.
  destruct C as [-> | [-> | [-> | ->]]]; rewrite ?E0, ?E1, ?E2, ?E3; f_equal; lia.
Qed.

(** A statement about 0..n-1 by computation. *)
Lemma forall_range : forall (P : Z -> bool) n, 0 <= n -> forallb P (zrange 0 n) = true -> forall i, 0 <= i < n -> P i = true.
Proof.
  intros P n Hn H i Hi. rewrite forallb_forall in H. apply H. unfold zrange.
  apply in_map_iff. exists (Z.to_nat i). split; [lia|]. apply in_seq. lia.
Qed.
Lemma in_zrange : forall a b i, In i (zrange a b) <-> a <= i < b.
Proof.
  intros a b i. unfold zrange. rewrite in_map_iff. split.
  - intros (k & E & K). apply in_seq in K. lia.
  - intros H. exists (Z.to_nat (i - a)). split; [lia|]. apply in_seq. lia.
Qed.

Definition res_listZ_eqb (a b : res (list Z)) : bool :=
  match a, b with
  | Ok x, Ok y => if list_eq_dec Z.eq_dec x y then true else false
  | _, _ => false
  end.
Lemma ttc_category_eq : forall i, 0 <= i < 136 -> ttc_category i = Ok [i / 36; (i mod 36) / 4; i mod 4].
Proof.
  assert (H : forall i, 0 <= i < 136 ->
    res_listZ_eqb (ttc_category i) (Ok [i / 36; (i mod 36) / 4; i mod 4]) = true).
  { apply forall_range; [lia|]. vm_compute. reflexivity. }
  intros i Hi. specialize (H i Hi). unfold res_listZ_eqb in H.
  destruct (ttc_category i) as [x|]; [|discriminate].
  destruct (list_eq_dec Z.eq_dec x [i / 36; (i mod 36) / 4; i mod 4]) as [E|]; [now rewrite E|discriminate].
Qed.
Lemma bisect_beyond : forall i, 136 <= i -> bisect_right Z.ltb 0 (mc_acc TTC) i = 5%nat.
Proof.
  intros i H.
  destruct (bisect_right_spec Z.ltb 0 (mc_acc TTC) i) as (A & B & C).
  { cbn [mc_acc TTC length]. intros a b K L. apply Z.ltb_lt in L. exfalso.
    assert (Q : (a = 0 \/ a = 1 \/ a = 2 \/ a = 3)%nat) by lia.
    destruct Q as [-> | [-> | [-> | ->]]]; cbn in L; lia. }
  cbn [mc_acc TTC length] in *. 
  destruct (Nat.eq_dec (bisect_right Z.ltb 0 [0; 36; 72; 108; 136] i) 5) as [E|E]; auto.
  exfalso. specialize (C 4%nat). cbn [nth] in C.
  assert (K : (i <? 136) = true) by (apply C; lia). apply Z.ltb_lt in K. lia.
Qed.
Lemma ttc_category_beyond : forall i, 136 <= i -> ttc_category i = Err IndexError.
Proof.
  intros i H. unfold ttc_category. rewrite ttc_ok. cbn [bindr]. unfold mixed_category.
  rewrite bisect_beyond by auto. reflexivity.
Qed.

Lemma tile_from_tenhou_eq : forall i, tile_from_tenhou i =
  if i =? 16 then Ok (Aka Cm) else if i =? 52 then Ok (Aka Cp) else if i =? 88 then Ok (Aka Cs)
  else do cat <- ttc_category i;
       match cat with
       | [color; number; _] => do c <- py_nth SUIT_ORDER color; Ok (Plain (number + 1) c)
       | _ => Err ValueError
       end.
Proof. reflexivity. Qed.
