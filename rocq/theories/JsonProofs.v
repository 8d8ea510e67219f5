(** Proofs about Json.v: reading back a dumped value. *)
From Verif Require Import Base Parse Text Value Json StateProofs.
From Coq Require Import String List ZArith Lia Bool.
Import ListNotations.
Open Scope list_scope.
Open Scope Z_scope.

(** Induction over values, lists included. *)
Section ValInd.
  Variable P : val -> Prop.
  Hypothesis Hn : P VNone.
  Hypothesis Hb : forall b, P (VBool b).
  Hypothesis Hm : forall n, P (VNum n).
  Hypothesis Hs : forall s, P (VStr s).
  Hypothesis Hl : forall l, Forall P l -> P (VList l).
  Fixpoint val_ind2 (v : val) : P v :=
    match v with
    | VNone => Hn | VBool b => Hb b | VNum n => Hm n | VStr s => Hs s
    | VList l => Hl l ((fix go l : Forall P l := match l with [] => Forall_nil P | x :: r => Forall_cons x (val_ind2 x) (go r) end) l)
    end.
End ValInd.

(** ** Digits. *)
Definition stops (rest : text) : Prop := match rest with [] => True | c :: _ => c = 44 \/ c = 93 end.
Lemma stop_digit rest : stops rest -> match rest with [] => True | c :: _ => ch_digit c = false end.
Proof. destruct rest as [|c r]; [auto|]. now intros [-> | ->]. Qed.
Lemma span_app : forall ds rest, forallb ch_digit ds = true -> match rest with [] => True | c :: _ => ch_digit c = false end ->
  span_digits (ds ++ rest) = (ds, rest).
Proof.
  induction ds as [|d ds IH]; intros rest D R; cbn [app span_digits].
  - destruct rest as [|c r]; cbn [span_digits]; [auto|now rewrite R].
  - cbn [forallb] in D. apply andb_true_iff in D as [D1 D2]. now rewrite D1, IH.
Qed.
Lemma digits_head : forall fuel n, 0 < n < Z.of_nat fuel -> exists c r, digits_of fuel n = c :: r /\ 49 <= c <= 57.
Proof.
  induction fuel as [|f IH]; intros n H; [lia|]. cbn [digits_of]. destruct (n <? 10) eqn:E.
  - apply Z.ltb_lt in E. exists (48 + n), []. split; [auto|lia].
  - apply Z.ltb_ge in E. pose proof (Z.div_mod n 10 ltac:(lia)). pose proof (Z.mod_pos_bound n 10 ltac:(lia)).
    destruct (IH (n / 10)) as (c & r & -> & B); [lia|]. exists c, (r ++ [48 + n mod 10]). auto.
Qed.
Lemma scan_int_str n rest : 0 <= n -> match rest with [] => True | c :: _ => ch_digit c = false end ->
  scan_int (str_int n ++ rest) = Some (str_int n, rest).
Proof.
  intros H R. destruct (Z.eq_dec n 0) as [->|N]; [reflexivity|].
  pose proof (str_int_nonneg n H) as (A & B & C). revert A B C. unfold str_int. destruct (n <? 0) eqn:E; [apply Z.ltb_lt in E; lia|].
  destruct (digits_head (S (Z.to_nat n)) n) as (c & r & -> & Q); [lia|]. intros _ B _.
  pose proof (span_app (c :: r) rest B R) as Q2. cbn [app] in Q2. cbn [app scan_int]. destruct (c =? 48) eqn:E2; [apply Z.eqb_eq in E2; lia|].
  cbn [forallb] in B. apply andb_true_iff in B as [B _]. now rewrite B, Q2.
Qed.
Lemma fixed_spec : forall k r, forallb ch_digit (fixed_digits k r) = true /\ length (fixed_digits k r) = k /\
  (0 <= r < p10 k -> forall ds, digits_val (ds ++ fixed_digits k r) = digits_val ds * p10 k + r).
Proof.
  induction k as [|k IH]; intros r; cbn [fixed_digits].
  - split; [auto|]. split; [auto|]. unfold p10. cbn. intros H ds. rewrite app_nil_r. lia.
  - destruct (IH (r / 10)) as (A & B & C). pose proof (Z.mod_pos_bound r 10 ltac:(lia)). pose proof (Z.div_mod r 10 ltac:(lia)).
    rewrite forallb_app, A, app_length, B. cbn [forallb]. unfold ch_digit at 1. split; [rewrite !andb_true_iff, !Z.leb_le; lia|].
    split; [cbn [length]; lia|]. unfold p10 in *. rewrite Nat2Z.inj_succ, Z.pow_succ_r by lia. intros R ds.
    rewrite app_assoc, digits_val_app, C; [lia|]. split; [apply Z.div_pos; lia|apply Z.div_lt_upper_bound; lia].
Qed.
Lemma p10_pos k : 0 < p10 k.
Proof. unfold p10. apply Z.pow_pos_nonneg; lia. Qed.
Lemma p10_S k : p10 (S k) = 10 * p10 k.
Proof. unfold p10. rewrite Nat2Z.inj_succ, Z.pow_succ_r; lia. Qed.

(** ** Decimals. *)
Definition normal (m : Z) (k : nat) : Prop := k = 1%nat \/ (1 < k)%nat /\ m mod 10 <> 0.
Lemma dec_norm_spec : forall k m, let '(m', k') := dec_norm m k in normal m' k' /\ m * p10 k' = m' * p10 k.
Proof.
  induction k as [|k IH]; intros m; [cbn [dec_norm]; split; [now left|unfold p10; cbn; lia]|].
  destruct k as [|k]; [cbn [dec_norm]; split; [now left|lia]|].
  change (dec_norm m (S (S k))) with (if m mod 10 =? 0 then dec_norm (m / 10) (S k) else (m, S (S k))).
  destruct (m mod 10 =? 0) eqn:E.
  - specialize (IH (m / 10)). destruct (dec_norm (m / 10) (S k)) as [m' k']. destruct IH as [A B]. split; [auto|].
    apply Z.eqb_eq in E. pose proof (Z.div_mod m 10 ltac:(lia)). rewrite (p10_S (S k)).
    replace (m * p10 k') with (10 * (m / 10 * p10 k')) by nia. rewrite B. lia.
  - apply Z.eqb_neq in E. split; [right; split; [lia|auto]|lia].
Qed.
Lemma dec_norm_normal m k : normal m k -> dec_norm m k = (m, k).
Proof.
  intros [->|[K M]]; [reflexivity|]. destruct k as [|[|k]]; [lia|lia|].
  change (dec_norm m (S (S k))) with (if m mod 10 =? 0 then dec_norm (m / 10) (S k) else (m, S (S k))).
  apply Z.eqb_neq in M. now rewrite M.
Qed.
Definition num_norm (n : num) : num := match n with NInt z => NInt z | NDec m k => let '(m', k') := dec_norm m k in NDec m' k' end.

Lemma scan_exp_stop rest : stops rest -> scan_exp rest = (None, rest).
Proof. destruct rest as [|c r]; [auto|]. now intros [-> | ->]. Qed.
Lemma scan_frac_stop rest : stops rest -> scan_frac rest = (None, rest).
Proof. destruct rest as [|c r]; [auto|]. now intros [-> | ->]. Qed.

Definition split_sign (s : text) : Z * text := match s with c :: r => if c =? 45 then (-1, r) else (1, s) | [] => (1, s) end.
Lemma split_digits n rest : 0 <= n -> split_sign (str_int n ++ rest) = (1, str_int n ++ rest).
Proof.
  intros H. destruct (str_int_nonneg n H) as (A & B & _). destruct (str_int n) as [|c r]; [congruence|].
  destruct (digit_not_sign _ _ B) as (Q & _). cbn [app split_sign]. apply Z.eqb_neq in Q. now rewrite Q.
Qed.
Lemma scan_number_eq s : scan_number s = let '(sign, s1) := split_sign s in
  match scan_int s1 with
  | None => Err ValueError
  | Some (i, s2) =>
    let '(f, s3) := scan_frac s2 in
    let '(e, s4) := scan_exp s3 in
    match f, e with
    | None, None => Ok (VNum (NInt (sign * digits_val i)), s4)
    | _, _ =>
      let fd := match f with Some d => d | None => [] end in
      let ev := match e with Some z => z | None => 0 end in
      Ok (VNum (dec_of (sign * digits_val (i ++ fd)) (length fd) ev), s4)
    end
  end.
Proof. reflexivity. Qed.

Lemma scan_nat_int n rest sg s : 0 <= n -> stops rest -> split_sign s = (sg, str_int n ++ rest) ->
  scan_number s = Ok (VNum (NInt (sg * n)), rest).
Proof.
  intros H R Q. rewrite scan_number_eq, Q, scan_int_str by (first [assumption | now apply stop_digit]). rewrite scan_frac_stop, scan_exp_stop by auto.
  destruct (str_int_nonneg n H) as (_ & _ & ->). auto.
Qed.
Lemma scan_int_repr z rest : stops rest -> scan_number (str_int z ++ rest) = Ok (VNum (NInt z), rest).
Proof.
  intros R. destruct (Z.neg_nonneg_cases z) as [H|H].
  - assert (Q : str_int z = 45 :: str_int (- z)).
    { unfold str_int. destruct (z <? 0) eqn:E; [|apply Z.ltb_ge in E; lia]. destruct (- z <? 0) eqn:E2; [apply Z.ltb_lt in E2; lia|auto]. }
    rewrite Q, (scan_nat_int (- z) rest (-1)); auto; [|lia]. repeat f_equal. lia.
  - rewrite (scan_nat_int z rest 1); auto; [|now apply split_digits]. repeat f_equal. lia.
Qed.
Lemma dec_of_normal m k : normal m k -> dec_of m k 0 = NDec m k.
Proof.
  intros N. unfold dec_of. rewrite Z.sub_0_r. destruct (0 <=? Z.of_nat k) eqn:E; [|apply Z.leb_gt in E; lia].
  now rewrite Nat2Z.id, dec_norm_normal.
Qed.
Lemma scan_float_repr m k rest : stops rest -> scan_number (float_repr m k ++ rest) = Ok (VNum (num_norm (NDec m k)), rest).
Proof.
  intros R. unfold float_repr, num_norm. pose proof (dec_norm_spec k m) as H. destruct (dec_norm m k) as [m' k']. destruct H as [N _].
  set (q := Z.abs m' / p10 k'). set (r := Z.abs m' mod p10 k').
  pose proof (p10_pos k') as P. pose proof (Z.div_mod (Z.abs m') (p10 k') ltac:(lia)) as D. pose proof (Z.mod_pos_bound (Z.abs m') (p10 k') P) as B.
  assert (Q : 0 <= q) by (apply Z.div_pos; lia). fold q r in D, B.
  assert (S1 : split_sign (((if m' <? 0 then [45] else []) ++ str_int q ++ [46] ++ fixed_digits k' r) ++ rest) =
               ((if m' <? 0 then -1 else 1), str_int q ++ [46] ++ fixed_digits k' r ++ rest)).
  { rewrite <- !app_assoc. destruct (m' <? 0); [reflexivity|]. cbn [app]. now apply split_digits. }
  rewrite scan_number_eq, S1, scan_int_str by (auto; reflexivity).
  destruct (fixed_spec k' r) as (F1 & F2 & F3). cbn [app scan_frac]. rewrite Z.eqb_refl.
  rewrite span_app by (first [assumption | now apply stop_digit]).
  destruct (fixed_digits k' r) as [|c0 ds0] eqn:E0. { cbn [length] in F2. destruct N as [N|[N _]]; lia. }
  rewrite <- E0 in *. rewrite scan_exp_stop by auto. cbn iota beta zeta. rewrite (F3 B), F2.
  destruct (str_int_nonneg q Q) as (_ & _ & ->).
  assert (M : (if m' <? 0 then -1 else 1) * (q * p10 k' + r) = m').
  { destruct (m' <? 0) eqn:E; [apply Z.ltb_lt in E|apply Z.ltb_ge in E]; lia. }
  now rewrite M, dec_of_normal.
Qed.
Lemma scan_num_repr n rest : stops rest -> scan_number (num_repr n ++ rest) = Ok (VNum (num_norm n), rest).
Proof. destruct n as [z|m k]; intros R; [now apply scan_int_repr|now apply scan_float_repr]. Qed.
Lemma str_int_head n : exists c r, str_int n = c :: r /\ (c = 45 \/ 48 <= c <= 57).
Proof.
  destruct (Z.neg_nonneg_cases n) as [H|H].
  - destruct (str_int_neg n H) as (ds & -> & _). eauto.
  - destruct (str_int_nonneg n H) as (A & B & _). destruct (str_int n) as [|c r]; [congruence|]. exists c, r. split; [auto|].
    cbn [forallb] in B. unfold ch_digit in B. rewrite !andb_true_iff, !Z.leb_le in B. lia.
Qed.
Lemma num_head n : exists c r, num_repr n = c :: r /\ (c = 45 \/ 48 <= c <= 57).
Proof.
  destruct n as [z|m k]; cbn [num_repr]; [apply str_int_head|]. unfold float_repr. destruct (dec_norm m k) as [m' k'].
  destruct (m' <? 0); cbn [app]; [eauto|]. destruct (str_int_head (Z.abs m' / p10 k')) as (c & r & -> & H). cbn [app]. eauto.
Qed.

(** ** Texts. *)
(** A code point that is not a surrogate. *)
Definition scalar (c : Z) : Prop := 0 <= c <= 1114111 /\ ~ 55296 <= c <= 57343.
Lemma unhex_char d : 0 <= d < 16 -> unhex (hex_char d) = Some d.
Proof.
  intros H. unfold hex_char. destruct (d <? 10) eqn:E.
  - apply Z.ltb_lt in E. unfold unhex, ch_digit. replace (48 <=? 48 + d) with true by (symmetry; apply Z.leb_le; lia).
    replace (48 + d <=? 57) with true by (symmetry; apply Z.leb_le; lia). cbn [andb]. f_equal. lia.
  - apply Z.ltb_ge in E. unfold unhex, ch_digit. replace (87 + d <=? 57) with false by (symmetry; apply Z.leb_gt; lia). rewrite andb_false_r.
    replace (97 <=? 87 + d) with true by (symmetry; apply Z.leb_le; lia). replace (87 + d <=? 102) with true by (symmetry; apply Z.leb_le; lia).
    cbn [andb]. f_equal. lia.
Qed.
Lemma unhex_hex4 n : 0 <= n < 65536 ->
  unhex4 (hex_char (n / 4096 mod 16)) (hex_char (n / 256 mod 16)) (hex_char (n / 16 mod 16)) (hex_char (n mod 16)) = Some n.
Proof.
  intros H. unfold unhex4. rewrite !unhex_char by (apply Z.mod_pos_bound; lia). f_equal.
  Z.to_euclidean_division_equations. lia.
Qed.
(** A code point that is not a high surrogate is read alone. *)
Lemma scan_u u rest : 0 <= u < 65536 -> high_surrogate u = false -> scan_string (u_escape u ++ rest) = cons_fst u (scan_string rest).
Proof.
  intros H N. unfold u_escape, hex4. cbn [app scan_string]. cbn [Z.eqb Pos.eqb]. cbv iota. rewrite unhex_hex4 by auto.
  do 6 (destruct rest as [|? rest]; [reflexivity|]). rewrite N. cbn [andb]. reflexivity.
Qed.
Lemma scan_pair h l rest : 55296 <= h <= 56319 -> 56320 <= l <= 57343 ->
  scan_string ((u_escape h ++ u_escape l) ++ rest) = cons_fst (65536 + (h - 55296) * 1024 + (l - 56320)) (scan_string rest).
Proof.
  intros H L. unfold u_escape, hex4. cbn [app scan_string]. cbn [Z.eqb Pos.eqb]. cbv iota. rewrite !unhex_hex4 by lia.
  replace (high_surrogate h) with true by (symmetry; unfold high_surrogate; rewrite andb_true_iff, !Z.leb_le; lia).
  replace (low_surrogate l) with true by (symmetry; unfold low_surrogate; rewrite andb_true_iff, !Z.leb_le; lia). reflexivity.
Qed.
Lemma scan_char c rest : scalar c -> scan_string (escape_char c ++ rest) = cons_fst c (scan_string rest).
Proof.
  intros [[L H] S0]. unfold escape_char.
  destruct (c =? 34) eqn:E1; [apply Z.eqb_eq in E1; subst; reflexivity|].
  destruct (c =? 92) eqn:E2; [apply Z.eqb_eq in E2; subst; reflexivity|].
  destruct (c =? 10) eqn:E3; [apply Z.eqb_eq in E3; subst; reflexivity|].
  destruct (c =? 13) eqn:E4; [apply Z.eqb_eq in E4; subst; reflexivity|].
  destruct (c =? 9) eqn:E5; [apply Z.eqb_eq in E5; subst; reflexivity|].
  destruct (c =? 12) eqn:E6; [apply Z.eqb_eq in E6; subst; reflexivity|].
  destruct (c =? 8) eqn:E7; [apply Z.eqb_eq in E7; subst; reflexivity|].
  destruct ((32 <=? c) && (c <=? 126)) eqn:E8.
  { apply andb_true_iff in E8 as [A _]. apply Z.leb_le in A. cbn [app scan_string]. rewrite E1, E2.
    replace (c <? 32) with false by (symmetry; apply Z.ltb_ge; lia). reflexivity. }
  destruct (c <? 65536) eqn:E9.
  - apply Z.ltb_lt in E9. apply scan_u; [lia|]. unfold high_surrogate. apply andb_false_iff. rewrite !Z.leb_gt. lia.
  - apply Z.ltb_ge in E9. pose proof (Z.mod_pos_bound (c - 65536) 1024 ltac:(lia)). pose proof (Z.div_mod (c - 65536) 1024 ltac:(lia)).
    rewrite scan_pair by lia. f_equal. lia.
Qed.
Lemma scan_text : forall s rest, Forall scalar s -> scan_string (flat_map escape_char s ++ 34 :: rest) = Ok (s, rest).
Proof.
  induction s as [|c s IH]; intros rest F; [reflexivity|]. inversion F; subst. cbn [flat_map]. rewrite <- app_assoc, scan_char, IH by auto. reflexivity.
Qed.

(** ** Values. *)
Fixpoint readable (v : val) : Prop :=
  match v with
  | VStr s => Forall scalar s
  | VList l => (fix go l := match l with [] => True | x :: r => readable x /\ go r end) l
  | _ => True
  end.
Lemma readable_list l : readable (VList l) <-> Forall readable l.
Proof.
  cbn [readable]. induction l as [|x r IH]; [split; auto|]. rewrite IH. split; [intros []; auto|intros F; inversion F; auto].
Qed.
Fixpoint vnorm (v : val) : val :=
  match v with VNum n => VNum (num_norm n) | VList l => VList (map vnorm l) | _ => v end.
Fixpoint vfuel (v : val) : nat :=
  match v with VList l => S (list_sum (map (fun x => S (vfuel x)) l)) | _ => 1%nat end.

Lemma dumps_head v : exists c r, dumps v = c :: r /\ json_ws c = false /\ c <> 93 /\ c <> 65279.
Proof.
  destruct v as [|[|]|n|s|l].
  1-3: eexists; eexists; split; [reflexivity|]; now split.
  - cbn [dumps]. destruct (num_head n) as (c & r & -> & H). exists c, r. split; [auto|].
    assert (json_ws c = false) by (unfold json_ws; rewrite !orb_false_iff, !Z.eqb_neq; lia). split; [auto|lia].
  - cbn [dumps]. unfold dump_text. cbn [app]. eexists; eexists; split; [reflexivity|]; now split.
  - cbn [dumps app]. eexists; eexists; split; [reflexivity|]; now split.
Qed.
Lemma skip_dumps v rest : skip_ws (dumps v ++ rest) = dumps v ++ rest.
Proof. destruct (dumps_head v) as (c & r & -> & H & _). cbn [app skip_ws]. now rewrite H. Qed.

Lemma scan_items_dumps : forall l, l <> [] ->
  Forall (fun v => forall fuel rest, readable v -> (vfuel v <= fuel)%nat -> stops rest -> scan_value fuel (dumps v ++ rest) = Ok (vnorm v, rest)) l ->
  Forall readable l -> forall fuel rest, (list_sum (map (fun x => S (vfuel x)) l) <= fuel)%nat ->
  scan_items fuel (join (t_ ", ") (map dumps l) ++ 93 :: rest) = Ok (map vnorm l, rest).
Proof.
  induction l as [|x l IH]; intros N F R fuel rest L; [congruence|]. inversion F as [|? ? F1 F2]; subst. inversion R as [|? ? R1 R2]; subst.
  cbn [map list_sum fold_right] in L. fold (list_sum (map (fun y => S (vfuel y)) l)) in L. destruct fuel as [|fuel]; [lia|]. cbn [scan_items].
  destruct l as [|y l].
  - cbn [map join]. rewrite F1 by (auto; try lia; cbn; auto). cbn [bindr snd fst]. cbn [skip_ws]. reflexivity.
  - change (join (t_ ", ") (map dumps (x :: y :: l))) with (dumps x ++ t_ ", " ++ join (t_ ", ") (map dumps (y :: l))).
    rewrite <- !app_assoc. rewrite F1 by (auto; try lia; cbn; auto). cbn [bindr snd fst].
    change (t_ ", ") with [44; 32]. cbn [app skip_ws]. change (json_ws 44) with false. cbv iota. cbn [Z.eqb Pos.eqb]. cbn [skip_ws].
    change (json_ws 32) with true. cbv iota.
    assert (Q : forall tl, skip_ws (join [44; 32] (map dumps (y :: l)) ++ tl) = join [44; 32] (map dumps (y :: l)) ++ tl).
    { intros tl. destruct l as [|z l]; [apply skip_dumps|].
      change (join [44; 32] (map dumps (y :: z :: l))) with (dumps y ++ [44; 32] ++ join [44; 32] (map dumps (z :: l))).
      rewrite <- app_assoc. apply skip_dumps. }
    rewrite Q. change [44; 32] with (t_ ", "). rewrite IH by (auto; try discriminate; try lia). reflexivity.
Qed.
Lemma scan_dumps : forall v fuel rest, readable v -> (vfuel v <= fuel)%nat -> stops rest ->
  scan_value fuel (dumps v ++ rest) = Ok (vnorm v, rest).
Proof.
  induction v as [| b | n | s | l IH] using val_ind2; intros fuel rest R L S0; (destruct fuel as [|fuel]; [cbn [vfuel] in L; lia|]).
  - reflexivity.
  - destruct b; reflexivity.
  - cbn [dumps vnorm]. rewrite <- (scan_num_repr n rest S0). destruct (num_head n) as (c & r & -> & H). cbn [app scan_value].
    destruct (c =? 34) eqn:E1; [apply Z.eqb_eq in E1; lia|]. destruct (c =? 91) eqn:E2; [apply Z.eqb_eq in E2; lia|].
    assert (P : forall x p, x <> c -> strip_prefix (x :: p) (c :: r ++ rest) = None).
    { intros x p X. cbn [strip_prefix]. apply Z.eqb_neq in X. now rewrite X. }
    change (t_ "null") with (110 :: t_ "ull"). change (t_ "true") with (116 :: t_ "rue"). change (t_ "false") with (102 :: t_ "alse").
    rewrite !P by lia. reflexivity.
  - cbn [dumps vnorm]. unfold dump_text. rewrite <- !app_assoc. cbn [app scan_value]. rewrite Z.eqb_refl, scan_text by auto. reflexivity.
  - apply readable_list in R. cbn [dumps vnorm]. rewrite <- !app_assoc. cbn [app scan_value]. cbn [Z.eqb Pos.eqb].
    destruct l as [|x l]; [reflexivity|]. cbn [vfuel] in L.
    assert (H : exists c r, join (t_ ", ") (map dumps (x :: l)) ++ 93 :: rest = c :: r /\ json_ws c = false /\ c <> 93).
    { destruct (dumps_head x) as (c & r & Q & A & B & _). cbn [map]. destruct l as [|y l].
      - cbn [map join]. rewrite Q. cbn [app]. eauto.
      - change (join (t_ ", ") (dumps x :: map dumps (y :: l))) with (dumps x ++ t_ ", " ++ join (t_ ", ") (map dumps (y :: l))).
        rewrite Q. cbn [app]. eauto. }
    destruct H as (c & r & Q & A & B). rewrite Q. cbn [skip_ws]. rewrite A. apply Z.eqb_neq in B. rewrite B, <- Q.
    rewrite scan_items_dumps by (auto; try discriminate; lia). reflexivity.
Qed.
Lemma vfuel_dumps : forall v, (vfuel v <= 2 * length (dumps v))%nat.
Proof.
  induction v as [| b | n | s | l IH] using val_ind2.
  - cbn. lia.
  - destruct b; cbn; lia.
  - cbn [vfuel dumps]. destruct (num_head n) as (c & r & -> & _). cbn [length]. lia.
  - cbn [vfuel dumps]. unfold dump_text. rewrite !app_length. cbn [length]. lia.
  - cbn [vfuel dumps]. rewrite !app_length. cbn [length].
    assert (H : (list_sum (map (fun x => S (vfuel x)) l) <= 1 + 2 * length (join (t_ ", ") (map dumps l)))%nat).
    { induction l as [|x l IHl]; [cbn; lia|]. inversion IH as [|? ? H1 H2]; subst. specialize (IHl H2).
      cbn [map list_sum fold_right]. fold (list_sum (map (fun y => S (vfuel y)) l)). destruct l as [|y l].
      - cbn [map join list_sum fold_right]. lia.
      - change (join (t_ ", ") (dumps x :: map dumps (y :: l))) with (dumps x ++ t_ ", " ++ join (t_ ", ") (map dumps (y :: l))).
        rewrite !app_length. change (length (t_ ", ")) with 2%nat. lia. }
    lia.
Qed.
Lemma loads_dumps v : readable v -> loads (dumps v) = Ok (vnorm v).
Proof.
  intros R. pose proof (scan_dumps v (S (2 * length (dumps v))) [] R ltac:(pose proof (vfuel_dumps v); lia) I) as H.
  pose proof (skip_dumps v []) as K. rewrite app_nil_r in H, K. unfold loads. rewrite K, H.
  destruct (dumps_head v) as (c & r & -> & _ & _ & N). apply Z.eqb_neq in N. rewrite N. reflexivity.
Qed.
Lemma dumps_norm : forall v, dumps (vnorm v) = dumps v.
Proof.
  induction v as [| b | n | s | l IH] using val_ind2; auto.
  - cbn [vnorm dumps]. destruct n as [z|m k]; auto. cbn [num_norm]. pose proof (dec_norm_spec k m) as H.
    destruct (dec_norm m k) as [m' k'] eqn:E. destruct H as [N _]. cbn [num_repr]. unfold float_repr. now rewrite E, dec_norm_normal.
  - cbn [vnorm dumps]. rewrite map_map. do 3 f_equal. apply map_ext_in. intros x X. rewrite Forall_forall in IH. auto.
Qed.

(** ** The parser's fuel is never used up. *)
Lemma skip_len s : (length (skip_ws s) <= length s)%nat.
Proof. induction s as [|c r IH]; cbn [skip_ws]; [auto|]. destruct (json_ws c); cbn [length]; lia. Qed.
Definition shrinks {A} (s : text) (x : res (A * text)) : Prop :=
  match x with Ok (_, r) => (length r < length s)%nat | Err e => e <> OutOfFuel end.
Lemma shrinks_cons s c r x : shrinks r x -> (length r <= length s)%nat -> shrinks s (cons_fst c x).
Proof. destruct x as [[t q]|e]; cbn; [lia|auto]. Qed.
Lemma scan_string_shrinks : forall n s, (length s <= n)%nat -> shrinks s (scan_string s).
Proof.
  induction n as [|n IH]; intros s L; (destruct s as [|c r]; [cbn; discriminate|]); cbn [length] in L; [lia|]. cbn [scan_string].
  destruct (c =? 34); [cbn; lia|]. destruct (c =? 92).
  2:{ destruct (c <? 32); [cbn; discriminate|]. eapply shrinks_cons; [apply IH; lia|cbn; lia]. }
  destruct r as [|e r1]; [cbn; discriminate|]. cbn [length] in L. destruct (e =? 117).
  2:{ destruct (simple_escape e); [|cbn; discriminate]. eapply shrinks_cons; [apply IH; lia|cbn; lia]. }
  destruct r1 as [|h1 [|h2 [|h3 [|h4 r2]]]]; try (cbn; discriminate). cbn [length] in L.
  destruct (unhex4 h1 h2 h3 h4) as [u|]; [|cbn; discriminate].
  assert (B : shrinks (c :: e :: h1 :: h2 :: h3 :: h4 :: r2) (cons_fst u (scan_string r2))) by (eapply shrinks_cons; [apply IH; lia|cbn; lia]).
  destruct r2 as [|b1 [|u1 [|g1 [|g2 [|g3 [|g4 r3]]]]]]; try exact B.
  destruct (high_surrogate u && (b1 =? 92) && (u1 =? 117)); [|exact B].
  destruct (unhex4 g1 g2 g3 g4) as [u2|]; [|cbn; discriminate]. destruct (low_surrogate u2); [|exact B].
  cbn [length] in L. eapply shrinks_cons; [apply IH; lia|cbn; lia].
Qed.
Lemma span_len s : (length (snd (span_digits s)) <= length s)%nat.
Proof. induction s as [|c r IH]; cbn [span_digits]; [auto|]. destruct (ch_digit c); [|auto]. destruct (span_digits r). cbn in *. lia. Qed.
Lemma frac_len s : (length (snd (scan_frac s)) <= length s)%nat.
Proof.
  destruct s as [|c r]; cbn [scan_frac]; [auto|]. destruct (c =? 46); [|auto]. pose proof (span_len r). destruct (span_digits r) as [[|d ds] q]; cbn in *; lia.
Qed.
Lemma exp_len s : (length (snd (scan_exp s)) <= length s)%nat.
Proof.
  destruct s as [|c r]; cbn [scan_exp]; [auto|]. destruct ((c =? 101) || (c =? 69)); [|auto].
  destruct r as [|d r']; [cbn; auto|]. destruct (d =? 45); [|destruct (d =? 43)].
  1,2: pose proof (span_len r') as H; destruct (span_digits r') as [[|? ?] q]; cbn in *; lia.
  pose proof (span_len (d :: r')) as H. destruct (span_digits (d :: r')) as [[|? ?] q]; cbn in *; lia.
Qed.
Lemma scan_number_shrinks s : shrinks s (scan_number s).
Proof.
  rewrite scan_number_eq.
  assert (H : (length (snd (split_sign s)) <= length s)%nat) by (destruct s as [|c r]; cbn [split_sign]; [auto|destruct (c =? 45); cbn; lia]).
  destruct (split_sign s) as [sg s1]. cbn [snd] in H. destruct (scan_int s1) as [[i s2]|] eqn:E; [|cbn; discriminate].
  assert (H2 : (length s2 < length s1)%nat).
  { destruct s1 as [|c r]; cbn [scan_int] in E; [discriminate|]. destruct (c =? 48); [injection E as <- <-; cbn; lia|].
    destruct (ch_digit c) eqn:D; [|discriminate]. cbn [span_digits] in E. rewrite D in E. pose proof (span_len r). destruct (span_digits r). injection E as <- <-. cbn in *. lia. }
  pose proof (frac_len s2) as H3. destruct (scan_frac s2) as [f s3]. pose proof (exp_len s3) as H4. destruct (scan_exp s3) as [e s4]. cbn [snd] in *.
  destruct f, e; cbn; lia.
Qed.
Lemma strip_len : forall p s r, strip_prefix p s = Some r -> length s = (length p + length r)%nat.
Proof.
  induction p as [|x p IH]; intros s r H; cbn [strip_prefix] in H; [injection H as ->; auto|].
  destruct s as [|y s]; [discriminate|]. destruct (x =? y); [|discriminate]. apply IH in H. cbn [length]. lia.
Qed.
Lemma scan_shrinks : forall fuel s,
  ((2 * length s < fuel)%nat -> shrinks s (scan_value fuel s)) /\ ((2 * length s + 1 < fuel)%nat -> shrinks s (scan_items fuel s)).
Proof.
  induction fuel as [|f IH]; intros s; [split; lia|]. split; intros L.
  - cbn [scan_value]. destruct s as [|c r]; [cbn; discriminate|]. cbn [length] in L. destruct (c =? 34).
    { pose proof (scan_string_shrinks (length r) r (le_n _)) as H. destruct (scan_string r) as [[t q]|e]; cbn in *; [lia|auto]. }
    destruct (c =? 91).
    { pose proof (skip_len r) as K. destruct (skip_ws r) as [|d r']; [cbn; discriminate|]. destruct (d =? 93); [cbn in *; lia|].
      destruct (IH (d :: r')) as [_ H]. assert (Q : (2 * length (d :: r') + 1 < f)%nat) by (cbn [length] in *; lia). specialize (H Q).
      destruct (scan_items f (d :: r')) as [[t q]|e]; cbn in *; [lia|auto]. }
    destruct (strip_prefix (t_ "null") (c :: r)) eqn:E1; [apply strip_len in E1; cbn in *; lia|].
    destruct (strip_prefix (t_ "true") (c :: r)) eqn:E2; [apply strip_len in E2; cbn in *; lia|].
    destruct (strip_prefix (t_ "false") (c :: r)) eqn:E3; [apply strip_len in E3; cbn in *; lia|]. apply scan_number_shrinks.
  - cbn [scan_items]. destruct (IH s) as [H _]. specialize (H ltac:(lia)). destruct (scan_value f s) as [[v q]|e]; [|exact H]. cbn [bindr fst snd].
    cbn in H. pose proof (skip_len q) as K. destruct (skip_ws q) as [|d r]; [cbn; discriminate|]. cbn [length] in K. destruct (d =? 93); [cbn in *; lia|].
    destruct (d =? 44); [|cbn; discriminate]. pose proof (skip_len r) as K2. destruct (IH (skip_ws r)) as [_ H2]. specialize (H2 ltac:(lia)).
    destruct (scan_items f (skip_ws r)) as [[vs q2]|e]; cbn in *; [lia|auto].
Qed.
(** [loads] always ends. *)
Lemma loads_total s : loads s <> Err OutOfFuel.
Proof.
  unfold loads. destruct s as [|c r]; [discriminate|]. destruct (c =? 65279); [discriminate|]. pose proof (skip_len (c :: r)) as K.
  destruct (scan_shrinks (S (2 * length (c :: r))) (skip_ws (c :: r))) as [H _]. specialize (H ltac:(lia)).
  destruct (scan_value _ (skip_ws (c :: r))) as [[v q]|e]; [|intros [= ->]; now apply H]. cbn [bindr fst snd]. destruct (skip_ws q); discriminate.
Qed.
