(** C05, C25, C26, C28: tile numbers, meld codes and game types. Final statements. *)
From Verif Require Import Base Category Tile Parse Text Tenhou TenhouProofs Spec_Tile Spec_Meld MeldProofs.
From Coq Require Import String List ZArith Lia Bool Permutation.
Import ListNotations.
Open Scope list_scope.
Open Scope Z_scope.

Lemma Ok_inj : forall A (a b : A), Ok a = Ok b -> b = a.
Proof. intros A a b E. now inversion E. Qed.

(** ** C05 *)
Definition kind_dec : forall a b : kind, {a = b} + {a <> b}.
Proof. intros [c n] [d m]. destruct (Z.eq_dec n m); destruct c, d; try (left; congruence); right; congruence. Defined.
Lemma tile_numbers : forall i, valid_tile i ->
  (match tile_from_tenhou i with
   | Ok t => (if kind_dec (view t) (face i) then true else false) &&
             match t with
             | Plain n c => negb ((i =? 16) || (i =? 52) || (i =? 88)) && (1 <=? n) && (n <=? (match c with Cz => 7 | _ => 9 end))
             | Aka c => ((i =? 16) || (i =? 52) || (i =? 88)) && negb (color_eqb c Cz)
             end
   | Err _ => false
   end) = true.
Proof. unfold valid_tile. apply forall_range; [lia|]. vm_compute. reflexivity. Qed.

(** Every tile number denotes its face; the first copy of each five, and only that, is
    the red tile. *)
Theorem C05_tile_of_number : forall i, valid_tile i ->
  exists t, tile_from_tenhou i = Ok t /\ legal_tile t /\ view t = face i /\
    (red_number i <-> exists c, t = Aka c).
Proof.
  intros i H. pose proof (tile_numbers i H) as T. destruct (tile_from_tenhou i) as [t|]; [|discriminate].
  exists t. apply andb_true_iff in T. destruct T as [A B].
  destruct (kind_dec (view t) (face i)) as [E|]; [|discriminate]. split; auto.
  assert (R : ((i =? 16) || (i =? 52) || (i =? 88)) = true <-> red_number i).
  { unfold red_number. rewrite !orb_true_iff, !Z.eqb_eq. tauto. }
  destruct t as [n c|c].
  - apply andb_true_iff in B. destruct B as [B B3]. apply andb_true_iff in B. destruct B as [B1 B2].
    apply negb_true_iff in B1. split; [|split; [exact E|]].
    + cbn. destruct c; cbn in *; lia.
    + rewrite <- R, B1. split; [discriminate|]. intros [c' Q]. discriminate.
  - apply andb_true_iff in B. destruct B as [B1 B2]. apply negb_true_iff in B2. split; [|split; [exact E|]].
    + cbn. intros ->. discriminate.
    + rewrite <- R, B1. split; eauto.
Qed.
(** Numbers beyond the last tile are rejected. *)
Theorem C05_rejected : forall i, 136 <= i -> tile_from_tenhou i = Err IndexError.
Proof.
  intros i H. rewrite tile_from_tenhou_eq.
  replace (i =? 16) with false by (symmetry; apply Z.eqb_neq; lia).
  replace (i =? 52) with false by (symmetry; apply Z.eqb_neq; lia).
  replace (i =? 88) with false by (symmetry; apply Z.eqb_neq; lia).
  now rewrite ttc_category_beyond.
Qed.

(** The range of a plain tile is exactly the four physical copies of its face. *)
Lemma range_plain : forall n c, tile_to_tenhou_range (Plain n c) =
  Ok (zrange (36 * suit_order_index c + 4 * (n - 1)) (36 * suit_order_index c + 4 * (n - 1) + 4)).
Proof.
  intros n c. unfold tile_to_tenhou_range. rewrite !ttc_index_eq by (destruct c; cbn; lia).
  cbn [bindr tnumber tcolor]. do 2 f_equal; lia.
Qed.
Lemma face_inv : forall i c n, valid_tile i -> legal_kind (c, n) ->
  (face i = (c, n) <-> 36 * suit_order_index c + 4 * (n - 1) <= i < 36 * suit_order_index c + 4 * (n - 1) + 4).
Proof.
  intros i c n V L. unfold valid_tile in V. unfold face, suit_of_block.
  pose proof (Z.div_mod i 4). pose proof (Z.mod_pos_bound i 4).
  pose proof (Z.div_mod (i / 4) 9). pose proof (Z.mod_pos_bound (i / 4) 9).
  split.
  - intros E. destruct (i / 4 <? 9) eqn:A; [|destruct (i / 4 <? 18) eqn:B; [|destruct (i / 4 <? 27) eqn:C]];
      inversion E; subst; cbn [suit_order_index];
      rewrite ?Z.ltb_lt, ?Z.ltb_ge in *; lia.
  - intros E. destruct c; cbn [suit_order_index legal_kind fst snd] in *;
      destruct (i / 4 <? 9) eqn:A; destruct (i / 4 <? 18) eqn:B; destruct (i / 4 <? 27) eqn:C;
      rewrite ?Z.ltb_lt, ?Z.ltb_ge in *; cbn in L; try (exfalso; lia); f_equal; lia.
Qed.
Theorem C05_range_partial : forall n c, legal_kind (c, n) ->
  exists r, tile_to_tenhou_range (Plain n c) = Ok r /\ NoDup r /\
    forall j, In j r <-> valid_tile j /\ face j = (c, n).
Proof.
  intros n c L. eexists. split; [apply range_plain|]. split.
  - unfold zrange. apply FinFun.Injective_map_NoDup; [|apply seq_NoDup]. intros a b. lia.
  - intros j. rewrite in_zrange.
    assert (V : 36 * suit_order_index c + 4 * (n - 1) <= j < 36 * suit_order_index c + 4 * (n - 1) + 4 -> valid_tile j).
    { unfold valid_tile. unfold legal_kind in L. destruct c; cbn [suit_order_index fst snd] in *; lia. }
    split.
    + intros H. pose proof (V H). split; auto. now apply face_inv.
    + intros [A B]. now apply face_inv in B.
Qed.
(** The full claim: also for the red fives. *)
Definition C05_full : Prop := forall i, valid_tile i ->
  exists t r, tile_from_tenhou i = Ok t /\ tile_to_tenhou_range t = Ok r /\
    forall j, In j r <-> valid_tile j /\ face j = face i.
(** It fails for every red five: none of the numbers in the range has its face. *)
Theorem C05_refuted : forall i, red_number i ->
  exists t r, tile_from_tenhou i = Ok t /\ tile_to_tenhou_range t = Ok r /\
    forall j, In j r -> ~ (valid_tile j /\ face j = face i).
Proof.
  intros i [-> | [-> | ->]]; eexists; eexists; (split; [reflexivity|]); (split; [reflexivity|]);
    intros j I [V E]; cbn in I; repeat (destruct I as [<- | I]; [unfold valid_tile in V; try lia; discriminate E|]); exact I.
Qed.
Theorem C05_full_refuted : ~ C05_full.
Proof.
  intros F. destruct (F 16 ltac:(unfold valid_tile; lia)) as (t & r & A & B & C).
  destruct (C05_refuted 16 (or_introl eq_refl)) as (t' & r' & A' & B' & C').
  rewrite A in A'. inversion A'; subst t'. rewrite B in B'. inversion B'; subst r'.
  assert (I : In 17 r) by (apply C; split; [unfold valid_tile; lia|reflexivity]).
  apply (C' 17 I). split; [unfold valid_tile; lia|reflexivity].
Qed.
Example C05_examples : tile_from_tenhou 16 = Ok (Aka Cm) /\ tile_from_tenhou 135 = Ok (Plain 7 Cz) /\
  tile_to_tenhou_range (Plain 5 Cm) = Ok [16; 17; 18; 19] /\ tile_to_tenhou_range (Aka Cm) = Ok [-4; -3; -2; -1] /\
  tile_to_tenhou_range (Aka Cp) = Ok [32; 33; 34; 35].
Proof. repeat split. Qed.

(** ** C25 *)
Lemma ex3 : forall (P : Z -> Prop), (exists i, 0 <= i < 3 /\ P i) <-> P 0 \/ P 1 \/ P 2.
Proof.
  intros P. split.
  - intros (i & H & p). assert (C : i = 0 \/ i = 1 \/ i = 2) by lia. destruct C as [-> | [-> | ->]]; auto.
  - intros [p | [p | p]]; [exists 0|exists 1|exists 2]; split; auto; lia.
Qed.
Lemma chi_lt : forall v i, 0 <= i -> chi_tile v i < chi_tile v (i + 1).
Proof.
  intros v i H. unfold chi_tile. pose proof (field_range v (3 + 2 * i) 2 ltac:(lia)). pose proof (field_range v (3 + 2 * (i + 1)) 2 ltac:(lia)).
  change (2 ^ 2) with 4 in *. lia.
Qed.
Lemma pon_lt : forall v i, pon_tile v i < pon_tile v (i + 1).
Proof. intros v i. unfold pon_tile. destruct (i <? field v 5 2) eqn:A; destruct (i + 1 <? field v 5 2) eqn:B; rewrite ?Z.ltb_lt, ?Z.ltb_ge in *; lia. Qed.

Lemma one_of_three : forall (f : Z -> Z) p x, f 0 < f 1 -> f 1 < f 2 -> 0 <= p < 3 ->
  (In x (set_minus (set_of [f 0; f 1; f 2]) [f p]) <-> exists i, 0 <= i < 3 /\ i <> p /\ x = f i).
Proof.
  intros f p x A B P. rewrite in_set_minus, in_set_of. rewrite ex3. cbn [In].
  assert (C : p = 0 \/ p = 1 \/ p = 2) by lia. destruct C as [-> | [-> | ->]]; intuition lia.
Qed.

(** Every 16-bit code whose tile field is in range decodes to what the layout says. *)
Theorem C25_decode : forall who v, 0 <= v < 65536 -> tile_field_ok v ->
  exists m, meld_from_code who v = Ok m /\ m_class m = call_kind v /\
    (forall x, In x (m_self m) <-> laid_down v x) /\
    (forall x, In x (m_borrowed m) <-> taken v x) /\
    NoDup (m_self m) /\ NoDup (m_borrowed m) /\
    m_from m = (who + source v) mod 4.
Proof.
  intros who v H T. rewrite meld_from_code_eq by auto. unfold tile_field_ok, laid_down, taken in *.
  destruct (call_kind v) eqn:K.
  - eexists. split; [now apply flush_ok|]. cbn [m_class m_self m_borrowed m_from]. split; [reflexivity|].
    split; [|split; [|split; [apply nodup_set_minus, nodup_set_of|split; [repeat constructor; auto|reflexivity]]]].
    + intros x. apply one_of_three; [apply (chi_lt v 0); lia|apply (chi_lt v 1); lia|apply Z.mod_pos_bound; lia].
    + intros x. cbn. intuition.
  - eexists. split; [now apply triplet_ok|]. cbn [m_class m_self m_borrowed m_from]. split; [reflexivity|].
    split; [|split; [|split; [apply nodup_set_minus, nodup_set_of|split; [repeat constructor; auto|reflexivity]]]].
    + intros x. apply one_of_three; [apply (pon_lt v 0); lia|apply (pon_lt v 1); lia|apply Z.mod_pos_bound; lia].
    + intros x. cbn. intuition.
  - eexists. split; [now apply added_ok|]. cbn [m_class m_self m_borrowed m_from]. split; [reflexivity|].
    split; [|split; [|split; [repeat constructor; auto|split; [constructor|reflexivity]]]]; intros x; cbn; intuition.
  - eexists. split; [now apply kan_ok|]. 
    assert (F : forall x, In x (set_of (four (high_byte v))) <-> x / 4 = high_byte v / 4).
    { intros x. rewrite in_set_of. unfold four. set (q := high_byte v / 4). cbn [In].
      pose proof (Z.div_mod x 4). pose proof (Z.mod_pos_bound x 4). lia. }
    destruct (source v =? 0) eqn:S; cbn [m_class m_self m_borrowed m_from]; (split; [reflexivity|]).
    + apply Z.eqb_eq in S.
      split; [|split; [|split; [apply nodup_set_of|split; [constructor|reflexivity]]]]; intros x.
      * rewrite F. intuition.
      * cbn. intuition.
    + apply Z.eqb_neq in S.
      split; [|split; [|split; [apply nodup_set_minus, nodup_set_of|split; [repeat constructor; auto|reflexivity]]]]; intros x.
      * rewrite in_set_minus, F. cbn. intuition.
      * cbn. intuition.
  - eexists. split; [now apply kita_ok|]. cbn [m_class m_self m_borrowed m_from]. split; [reflexivity|].
    split; [|split; [|split; [repeat constructor; auto|split; [constructor|reflexivity]]]]; intros x; cbn; intuition.
  - exfalso. unfold call_kind in K. repeat (destruct (_ =? _) in K; try discriminate).
Qed.
(** The others fail. *)
Theorem C25_rejected : forall who v,
  (0 <= v < 65536 -> ~ tile_field_ok v ->
     meld_from_code who v = Err (match call_kind v with CKan => IndexError | _ => AssertionError end)) /\
  (~ 0 <= v < 65536 -> meld_from_code who v = Err StructError).
Proof.
  intros who v. split.
  - intros H T. rewrite meld_from_code_eq by auto. unfold tile_field_ok in *.
    destruct (call_kind v) eqn:K; try (exfalso; now apply T).
    + apply flush_err; auto; lia.
    + apply triplet_err; auto; lia.
    + apply added_err; auto; lia.
    + apply kan_err; auto; lia.
  - intros H. unfold meld_from_code. now rewrite unpack_with_err.
Qed.
(** The separate classification function agrees. *)
Theorem C25_meld_type : forall v, 0 <= v < 65536 -> meld_type v = Ok (call_kind v).
Proof. exact meld_type_eq. Qed.
(** A chi of 4p 5p 6p (taken: 5p), a pon of 7z, an added kan, a kita and two kans. *)
Example C25_examples :
  meld_from_code 1 (31 * 1024 + 0 + 8 * 1 + 32 * 2 + 128 * 3 + 4 + 3) = Ok (mkMeld CFlush [49; 59] [54] 0) /\
  meld_from_code 2 (101 * 512 + 32 * 1 + 8 + 1) = Ok (mkMeld CTriplet [132; 134] [135] 3) /\
  meld_from_code 2 (101 * 512 + 32 * 1 + 16 + 1) = Ok (mkMeld CAddedKan [133] [] 3) /\
  meld_from_code 0 (120 * 256 + 32) = Ok (mkMeld CKita [120] [] 0) /\
  meld_from_code 3 (6 * 256) = Ok (mkMeld CKan [4; 5; 6; 7] [] 3) /\
  meld_from_code 3 (6 * 256 + 2) = Ok (mkMeld CKan [4; 5; 7] [6] 1) /\
  tile_field_ok (31 * 1024 + 0 + 8 * 1 + 32 * 2 + 128 * 3 + 4 + 3).
Proof. repeat split. Qed.

(** ** C26 *)
Lemma minus_one : forall l f, NoDup l -> In f l -> Permutation l (f :: set_minus l [f]).
Proof.
  intros l f N I. apply NoDup_Permutation; auto.
  - constructor; [|now apply nodup_set_minus]. rewrite in_set_minus. cbn. tauto.
  - intros x. cbn [In]. rewrite in_set_minus. cbn [In]. destruct (Z.eq_dec f x); [subst; tauto|intuition congruence].
Qed.
Lemma three_minus : forall (f : Z -> Z) p, f 0 < f 1 -> f 1 < f 2 -> 0 <= p < 3 ->
  Permutation (set_minus (set_of [f 0; f 1; f 2]) [f p] ++ [f p]) [f 0; f 1; f 2].
Proof.
  intros f p A B P. rewrite Permutation_app_comm. cbn [app]. symmetry.
  assert (N : NoDup [f 0; f 1; f 2]).
  { repeat constructor; cbn; intuition lia. }
  unfold set_of at 1. rewrite nodup_fixed_point by auto. apply minus_one; auto.
  assert (C : p = 0 \/ p = 1 \/ p = 2) by lia. destruct C as [-> | [-> | ->]]; cbn; auto.
Qed.
Lemma four_nodup : forall h, NoDup (four h).
Proof. intros h. unfold four. repeat constructor; cbn; intuition lia. Qed.
Lemma face_block : forall i q, i / 4 = q -> face i = (suit_of_block q, q mod 9 + 1).
Proof. intros i q <-. reflexivity. Qed.
Lemma face_block_inv : forall x h, valid_tile x -> valid_tile h -> face x = face h -> x / 4 = h / 4.
Proof.
  intros x h X H E. unfold face, suit_of_block, valid_tile in *.
  pose proof (Z.div_mod x 4). pose proof (Z.mod_pos_bound x 4). pose proof (Z.div_mod h 4). pose proof (Z.mod_pos_bound h 4).
  pose proof (Z.div_mod (x / 4) 9). pose proof (Z.mod_pos_bound (x / 4) 9).
  pose proof (Z.div_mod (h / 4) 9). pose proof (Z.mod_pos_bound (h / 4) 9).
  destruct (x / 4 <? 9) eqn:A; destruct (x / 4 <? 18) eqn:B; destruct (x / 4 <? 27) eqn:C;
    destruct (h / 4 <? 9) eqn:D; destruct (h / 4 <? 18) eqn:F; destruct (h / 4 <? 27) eqn:G;
    rewrite ?Z.ltb_lt, ?Z.ltb_ge in *; try (exfalso; lia); inversion E; lia.
Qed.

Definition C26_statement (accept : Z -> meld -> Prop) : Prop := forall who v m,
  meld_from_code who v = Ok m -> accept v m ->
  well_formed m /\ m_from m = (who + source v) mod 4 /\
  (m_class m = CKan -> length (m_borrowed m) = if source v =? 0 then 0%nat else 1%nat).
(** The full claim is about every accepted code. *)
Definition C26_full : Prop := C26_statement (fun _ _ => True).

Lemma code_range : forall who v m, meld_from_code who v = Ok m -> 0 <= v < 65536.
Proof.
  intros who v m E. destruct (Z_le_dec 0 v); [destruct (Z_lt_dec v 65536); [lia|]|];
    (assert (B : ~ 0 <= v < 65536) by lia; destruct (C25_rejected who v) as [_ R]; rewrite R in E by auto; discriminate).
Qed.

Theorem C26_well_formed_partial :
  C26_statement (fun v m => m_class m = CKita -> high_byte v < 136).
Proof.
  intros who v m E A. pose proof (code_range _ _ _ E) as H.
  rewrite meld_from_code_eq in E by auto.
  pose proof (field_range v 10 6 ltac:(lia)) as R6. change (2 ^ 6) with 64 in R6.
  pose proof (field_range v 9 7 ltac:(lia)) as R7. change (2 ^ 7) with 128 in R7.
  pose proof (field_range v 8 8 ltac:(lia)) as R8. change (2 ^ 8) with 256 in R8. change (field v 8 8) with (high_byte v) in R8.
  pose proof (field_range v 5 2 ltac:(lia)) as R2. change (2 ^ 2) with 4 in R2.
  destruct (call_kind v) eqn:K.
  - destruct (Z_lt_dec (field v 10 6) 63) as [T|T]; [|rewrite flush_err in E by (auto; lia); discriminate].
    rewrite flush_ok in E by auto. apply Ok_inj in E; subst m. cbn [m_class m_self m_borrowed m_from] in *.
    pose proof (chi_lt v 0 ltac:(lia)) as L1. pose proof (chi_lt v 1 ltac:(lia)) as L2. change (0 + 1) with 1 in L1. change (1 + 1) with 2 in L2.
    assert (P : 0 <= chi_position v < 3) by (apply Z.mod_pos_bound; lia).
    pose proof (three_minus (chi_tile v) _ L1 L2 P) as PM.
    assert (Q : 0 <= field v 10 6 / 3 < 21) by (apply div_bound; lia).
    assert (Q' : 0 <= field v 10 6 / 3 / 7 < 3) by (apply div_bound; lia).
    assert (Q'' : 0 <= (field v 10 6 / 3) mod 7 < 7) by (apply Z.mod_pos_bound; lia).
    assert (BL : forall i, 0 <= i < 3 -> chi_tile v i / 4 = 9 * (field v 10 6 / 3 / 7) + (field v 10 6 / 3) mod 7 + i).
    { intros i Hi. unfold chi_tile. cbv zeta. pose proof (field_range v (3 + 2 * i) 2 ltac:(lia)) as R. change (2 ^ 2) with 4 in R.
      symmetry. eapply Z.div_unique_pos; [exact R|]. lia. }
    split; [|split; [reflexivity|intros; discriminate]].
    split; [|split].
    + unfold meld_tiles. cbn [m_self m_borrowed]. eapply Permutation_NoDup; [symmetry; exact PM|].
      repeat constructor; cbn; intuition lia.
    + unfold meld_tiles. cbn [m_self m_borrowed]. eapply Permutation_Forall; [symmetry; exact PM|].
      assert (V : forall i, 0 <= i < 3 -> valid_tile (chi_tile v i)).
      { intros i Hi. unfold valid_tile. pose proof (Z.div_mod (chi_tile v i) 4 ltac:(lia)) as D. pose proof (Z.mod_pos_bound (chi_tile v i) 4 ltac:(lia)).
        rewrite BL in D by auto. lia. }
      repeat constructor; apply V; lia.
    + unfold meld_shape. cbn [m_class m_self m_borrowed].
      set (u := field v 10 6 / 3 / 7) in *. set (n := (field v 10 6 / 3) mod 7) in *.
      exists (chi_tile v 0), (chi_tile v 1), (chi_tile v 2), (suit_of_block (9 * u)), (n + 1).
      assert (FA : forall i, 0 <= i < 3 -> face (chi_tile v i) = (suit_of_block (9 * u), n + 1 + i)).
      { intros i Hi. rewrite (face_block _ _ (BL i Hi)). f_equal.
        - unfold suit_of_block. assert (C : u = 0 \/ u = 1 \/ u = 2) by lia.
          destruct C as [-> | [-> | ->]];
            repeat match goal with |- context [?a <? ?b] => destruct (a <? b) eqn:?; rewrite ?Z.ltb_lt, ?Z.ltb_ge in * end; auto; lia.
        - replace (9 * u + n + i) with (n + i + u * 9) by lia. rewrite Z.mod_add by lia. rewrite Z.mod_small by lia. lia. }
      split; [|split; [|split; [lia|split; [|split; [|split; [|split]]]]]].
      * intros x. unfold meld_tiles. cbn [m_self m_borrowed]. split; intros I.
        -- eapply Permutation_in in I; [|exact PM]. cbn in I. intuition.
        -- eapply Permutation_in; [symmetry; exact PM|]. cbn. intuition.
      * unfold suit_of_block. assert (C : u = 0 \/ u = 1 \/ u = 2) by lia. destruct C as [-> | [-> | ->]]; discriminate.
      * rewrite FA by lia. f_equal. lia.
      * rewrite FA by lia. f_equal. 
      * rewrite FA by lia. f_equal. 
      * apply Permutation_length in PM. rewrite app_length in PM. cbn [length] in PM. lia.
      * reflexivity.
  - destruct (Z_lt_dec (field v 9 7) 102) as [T|T]; [|rewrite triplet_err in E by (auto; lia); discriminate].
    rewrite triplet_ok in E by auto. apply Ok_inj in E; subst m. cbn [m_class m_self m_borrowed m_from] in *.
    pose proof (pon_lt v 0) as L1. pose proof (pon_lt v 1) as L2. change (0 + 1) with 1 in L1. change (1 + 1) with 2 in L2.
    assert (P : 0 <= pon_position v < 3) by (apply Z.mod_pos_bound; lia).
    pose proof (three_minus (pon_tile v) _ L1 L2 P) as PM.
    assert (Q : 0 <= field v 9 7 / 3 < 34) by (apply div_bound; lia).
    assert (BL : forall i, 0 <= i < 3 -> pon_tile v i / 4 = field v 9 7 / 3).
    { intros i Hi. unfold pon_tile. symmetry. destruct (i <? field v 5 2) eqn:B; rewrite ?Z.ltb_lt, ?Z.ltb_ge in B.
      - eapply Z.div_unique_pos with (r := i); lia.
      - eapply Z.div_unique_pos with (r := i + 1); lia. }
    split; [|split; [reflexivity|intros; discriminate]].
    split; [|split].
    + unfold meld_tiles. cbn [m_self m_borrowed]. eapply Permutation_NoDup; [symmetry; exact PM|].
      repeat constructor; cbn; intuition lia.
    + unfold meld_tiles. cbn [m_self m_borrowed]. eapply Permutation_Forall; [symmetry; exact PM|].
      assert (V : forall i, 0 <= i < 3 -> valid_tile (pon_tile v i)).
      { intros i Hi. unfold valid_tile. pose proof (Z.div_mod (pon_tile v i) 4 ltac:(lia)) as D. pose proof (Z.mod_pos_bound (pon_tile v i) 4 ltac:(lia)).
        rewrite BL in D by auto. lia. }
      repeat constructor; apply V; lia.
    + unfold meld_shape. cbn [m_class m_self m_borrowed]. split; [|split].
      * exists (suit_of_block (field v 9 7 / 3), (field v 9 7 / 3) mod 9 + 1).
        intros x I. unfold meld_tiles in I. cbn [m_self m_borrowed] in I. eapply Permutation_in in I; [|exact PM]. cbn in I.
        destruct I as [<- | [<- | [<- | []]]]; apply face_block, BL; lia.
      * apply Permutation_length in PM. rewrite app_length in PM. cbn [length] in PM. lia.
      * reflexivity.
  - destruct (Z_lt_dec (field v 9 7) 102) as [T|T]; [|rewrite added_err in E by (auto; lia); discriminate].
    rewrite added_ok in E by auto. apply Ok_inj in E; subst m. cbn [m_class m_self m_borrowed m_from] in *.
    assert (Q : 0 <= field v 9 7 / 3 < 34) by (apply div_bound; lia).
    split; [|split; [reflexivity|intros; discriminate]]. split; [|split].
    + repeat constructor; auto.
    + repeat constructor; unfold added_tile; lia.
    + split; reflexivity.
  - destruct (Z_lt_dec (high_byte v) 136) as [T|T]; [|rewrite kan_err in E by (auto; lia); discriminate].
    rewrite kan_ok in E by auto. 
    set (h := high_byte v) in *.
    assert (Q : 0 <= h / 4 < 34) by (apply div_bound; lia).
    assert (V : Forall valid_tile (four h)) by (unfold four; repeat constructor; unfold valid_tile; lia).
    assert (IF : forall x, In x (four h) <-> x / 4 = h / 4).
    { intros x. unfold four. set (q := h / 4). cbn [In]. pose proof (Z.div_mod x 4). pose proof (Z.mod_pos_bound x 4). lia. }
    assert (SO : set_of (four h) = four h) by (apply nodup_fixed_point, four_nodup).
    rewrite SO in E.
    assert (SH : forall m', Permutation (meld_tiles m') (four h) -> m_class m' = CKan -> well_formed m').
    { intros m' PM MC. split; [|split].
      - eapply Permutation_NoDup; [symmetry; exact PM|apply four_nodup].
      - eapply Permutation_Forall; [symmetry; exact PM|auto].
      - unfold meld_shape. rewrite MC. exists (face h). intros x X. split.
        + intros I. eapply Permutation_in in I; [|exact PM]. apply IF in I. unfold face. now rewrite I.
        + intros I. eapply Permutation_in; [symmetry; exact PM|]. apply IF.
          apply face_block_inv; auto. unfold valid_tile; lia. }
    destruct (source v =? 0) eqn:S; apply Ok_inj in E; subst m; cbn [m_class m_self m_borrowed m_from].
    + split; [|split; [reflexivity|intros; reflexivity]]. apply SH; auto.
    + split; [|split; [reflexivity|intros; reflexivity]]. apply SH; auto. unfold meld_tiles. cbn [m_self m_borrowed].
      rewrite Permutation_app_comm. cbn [app]. symmetry. apply minus_one; [apply four_nodup|]. now apply IF.
  - rewrite kita_ok in E by auto. apply Ok_inj in E; subst m. cbn [m_class m_self m_borrowed m_from] in *.
    specialize (A eq_refl). split; [|split; [reflexivity|intros; discriminate]]. split; [|split].
    + repeat constructor; auto.
    + repeat constructor; unfold high_byte in *; lia.
    + split; reflexivity.
  - exfalso. unfold call_kind in K. repeat (destruct (_ =? _) in K; try discriminate).
Qed.
(** Kita codes are accepted with any high byte, so also with no existing tile. *)
Theorem C26_refuted : forall who v, 0 <= v < 65536 -> call_kind v = CKita -> 136 <= high_byte v ->
  exists m, meld_from_code who v = Ok m /\ ~ Forall valid_tile (meld_tiles m).
Proof.
  intros who v H K B. rewrite meld_from_code_eq, K by auto. rewrite kita_ok by auto. eexists. split; [reflexivity|].
  intros F. inversion F as [|? ? V]; subst. unfold valid_tile in V. lia.
Qed.
Theorem C26_full_refuted : ~ C26_full.
Proof.
  intros F. destruct (C26_refuted 0 (200 * 256 + 32)) as (m & E & N); try reflexivity; try lia.
  { vm_compute. discriminate. }
  destruct (F 0 (200 * 256 + 32) m E I) as [[_ [V _]] _]. contradiction.
Qed.
Example C26_example : exists m, meld_from_code 3 (6 * 256 + 2) = Ok m /\ (m_class m = CKita -> high_byte (6 * 256 + 2) < 136).
Proof. eexists. split; [reflexivity|intros; discriminate]. Qed.

(** ** C28 *)
Lemma new_game_type_ok : forall v, 0 <= v < 65536 -> exists g, new_game_type v = Ok g /\ gt_origin g = v /\
  gt_data g = fields (rev game_type_desc) v /\
  gt_standard g = repack_to game_type_desc (set_last (set_first (map snd (fields (rev game_type_desc) v)) 0) 0).
Proof.
  intros v H. unfold new_game_type. rewrite unpack_with_fields by (reflexivity || auto). cbn [bindr].
  eexists. split; [reflexivity|]. repeat split.
Qed.
(** Every method reads the documented bits. *)
Theorem C28_flags : forall v, 0 <= v < 65536 -> exists g, new_game_type v = Ok g /\
  has_aka_dora g = negb (flag v 1) /\
  allow_tanyao_open g = negb (flag v 2) /\
  play_wind_count g = (if flag v 3 then 2 else 1) /\
  player_count g = (if flag v 4 then 3 else 4) /\
  play_level g = 2 * field v 5 1 + field v 7 1 /\
  speed_up g = flag v 6 /\
  show_discard_shadow g = flag v 8 /\
  with_tips g = flag v 9 /\
  tips_count g = (if flag v 9 then if flag v 10 then 5 else 2 else 0) /\
  main_game_count g = (if flag v 3 then 2 else 1) * (if flag v 4 then 3 else 4).
Proof.
  intros v H. destruct (new_game_type_ok v H) as (g & E & _ & D & _). exists g. split; auto.
  unfold has_aka_dora, allow_tanyao_open, main_game_count, play_wind_count, player_count, play_level, speed_up, show_discard_shadow,
    tips_count, with_tips, gt_flag, flag. rewrite D.
  change (fld (fields (rev game_type_desc) v) "no_aka_dora") with (field v 1 1).
  change (fld (fields (rev game_type_desc) v) "no_tanyao_open_hand") with (field v 2 1).
  change (fld (fields (rev game_type_desc) v) "east_and_south_round") with (field v 3 1).
  change (fld (fields (rev game_type_desc) v) "three_players") with (field v 4 1).
  change (fld (fields (rev game_type_desc) v) "play_level_high_bit") with (field v 5 1).
  change (fld (fields (rev game_type_desc) v) "speed_up") with (field v 6 1).
  change (fld (fields (rev game_type_desc) v) "play_level_low_bit") with (field v 7 1).
  change (fld (fields (rev game_type_desc) v) "show_discard_shadow") with (field v 8 1).
  change (fld (fields (rev game_type_desc) v) "with_tips") with (field v 9 1).
  change (fld (fields (rev game_type_desc) v) "is_5tips") with (field v 10 1).
  rewrite !field1. repeat split; auto.
  pose proof (field_range v 5 1 ltac:(lia)) as R5. pose proof (field_range v 7 1 ltac:(lia)) as R7. change (2 ^ 1) with 2 in *.
  assert (A : field v 5 1 = 0 \/ field v 5 1 = 1) by lia. assert (B : field v 7 1 = 0 \/ field v 7 1 = 1) by lia.
  destruct A as [-> | ->], B as [-> | ->]; reflexivity.
Qed.
Lemma pack_fields : forall d v acc, pack_bits d (map snd (fields d v)) acc = acc * 2 ^ Z.of_nat (width d) + v mod 2 ^ Z.of_nat (width d).
Proof.
  induction d as [|[n w] r IH]; intros v acc.
  - cbn [fields map pack_bits width]. change (2 ^ Z.of_nat 0) with 1. rewrite Z.mod_1_r. lia.
  - cbn [fields map pack_bits width snd]. rewrite IH. rewrite Nat2Z.inj_add, Z.pow_add_r by lia.
    rewrite (Z.mul_comm (2 ^ Z.of_nat w)), Z.rem_mul_r by (try apply Z.pow_nonzero; lia || (apply Z.pow_pos_nonneg; lia)). lia.
Qed.
Lemma width_snoc : forall d n w, width (d ++ [(n, w)]) = (width d + w)%nat.
Proof. induction d as [|[m u] r IH]; intros n w; cbn [app width]; rewrite ?IH; lia. Qed.
Lemma fields_snoc : forall d n w v, map snd (fields (d ++ [(n, w)]) v) = map snd (fields d (v / 2 ^ Z.of_nat w)) ++ [v mod 2 ^ Z.of_nat w].
Proof.
  induction d as [|[m u] r IH]; intros n w v.
  - cbn [app fields map width snd]. change (2 ^ Z.of_nat 0) with 1. now rewrite Z.div_1_r.
  - cbn [app fields map snd]. rewrite IH, width_snoc. f_equal.
    rewrite Z.div_div by (try apply Z.pow_nonzero; lia || (apply Z.pow_pos_nonneg; lia)).
    rewrite <- Z.pow_add_r by lia. do 3 f_equal. lia.
Qed.
Lemma set_last_snoc : forall l x y, set_last (l ++ [x]) y = l ++ [y].
Proof.
  induction l as [|a l IH]; intros x y; auto. cbn [app set_last]. rewrite IH. destruct l; auto.
Qed.
Lemma pack_snoc : forall d l n w x acc, length d = length l ->
  pack_bits (d ++ [(n, w)]) (l ++ [x]) acc = pack_bits d l acc * 2 ^ Z.of_nat w + x.
Proof.
  induction d as [|[m u] r IH]; intros [|y l] n w x acc L; try discriminate; auto.
  cbn [app pack_bits]. apply IH. now inversion L.
Qed.
Lemma fields_length : forall d v, length (map snd (fields d v)) = length d.
Proof. induction d as [|[n w] r IH]; intros v; cbn; auto. Qed.
Lemma repack_mid : forall d v n w m,
  pack_bits (((n, w) :: d) ++ [(m, 1%nat)]) (set_last (set_first (map snd (fields (((n, w) :: d) ++ [(m, 1%nat)]) v)) 0) 0) 0
  = 2 * ((v / 2) mod 2 ^ Z.of_nat (width d)).
Proof.
  intros d v n w m. rewrite fields_snoc. change (2 ^ Z.of_nat 1) with 2. cbn [fields map snd].
  generalize ((v / 2 / 2 ^ Z.of_nat (width d)) mod 2 ^ Z.of_nat w) as x. intros x.
  assert (S : forall l y, set_first ((x :: l) ++ [y]) 0 = (0 :: l) ++ [y]) by reflexivity.
  rewrite S, set_last_snoc, pack_snoc by (cbn [length]; now rewrite fields_length).
  cbn [pack_bits]. rewrite pack_fields. change (2 ^ Z.of_nat 1) with 2. lia.
Qed.
Definition gt_mid : desc := Eval vm_compute in (removelast (tl (rev game_type_desc))).
Lemma game_type_layout : rev game_type_desc = (("padding_"%string, 5%nat) :: gt_mid) ++ [("preserved"%string, 1%nat)].
Proof. reflexivity. Qed.
Lemma standard_value : forall v,
  repack_to game_type_desc (set_last (set_first (map snd (fields (rev game_type_desc) v)) 0) 0) = 2 * ((v / 2) mod 1024).
Proof. intros v. unfold repack_to. rewrite game_type_layout, repack_mid. reflexivity. Qed.
(** Equality compares exactly bits 1..10. *)
Theorem C28_equality : forall a b ga gb, new_game_type a = Ok ga -> new_game_type b = Ok gb ->
  (gt_eqb ga gb = true <-> forall bit, 1 <= bit <= 10 -> flag a bit = flag b bit).
Proof.
  assert (R : forall v g, new_game_type v = Ok g -> 0 <= v < 65536).
  { intros v g E. destruct (Z_le_dec 0 v); [destruct (Z_lt_dec v 65536); [lia|]|];
      (assert (B : ~ 0 <= v < 65536) by lia; unfold new_game_type in E; rewrite unpack_with_err in E by auto; discriminate). }
  assert (FT : forall v bit, 1 <= bit -> flag v bit = Z.testbit (v / 2) (bit - 1)).
  { intros v bit H. unfold flag, field. change (2 ^ 1) with 2. rewrite Zmod_odd.
    replace (Z.testbit (v / 2) (bit - 1)) with (Z.testbit v bit).
    - rewrite Z.testbit_odd, Z.shiftr_div_pow2 by lia. destruct (Z.odd (v / 2 ^ bit)); reflexivity.
    - change (v / 2) with (v / 2 ^ 1). rewrite <- Z.shiftr_div_pow2, Z.shiftr_spec by lia. f_equal. lia. }
  intros a b ga gb A B.
  destruct (new_game_type_ok a (R _ _ A)) as (ga' & A' & _ & _ & SA). rewrite A in A'. inversion A'; subst ga'.
  destruct (new_game_type_ok b (R _ _ B)) as (gb' & B' & _ & _ & SB). rewrite B in B'. inversion B'; subst gb'.
  unfold gt_eqb. rewrite SA, SB, !standard_value, Z.eqb_eq. split.
  - intros E bit H. rewrite !FT by lia.
    assert (E' : (a / 2) mod 2 ^ 10 = (b / 2) mod 2 ^ 10) by (change (2 ^ 10) with 1024; lia).
    rewrite <- (Z.mod_pow2_bits_low (a / 2) 10) by lia. rewrite E'. apply Z.mod_pow2_bits_low. lia.
  - intros H. enough (Q : (a / 2) mod 1024 = (b / 2) mod 1024) by now rewrite Q.
    change 1024 with (2 ^ 10). apply Z.bits_inj'. intros n Hn.
    destruct (Z_lt_dec n 10) as [L|L].
    + rewrite !Z.mod_pow2_bits_low by lia. specialize (H (n + 1) ltac:(lia)). rewrite !FT in H by lia.
      now replace (n + 1 - 1) with n in H by lia.
    + rewrite !Z.mod_pow2_bits_high by lia. reflexivity.
Qed.
Theorem C28_rejected : forall v, ~ 0 <= v < 65536 -> new_game_type v = Err StructError.
Proof. intros v H. unfold new_game_type. now rewrite unpack_with_err. Qed.
(** A four-player phoenix half game, and the same with other
    values in the ignored bits. *)
Example C28_examples : exists a b c, new_game_type 169 = Ok a /\ new_game_type (168 + 2048 * 31) = Ok b /\ new_game_type 185 = Ok c /\
  gt_eqb a b = true /\ gt_eqb a c = false /\ player_count a = 4 /\ player_count c = 3 /\ play_level a = 3.
Proof. repeat eexists. Qed.

Print Assumptions C05_tile_of_number.
Print Assumptions C05_range_partial.
Print Assumptions C05_full_refuted.
Print Assumptions C25_decode.
Print Assumptions C25_rejected.
Print Assumptions C25_meld_type.
Print Assumptions C26_well_formed_partial.
Print Assumptions C26_full_refuted.
Print Assumptions C28_flags.
Print Assumptions C28_equality.
Print Assumptions C28_rejected.
