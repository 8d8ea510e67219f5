(** Decoding of meld codes and game types. *)
From Verif Require Import Base Category Tile Parse Text Tenhou TenhouProofs Spec_Tile Spec_Meld.
From Coq Require Import String List ZArith Lia Bool Permutation.
Import ListNotations.
Open Scope list_scope.
Open Scope Z_scope.

Lemma field_range : forall v o w, 0 <= w -> 0 <= field v o w < 2 ^ w.
Proof. intros. unfold field. apply Z.mod_pos_bound. apply Z.pow_pos_nonneg; lia. Qed.
Lemma field1 : forall v o, (negb (field v o 1 =? 0)) = (field v o 1 =? 1).
Proof.
  intros v o. pose proof (field_range v o 1 ltac:(lia)) as H. change (2 ^ 1) with 2 in H.
  assert (E : field v o 1 = 0 \/ field v o 1 = 1) by lia. destruct E as [-> | ->]; reflexivity.
Qed.

Lemma mem_spec : forall x l, mem x l = true <-> In x l.
Proof.
  intros x l. unfold mem. rewrite existsb_exists. split.
  - intros (y & I & E). apply Z.eqb_eq in E. now subst.
  - intros I. exists x. split; auto. apply Z.eqb_refl.
Qed.
Lemma in_set_minus : forall x a b, In x (set_minus a b) <-> In x a /\ ~ In x b.
Proof.
  intros x a b. unfold set_minus. rewrite filter_In, negb_true_iff. split.
  - intros [A B]. split; auto. intros I. apply mem_spec in I. congruence.
  - intros [A B]. split; auto. destruct (mem x b) eqn:E; auto. apply mem_spec in E. tauto.
Qed.
Lemma in_set_of : forall x l, In x (set_of l) <-> In x l.
Proof. intros. apply nodup_In. Qed.
Lemma in_set_union : forall x a b, In x (set_union a b) <-> In x a \/ In x b.
Proof.
  intros x a b. unfold set_union. rewrite in_app_iff, in_set_minus. split; [tauto|].
  intros [A|B]; auto. destruct (in_dec Z.eq_dec x a); tauto.
Qed.
Lemma nodup_set_of : forall l, NoDup (set_of l).
Proof. intros. apply NoDup_nodup. Qed.
Lemma nodup_set_minus : forall a b, NoDup a -> NoDup (set_minus a b).
Proof. intros. now apply NoDup_filter. Qed.
Lemma nodup_app_intro : forall (a b : list Z), NoDup a -> NoDup b -> (forall x, In x a -> ~ In x b) -> NoDup (a ++ b).
Proof.
  induction a as [|x a IH]; intros b A B H; auto. inversion A; subst. cbn. constructor.
  - rewrite in_app_iff. intros [I|I]; auto. apply (H x); cbn; auto.
  - apply IH; auto. intros y I. apply H. now right.
Qed.
Lemma nodup_set_union : forall a b, NoDup a -> NoDup b -> NoDup (set_union a b).
Proof.
  intros. unfold set_union. apply nodup_app_intro; auto using nodup_set_minus.
  intros x I J. apply in_set_minus in J. tauto.
Qed.

Lemma from_who_eq : forall who v, from_who who (field v 0 2) = Ok ((who + source v) mod 4).
Proof.
  intros who v. unfold from_who, source. pose proof (field_range v 0 2 ltac:(lia)) as H. change (2 ^ 2) with 4 in H.
  assert (C : field v 0 2 = 0 \/ field v 0 2 = 1 \/ field v 0 2 = 2 \/ field v 0 2 = 3) by lia.
  destruct C as [-> | [-> | [-> | ->]]]; reflexivity.
Qed.

(** ** Small categories *)
Lemma cat_flush : forall t, 0 <= t < 63 ->
  (do c <- new_subcat [3; 7; 3]; sub_category c t) = Ok [t / 21; (t / 3) mod 7; t mod 3].
Proof.
  intros t H. cbn [new_subcat forallb bindr]. 
  change (sub_category {| sc_totals := [3; 7; 3]; sc_max := Some 63 |} t = Ok [t / 21; (t / 3) mod 7; t mod 3]).
  unfold sub_category. cbn [sc_max sc_totals]. replace (t <? 63) with true by (symmetry; apply Z.ltb_lt; lia).
  cbn [category_iter]. change (negb (3 =? -1)) with true. change (negb (7 =? -1)) with true.
  cbn [category_iter rev app]. rewrite Z.div_div by lia. change (3 * 7) with 21.
  rewrite (Z.mod_small (t / 21) 3); auto. split. apply Z.div_pos; lia. apply Z.div_lt_upper_bound; lia.
Qed.
Lemma cat_flush_err : forall t, 63 <= t ->
  (do c <- new_subcat [3; 7; 3]; sub_category c t) = Err AssertionError.
Proof.
  intros t H. change (sub_category {| sc_totals := [3; 7; 3]; sc_max := Some 63 |} t = Err AssertionError).
  unfold sub_category. cbn [sc_max]. replace (t <? 63) with false; auto. symmetry. apply Z.ltb_ge; lia.
Qed.
Lemma cat_triplet : forall t, 0 <= t < 102 ->
  sub_category {| sc_totals := [3; 34]; sc_max := Some 102 |} t = Ok [t / 3; t mod 3].
Proof.
  intros t H. unfold sub_category. cbn [sc_max sc_totals]. replace (t <? 102) with true by (symmetry; apply Z.ltb_lt; lia).
  cbn [category_iter]. change (negb (3 =? -1)) with true. change (negb (34 =? -1)) with true.
  cbn [category_iter rev app].
  rewrite (Z.mod_small (t / 3) 34); auto. split. apply Z.div_pos; lia. apply Z.div_lt_upper_bound; lia.
Qed.
Lemma cat_triplet_err : forall t, 102 <= t ->
  sub_category {| sc_totals := [3; 34]; sc_max := Some 102 |} t = Err AssertionError.
Proof.
  intros t H. unfold sub_category. cbn [sc_max]. replace (t <? 102) with false; auto. symmetry. apply Z.ltb_ge; lia.
Qed.
Lemma cat_color : forall t, 0 <= t < 34 ->
  sub_category {| sc_totals := [9; 4]; sc_max := Some 36 |} t = Ok [t / 9; t mod 9].
Proof.
  intros t H. unfold sub_category. cbn [sc_max sc_totals]. replace (t <? 36) with true by (symmetry; apply Z.ltb_lt; lia).
  cbn [category_iter]. change (negb (9 =? -1)) with true. change (negb (4 =? -1)) with true.
  cbn [category_iter rev app].
  rewrite (Z.mod_small (t / 9) 4); auto. split. apply Z.div_pos; lia. apply Z.div_lt_upper_bound; lia.
Qed.

Lemma py_nth3 : forall (f : Z -> Z) p, 0 <= p < 3 -> py_nth [f 0; f 1; f 2] p = Ok (f p).
Proof.
  intros f p H. assert (C : p = 0 \/ p = 1 \/ p = 2) by lia. destruct C as [-> | [-> | ->]]; reflexivity.
Qed.

Ltac use_unpack :=
  match goal with |- context [unpack_with ?d ?v] => rewrite (unpack_with_fields d v) by (reflexivity || assumption) end.

(** ** The five kinds of codes *)
Lemma chi_tiles_eq : forall v, 0 <= field v 10 6 < 63 -> forall i, 0 <= i < 3 ->
  ttc_index [field v 10 6 / 21; (field v 10 6 / 3) mod 7 + i; field v (3 + 2 * i) 2] = Ok (chi_tile v i).
Proof.
  intros v H i Hi. rewrite ttc_index_eq.
  - f_equal. unfold chi_tile. replace (field v 10 6 / 21) with (field v 10 6 / 3 / 7) by (rewrite Z.div_div by lia; reflexivity).
    set (q := field v 10 6 / 3). lia.
  - split. apply Z.div_pos; lia. apply Z.div_lt_upper_bound; lia.
Qed.

Lemma flush_ok : forall who v, 0 <= v < 65536 -> field v 10 6 < 63 ->
  new_flush who v =
  Ok (mkMeld CFlush (set_minus (set_of [chi_tile v 0; chi_tile v 1; chi_tile v 2]) [chi_tile v (chi_position v)])
             [chi_tile v (chi_position v)] ((who + source v) mod 4)).
Proof.
  intros who v H T. unfold new_flush. use_unpack. cbn [bindr].
  change (fld (fields (rev flush_desc) v) "type6") with (field v 10 6).
  change (fld (fields (rev flush_desc) v) "hai0") with (field v (3 + 2 * 0) 2).
  change (fld (fields (rev flush_desc) v) "hai1") with (field v (3 + 2 * 1) 2).
  change (fld (fields (rev flush_desc) v) "hai2") with (field v (3 + 2 * 2) 2).
  change (fld (fields (rev flush_desc) v) "kui") with (field v 0 2).
  pose proof (field_range v 10 6 ltac:(lia)) as R.
  pose proof (cat_flush (field v 10 6) ltac:(lia)) as C.
  change (new_subcat [3; 7; 3]) with (Ok {| sc_totals := [3; 7; 3]; sc_max := Some 63 |}) in *. cbn [bindr] in *.
  rewrite C. cbn [bindr]. rewrite !chi_tiles_eq by lia. cbn [bindr].
  unfold init_from_basic. rewrite (py_nth3 (chi_tile v)) by (apply Z.mod_pos_bound; lia).
  cbn [bindr]. rewrite from_who_eq. reflexivity.
Qed.
Lemma flush_err : forall who v, 0 <= v < 65536 -> 63 <= field v 10 6 -> new_flush who v = Err AssertionError.
Proof.
  intros who v H T. unfold new_flush. use_unpack. cbn [bindr].
  change (fld (fields (rev flush_desc) v) "type6") with (field v 10 6).
  pose proof (cat_flush_err (field v 10 6) T) as C.
  change (new_subcat [3; 7; 3]) with (Ok {| sc_totals := [3; 7; 3]; sc_max := Some 63 |}) in *. cbn [bindr] in *.
  now rewrite C.
Qed.

Lemma div_bound : forall a b c, 0 < b -> 0 <= a < b * c -> 0 <= a / b < c.
Proof. intros. split. apply Z.div_pos; lia. apply Z.div_lt_upper_bound; lia. Qed.

Lemma pon_tiles_eq : forall v, 0 <= field v 9 7 < 102 ->
  same_face_tiles (field v 9 7 / 3 / 9) ((field v 9 7 / 3) mod 9) (set_minus [0; 1; 2; 3] [field v 5 2]) =
  Ok [pon_tile v 0; pon_tile v 1; pon_tile v 2].
Proof.
  intros v H. unfold same_face_tiles, pon_tile. set (q := field v 9 7 / 3).
  assert (Q : 0 <= q < 34) by (apply div_bound; lia).
  assert (I : forall h, ttc_index [q / 9; q mod 9; h] = Ok (4 * q + h)).
  { intros h. rewrite ttc_index_eq by (apply div_bound; lia). f_equal. pose proof (Z.div_mod q 9). lia. }
  pose proof (field_range v 5 2 ltac:(lia)) as R. change (2 ^ 2) with 4 in R.
  assert (C : field v 5 2 = 0 \/ field v 5 2 = 1 \/ field v 5 2 = 2 \/ field v 5 2 = 3) by lia.
  destruct C as [-> | [-> | [-> | ->]]];
    match goal with |- context [set_minus ?a ?b] => let x := eval vm_compute in (set_minus a b) in change (set_minus a b) with x end;
    cbn [mapM]; rewrite !I; reflexivity.
Qed.
Lemma triplet_ok : forall who v, 0 <= v < 65536 -> field v 9 7 < 102 ->
  new_triplet who v =
  Ok (mkMeld CTriplet (set_minus (set_of [pon_tile v 0; pon_tile v 1; pon_tile v 2]) [pon_tile v (pon_position v)])
             [pon_tile v (pon_position v)] ((who + source v) mod 4)).
Proof.
  intros who v H T. unfold new_triplet. use_unpack. cbn [bindr].
  change (fld (fields (rev triplet_desc) v) "type7") with (field v 9 7).
  change (fld (fields (rev triplet_desc) v) "hai_unused") with (field v 5 2).
  change (fld (fields (rev triplet_desc) v) "kui") with (field v 0 2).
  pose proof (field_range v 9 7 ltac:(lia)) as R.
  change (new_subcat [34; 3]) with (Ok {| sc_totals := [3; 34]; sc_max := Some 102 |}).
  change (new_subcat [4; 9]) with (Ok {| sc_totals := [9; 4]; sc_max := Some 36 |}). cbn [bindr].
  rewrite cat_triplet by lia. cbn [bindr]. rewrite cat_color by (apply div_bound; lia). cbn [bindr].
  rewrite pon_tiles_eq by lia. cbn [bindr].
  unfold init_from_basic. rewrite (py_nth3 (pon_tile v)) by (apply Z.mod_pos_bound; lia).
  cbn [bindr]. rewrite from_who_eq. reflexivity.
Qed.
Lemma triplet_err : forall who v, 0 <= v < 65536 -> 102 <= field v 9 7 -> new_triplet who v = Err AssertionError.
Proof.
  intros who v H T. unfold new_triplet. use_unpack. cbn [bindr].
  change (fld (fields (rev triplet_desc) v) "type7") with (field v 9 7).
  change (new_subcat [34; 3]) with (Ok {| sc_totals := [3; 34]; sc_max := Some 102 |}).
  change (new_subcat [4; 9]) with (Ok {| sc_totals := [9; 4]; sc_max := Some 36 |}). cbn [bindr].
  now rewrite cat_triplet_err.
Qed.
Lemma added_ok : forall who v, 0 <= v < 65536 -> field v 9 7 < 102 ->
  new_added_kan who v = Ok (mkMeld CAddedKan [added_tile v] [] ((who + source v) mod 4)).
Proof.
  intros who v H T. unfold new_added_kan. use_unpack. cbn [bindr].
  change (fld (fields (rev added_kan_desc) v) "type7") with (field v 9 7).
  change (fld (fields (rev added_kan_desc) v) "hai_added") with (field v 5 2).
  change (fld (fields (rev added_kan_desc) v) "kui") with (field v 0 2).
  pose proof (field_range v 9 7 ltac:(lia)) as R.
  change (new_subcat [34; 3]) with (Ok {| sc_totals := [3; 34]; sc_max := Some 102 |}).
  change (new_subcat [4; 9]) with (Ok {| sc_totals := [9; 4]; sc_max := Some 36 |}). cbn [bindr].
  rewrite cat_triplet by lia. cbn [bindr].
  assert (Q : 0 <= field v 9 7 / 3 < 34) by (apply div_bound; lia).
  rewrite cat_color by auto. cbn [bindr].
  rewrite ttc_index_eq by (apply div_bound; lia). cbn [bindr]. rewrite from_who_eq. cbn [bindr].
  do 3 f_equal. unfold added_tile. pose proof (Z.div_mod (field v 9 7 / 3) 9). f_equal. lia.
Qed.
Lemma added_err : forall who v, 0 <= v < 65536 -> 102 <= field v 9 7 -> new_added_kan who v = Err AssertionError.
Proof.
  intros who v H T. unfold new_added_kan. use_unpack. cbn [bindr].
  change (fld (fields (rev added_kan_desc) v) "type7") with (field v 9 7).
  change (new_subcat [34; 3]) with (Ok {| sc_totals := [3; 34]; sc_max := Some 102 |}).
  change (new_subcat [4; 9]) with (Ok {| sc_totals := [9; 4]; sc_max := Some 36 |}). cbn [bindr].
  now rewrite cat_triplet_err.
Qed.
Lemma kita_ok : forall who v, 0 <= v < 65536 ->
  new_kita who v = Ok (mkMeld CKita [high_byte v] [] ((who + source v) mod 4)).
Proof.
  intros who v H. unfold new_kita. use_unpack. cbn [bindr].
  change (fld (fields (rev kita_desc) v) "type8") with (field v 8 8).
  change (fld (fields (rev kita_desc) v) "kui") with (field v 0 2).
  rewrite from_who_eq. reflexivity.
Qed.
Definition four (h : Z) : list Z := [4 * (h / 4) + 0; 4 * (h / 4) + 1; 4 * (h / 4) + 2; 4 * (h / 4) + 3].
Lemma kan_ok : forall who v, 0 <= v < 65536 -> high_byte v < 136 ->
  new_kan who v =
  Ok (if source v =? 0 then mkMeld CKan (set_of (four (high_byte v))) [] ((who + source v) mod 4)
      else mkMeld CKan (set_minus (set_of (four (high_byte v))) [high_byte v]) [high_byte v] ((who + source v) mod 4)).
Proof.
  intros who v H T. unfold new_kan. use_unpack. cbn [bindr].
  change (fld (fields (rev kan_desc) v) "type8") with (high_byte v).
  change (fld (fields (rev kan_desc) v) "kui") with (field v 0 2).
  pose proof (field_range v 8 8 ltac:(lia)) as R. change (field v 8 8) with (high_byte v) in R.
  set (h := high_byte v) in *.
  rewrite ttc_category_eq by lia. cbn [bindr].
  assert (I : forall k, ttc_index [h / 36; (h mod 36) / 4; k] = Ok (4 * (h / 4) + k)).
  { intros k. rewrite ttc_index_eq by (apply div_bound; lia). f_equal.
    pose proof (Z.div_mod h 36). pose proof (Z.mod_pos_bound h 36).
    pose proof (Z.div_mod (h mod 36) 4). pose proof (Z.mod_pos_bound (h mod 36) 4).
    pose proof (Z.div_mod h 4). pose proof (Z.mod_pos_bound h 4). lia. }
  unfold same_face_tiles. cbn [mapM]. rewrite !I. cbn [bindr]. rewrite from_who_eq. cbn [bindr].
  change (field v 0 2) with (source v).
  change [4 * (h / 4) + 0; 4 * (h / 4) + 1; 4 * (h / 4) + 2; 4 * (h / 4) + 3] with (four h).
  destruct (source v =? 0); auto. unfold init_from_basic.
  assert (N : py_nth (four h) (h mod 4) = Ok h).
  { pose proof (Z.div_mod h 4). pose proof (Z.mod_pos_bound h 4).
    assert (C : h mod 4 = 0 \/ h mod 4 = 1 \/ h mod 4 = 2 \/ h mod 4 = 3) by lia.
    assert (D : h = 4 * (h / 4) + h mod 4) by lia.
    transitivity (Ok (4 * (h / 4) + h mod 4)); [|now rewrite <- D].
    destruct C as [E | [E | [E | E]]]; rewrite E; reflexivity. }
  rewrite N. reflexivity.
Qed.
Lemma kan_err : forall who v, 0 <= v < 65536 -> 136 <= high_byte v -> new_kan who v = Err IndexError.
Proof.
  intros who v H T. unfold new_kan. use_unpack. cbn [bindr].
  change (fld (fields (rev kan_desc) v) "type8") with (high_byte v).
  now rewrite ttc_category_beyond.
Qed.

Lemma meld_from_code_eq : forall who v, 0 <= v < 65536 ->
  meld_from_code who v =
  match call_kind v with
  | CFlush => new_flush who v | CTriplet => new_triplet who v | CAddedKan => new_added_kan who v
  | CKita => new_kita who v | _ => new_kan who v
  end.
Proof.
  intros who v H. unfold meld_from_code. use_unpack. cbn [bindr].
  change (fld (fields (rev meld_type_desc) v) "syuntsu") with (field v 2 1).
  change (fld (fields (rev meld_type_desc) v) "koutsu") with (field v 3 1).
  change (fld (fields (rev meld_type_desc) v) "chakan") with (field v 4 1).
  change (fld (fields (rev meld_type_desc) v) "nuki") with (field v 5 1).
  rewrite !field1. unfold call_kind.
  destruct (field v 2 1 =? 1); auto. destruct (field v 3 1 =? 1); auto.
  destruct (field v 4 1 =? 1); auto. destruct (field v 5 1 =? 1); auto.
Qed.
Lemma meld_type_eq : forall v, 0 <= v < 65536 -> meld_type v = Ok (call_kind v).
Proof.
  intros v H. unfold meld_type. use_unpack. cbn [bindr].
  change (fld (fields (rev meld_type_desc) v) "syuntsu") with (field v 2 1).
  change (fld (fields (rev meld_type_desc) v) "koutsu") with (field v 3 1).
  change (fld (fields (rev meld_type_desc) v) "chakan") with (field v 4 1).
  change (fld (fields (rev meld_type_desc) v) "nuki") with (field v 5 1).
  rewrite !field1. reflexivity.
Qed.
