(** C06-C08: tiles, the tile pool, tile multisets. Final statements. *)
From Verif Require Import Base Tile TileSet Spec_Tile TileSetFacts PoolProofs Win Spec_Win WinFacts WinProofs Spec_Hand TileSetOps WaitingTop.
From Coq Require Import List ZArith Lia Bool Permutation Sorted.
Import ListNotations.
Open Scope Z_scope.

(** The face a tile object counts as: a red five is a five. *)
Definition face_of (t : tile) : color * Z :=
  match t with Plain n c => (c, n) | Aka c => (c, 5) end.
(** Order of faces: suits m, p, s, z, then numbers. *)
Definition suit_rank (c : color) : Z := match c with Cm => 1 | Cp => 2 | Cs => 3 | Cz => 4 end.
Definition face_before (a b : color * Z) : Prop :=
  suit_rank (fst a) < suit_rank (fst b) \/ (fst a = fst b /\ snd a < snd b).

Lemma view_face : forall t, view t = face_of t.
Proof. destruct t; reflexivity. Qed.
Lemma before_lt : forall a b, face_before a b <-> kind_lt a b.
Proof.
  intros. rewrite kind_lt_spec. unfold face_before.
  assert (E : suit_rank (fst a) < suit_rank (fst b) <-> suit_ord (fst a) < suit_ord (fst b)).
  { destruct (fst a), (fst b); cbn; lia. }
  tauto.
Qed.

(** C06. [a == b], [a != b], [a < b], [a > b], [a <= b], [a >= b] and [hash]. *)
Theorem C06_tile_comparison : forall a b,
  (tile_eqb a b = true <-> face_of a = face_of b) /\
  (tile_neb a b = true <-> face_of a <> face_of b) /\
  (tile_ltb a b = true <-> face_before (face_of a) (face_of b)) /\
  (tile_gtb a b = true <-> face_before (face_of b) (face_of a)) /\
  (tile_leb a b = true <-> face_before (face_of a) (face_of b) \/ face_of a = face_of b) /\
  (tile_geb a b = true <-> face_before (face_of b) (face_of a) \/ face_of a = face_of b).
Proof.
  intros a b. rewrite !before_lt, <- !view_face.
  assert (E : tile_eqb a b = true <-> view a = view b) by apply tile_eqb_eq.
  assert (N : tile_neb a b = true <-> view a <> view b).
  { unfold tile_neb. rewrite negb_true_iff. apply kind_eqb_neq. }
  assert (L : tile_ltb a b = true <-> kind_lt (view a) (view b)) by reflexivity.
  assert (G : tile_ltb a b = false <-> view a = view b \/ kind_lt (view b) (view a)) by apply kind_ltb_false.
  pose proof (kind_lt_irrefl (view a)) as I.
  split; [auto|]. split; [auto|]. split; [auto|]. split; [|split].
  - unfold tile_gtb. rewrite andb_true_iff, negb_true_iff, G, N. split; [tauto|].
    intros H. split; [auto|]. intros X. rewrite X in *. now apply (kind_lt_irrefl (view b)).
  - unfold tile_leb. rewrite orb_true_iff, L, E. tauto.
  - unfold tile_geb. rewrite negb_true_iff, G. tauto.
Qed.

Theorem C06_strict_total_order : forall a b c,
  (tile_ltb a b = true -> tile_ltb b c = true -> tile_ltb a c = true) /\
  tile_ltb a a = false /\
  (tile_ltb a b = true \/ tile_eqb a b = true \/ tile_ltb b a = true) /\
  (tile_ltb a b = true -> tile_eqb a b = false /\ tile_ltb b a = false).
Proof.
  intros a b c. split; [|split; [|split]].
  - apply kind_lt_trans.
  - apply kind_ltb_false. auto.
  - destruct (kind_lt_total (view a) (view b)) as [H|[H|H]]; [left|right; left; apply tile_eqb_eq|right; right]; auto.
  - intros H. split.
    + destruct (tile_eqb a b) eqn:E; auto. apply tile_eqb_eq in E. unfold tile_ltb in H. rewrite E in H.
      now apply kind_lt_irrefl in H.
    + apply kind_ltb_false. auto.
Qed.

Theorem C06_equal_tiles_equal_hash : forall a b, tile_eqb a b = true -> tile_hash a = tile_hash b.
Proof.
  intros a b H. apply tile_eqb_eq in H. destruct a, b; cbn in *; inversion H; reflexivity.
Qed.
Theorem C06_legal_faces_distinct_hash : forall a b, legal_tile a -> legal_tile b ->
  tile_hash a = tile_hash b -> tile_eqb a b = true.
Proof.
  intros a b A B H. apply tile_eqb_eq.
  assert (K : forall t, legal_tile t -> tile_hash t = tile_hash_num (fst (view t)) (snd (view t)) /\ small (snd (view t))).
  { intros [n c|c] L; unfold small; cbn in *; split; try reflexivity; try lia. destruct c; cbn in L; lia. }
  destruct (K a A) as [Ha Sa], (K b B) as [Hb Sb]. rewrite Ha, Hb in H.
  destruct (hash_inj _ _ _ _ Sa Sb H). destruct (view a), (view b); cbn in *; congruence.
Qed.
Example C06_example : tile_eqb (Aka Cs) (Plain 5 Cs) = true /\ tile_hash (Aka Cs) = tile_hash (Plain 5 Cs) /\
  legal_tile (Aka Cs) /\ tile_ltb (Aka Cm) (Plain 6 Cm) = true /\ tile_gtb (Aka Cp) (Plain 9 Cm) = true.
Proof. split; [reflexivity|]. split; [reflexivity|]. split; [cbn; discriminate|]. split; reflexivity. Qed.

(** C07. After any history [before] of [Tile(n, c)] (0 <= n <= 9) and [AkaTile(0, c)] (suit
    colour) calls, [Tile(n, c)] is an object showing [n] and [c], and after any further
    history [between] asking again gives the very same object and changes nothing. *)
Definition number_in_range (x : ctor) : Prop :=
  match x with CTile n _ => 0 <= n <= 9 | CAka c => c <> Cz end.
Theorem C07_pool_is_a_cache : forall before n c between,
  Forall number_in_range before -> 0 <= n <= 9 -> Forall number_in_range between ->
  exists p p1 o p2, pool_run [] before = Ok p /\ pool_new (pool_fuel n) p n c = Ok (p1, o) /\
    o_number o = n /\ o_color o = c /\
    pool_run p1 between = Ok p2 /\ pool_new (pool_fuel n) p2 n c = Ok (p2, o).
Proof. exact pool_is_cache. Qed.

Example C07_example :
  Forall number_in_range [CTile 1 Cp; CAka Cs; CTile 9 Cz; CTile 3 Cm] /\
  exists p o, pool_run [] [CTile 1 Cp; CAka Cs; CTile 9 Cz; CTile 3 Cm] = Ok p /\
  pool_new (pool_fuel 6) p 6 Cs = Ok (p, o) /\ o_number o = 6 /\ o_color o = Cs.
Proof.
  split; [repeat constructor; try discriminate; cbn; lia|]. eexists. eexists.
  split; [vm_compute; reflexivity|]. split; [vm_compute; reflexivity|]. split; reflexivity.
Qed.

(** The range matters: after [Tile(11, 'm')], [Tile(1, 'p')] shows 11m. *)
Theorem C07_out_of_range_collision : exists p p1 o,
  pool_run [] [CTile 11 Cm] = Ok p /\ pool_new (pool_fuel 1) p 1 Cp = Ok (p1, o) /\
  o_number o = 11 /\ o_color o = Cm.
Proof. eexists. eexists. eexists. split; [reflexivity|]. split; [vm_compute; reflexivity|]. split; reflexivity. Qed.

(** C08. A TileSet as a Python dict: one entry per face. [get s t] is [s[t]]. *)
Definition dict_ok (s : tset) : Prop := NoDup (map (fun e => face_of (fst e)) s).
Definition counts_nonneg (s : tset) : Prop := forall t, 0 <= get s t.

Lemma dict_wf : forall s, dict_ok s -> wf s.
Proof.
  unfold dict_ok, wf, kinds_of. intros s H. erewrite map_ext; [exact H|]. intros e. apply view_face.
Qed.
Lemma wf_dict : forall s, wf s -> dict_ok s.
Proof.
  unfold dict_ok, wf, kinds_of. intros s H. erewrite map_ext; [exact H|]. intros e. symmetry. apply view_face.
Qed.
Lemma cn_nonneg : forall s, counts_nonneg s -> nonneg s.
Proof. intros s H [c n]. exact (H (Plain n c)). Qed.

(** reading is by face: [s[t]] is the entry whose key shows the same face *)
Theorem C08_getitem : forall s t, dict_ok s -> get s t = face_count s (face_of t).
Proof. intros s t D. unfold get. rewrite view_face. symmetry. apply face_count_getk. now apply dict_wf. Qed.

Theorem C08_add : forall a b t, dict_ok a -> dict_ok b -> counts_nonneg a -> counts_nonneg b ->
  dict_ok (ts_add a b) /\ get (ts_add a b) t = get a t + get b t.
Proof.
  intros a b t Da Db Na Nb. apply dict_wf in Da, Db. specialize (Na t). specialize (Nb t).
  assert (W : wf (keep_positive (add_into a b))) by (apply wf_filter, wf_add_into; auto).
  split; [apply wf_dict, wf_re_sort; auto|]. unfold get, ts_add in *.
  rewrite getk_re_sort, getk_keep_positive, getk_add_into by auto using wf_add_into. lia.
Qed.
Theorem C08_sub : forall a b t, dict_ok a -> dict_ok b ->
  dict_ok (ts_sub a b) /\ get (ts_sub a b) t = Z.max 0 (get a t - get b t).
Proof.
  intros a b t Da Db. apply dict_wf in Da, Db. split; [apply wf_dict, wf_ts_sub; auto|].
  unfold get. now apply getk_ts_sub.
Qed.
Theorem C08_and : forall a b t, dict_ok a -> counts_nonneg a -> counts_nonneg b ->
  dict_ok (ts_and a b) /\ get (ts_and a b) t = Z.min (get a t) (get b t).
Proof.
  intros a b t Da Na Nb. apply dict_wf in Da. split; [apply wf_dict, wf_ts_and; auto|].
  unfold get. apply getk_ts_and; auto using cn_nonneg.
Qed.
Theorem C08_or : forall a b t, dict_ok a -> dict_ok b -> counts_nonneg a -> counts_nonneg b ->
  dict_ok (ts_or a b) /\ get (ts_or a b) t = Z.max (get a t) (get b t).
Proof.
  intros a b t Da Db Na Nb. apply dict_wf in Da, Db. split; [apply wf_dict, wf_ts_or; auto|].
  unfold get. apply getk_ts_or; auto using cn_nonneg.
Qed.
Theorem C08_contains : forall a b, dict_ok b -> counts_nonneg a ->
  (contains a b = true <-> forall t, get b t <= get a t).
Proof.
  intros a b Db Na. apply dict_wf in Db. rewrite contains_spec by auto. split.
  - intros H t. unfold get. destruct (in_dec kind_eq_dec (view t) (kinds_of b)) as [I|I]; [now apply H|].
    rewrite (getk_notin b) by auto. apply Na.
  - intros H k _. destruct k as [c n]. exact (H (Plain n c)).
Qed.
Theorem C08_exclude : forall a b, dict_ok a -> dict_ok b -> counts_nonneg a ->
  match exclude a b with
  | Some r => (forall t, get b t <= get a t) /\ dict_ok r /\ forall t, get r t = get a t - get b t
  | None => exists t, get a t < get b t
  end.
Proof.
  intros a b Da Db Na. unfold exclude. pose proof (C08_contains a b Db Na) as C.
  destruct (contains a b) eqn:E.
  - destruct C as [C _]. specialize (C eq_refl). split; [auto|]. split; [now apply (C08_sub a b (Plain 1 Cm))|].
    intros t. rewrite (proj2 (C08_sub a b t Da Db)). specialize (C t). lia.
  - clear C. unfold contains in E.
    assert (X : exists e, In e b /\ (get a (fst e) <? snd e) = true).
    { clear - E. induction b as [|e b IH]; cbn [forallb] in E; [discriminate|].
      destruct (get a (fst e) <? snd e) eqn:Q; cbn [negb andb] in E; [exists e; split; [left|]; auto|].
      destruct (IH E) as (x & I & J). exists x. split; [right|]; auto. }
    destruct X as ([t v] & I & L). cbn [fst snd] in L. exists t. apply Z.ltb_lt in L.
    unfold get at 2. rewrite (getk_in b t v) by auto using dict_wf. exact L.
Qed.
(** [len(s)] is the number of tiles listed by [s.tiles()], and these are the right ones *)
Theorem C08_len_tiles : forall s, dict_ok s -> counts_nonneg s ->
  total s = Z.of_nat (length (tiles s)) /\
  forall t, count_kind (face_of t) (faces (tiles s)) = get s t.
Proof.
  intros s D N. apply dict_wf in D. split.
  - symmetry. apply tiles_length. intros [t v] I. cbn [snd]. specialize (N t). unfold get in N.
    now rewrite (getk_in s t v D I) in N.
  - intros t. unfold faces. rewrite tiles_count by (auto; now apply cn_nonneg). unfold get. now rewrite (view_face t).
Qed.
(** [TileSet(iterable)] counts faces *)
Theorem C08_of_iterable : forall l t, dict_ok (of_tiles l) /\ get (of_tiles l) t = count_kind (face_of t) (faces l).
Proof.
  intros l t. split; [apply wf_dict, wf_of_tiles|]. unfold get, faces. rewrite getk_of_tiles, occ_count, view_face. reflexivity.
Qed.
Theorem C08_re_sort : forall s t, dict_ok s ->
  Permutation (re_sort s) s /\ get (re_sort s) t = get s t /\
  StronglySorted (fun a b => tile_ltb (fst a) (fst b) = true) (re_sort s).
Proof.
  intros s t D. apply dict_wf in D. split; [apply re_sort_perm|]. split; [now apply getk_re_sort|].
  pose proof (re_sort_sorted s D) as R. unfold sorted, kinds_of in R.
  induction (re_sort s) as [|e r IH]; [constructor|]. cbn [map] in R. inversion R as [|? ? A B]; subst. constructor; auto.
  rewrite Forall_map in B. exact B.
Qed.
Theorem C08_eq : forall a b, dict_ok a -> dict_ok b ->
  Forall (fun e => 0 < snd e) a -> Forall (fun e => 0 < snd e) b ->
  (ts_eqb a b = true <-> forall t, get a t = get b t).
Proof.
  intros a b Da Db Pa Pb. apply dict_wf in Da, Db. rewrite ts_eqb_spec by auto. split.
  - intros H t. apply H.
  - intros H [c n]. exact (H (Plain n c)).
Qed.

Definition ex_a : tset := [(Aka Cm, 2); (Plain 1 Cz, 3)].
Definition ex_b : tset := [(Plain 1 Cz, 1); (Plain 5 Cm, 1); (Plain 9 Cs, 4)].
Example C08_example : dict_ok ex_a /\ dict_ok ex_b /\ counts_nonneg ex_a /\ counts_nonneg ex_b /\
  ts_add ex_a ex_b = [(Aka Cm, 3); (Plain 9 Cs, 4); (Plain 1 Cz, 4)] /\
  ts_sub ex_a ex_b = [(Aka Cm, 1); (Plain 1 Cz, 2)] /\ contains ex_a ex_b = false /\ exclude ex_a ex_b = None.
Proof.
  assert (D : forall s : tset, (forall e, In e s -> 0 <= snd e) -> counts_nonneg s).
  { intros s H t. unfold get. destruct (Z.eq_dec (getk s (view t)) 0) as [->|E]; [lia|].
    destruct (getk_nonzero_in _ _ E) as (x & _ & I). apply (H _ I). }
  split; [repeat constructor; cbn; intuition congruence|].
  split; [repeat constructor; cbn; intuition congruence|].
  split; [apply D; cbn; intros e H; intuition (subst; cbn; lia)|].
  split; [apply D; cbn; intros e H; intuition (subst; cbn; lia)|].
  repeat split; reflexivity.
Qed.

Print Assumptions C06_tile_comparison.
Print Assumptions C06_strict_total_order.
Print Assumptions C06_equal_tiles_equal_hash.
Print Assumptions C06_legal_faces_distinct_hash.
Print Assumptions C07_pool_is_a_cache.
Print Assumptions C07_out_of_range_collision.
Print Assumptions C08_getitem.
Print Assumptions C08_add.
Print Assumptions C08_sub.
Print Assumptions C08_and.
Print Assumptions C08_or.
Print Assumptions C08_contains.
Print Assumptions C08_exclude.
Print Assumptions C08_len_tiles.
Print Assumptions C08_of_iterable.
Print Assumptions C08_re_sort.
Print Assumptions C08_eq.
