(** The checker's hand: counts, key objects, and which discards keep the distance. *)
From Coq Require Import String.
From Verif Require Import Base Category Tile TileSet Spec_Tile TileSetFacts Win Spec_Win WinFacts WinProofs Waiting Spec_Waiting WaitingFacts WaitingPM WaitingBrute WaitingHeur WaitingHeurTop WaitingSize Spec_Hand WaitingTop.
From Verif Require Import Parse Text Tenhou TenhouProofs Spec_Meld MeldProofs Prop_Meld Event State Checker Spec_Checker CheckerProofs.
From Coq Require Import List ZArith QArith Lia Bool Permutation.
Import ListNotations.
Open Scope list_scope.
Open Scope Z_scope.

(** ** The hand. *)
Lemma faces_le4 l k : NoDup l -> Forall valid_tile l -> count_kind k (map face l) <= 4.
Proof.
  intros N V. destruct (in_dec kind_eq_dec k (map face l)) as [I|I].
  - apply in_map_iff in I. destruct I as (i & E & I). rewrite Forall_forall in V. pose proof (V i I) as Vi.
    destruct (C05_tile_of_number i Vi) as (t & _ & Lt & Vt & _).
    assert (L : legal_kind k).
    { rewrite <- E, <- Vt. destruct t as [n c|c]; [exact Lt|]. cbn in *. destruct c; cbn; try lia; congruence. }
    destruct k as [c n]. destruct (C05_range_partial n c L) as (r & Er & Nr & R).
    assert (Len : length r = 4%nat).
    { rewrite range_plain in Er. apply Ok_inj in Er. subst r. unfold zrange. rewrite map_length, seq_length. lia. }
    assert (Q : count_kind (c, n) (map face l) = Z.of_nat (length (filter (fun i => kind_eqb (face i) (c, n)) l))).
    { clear. unfold count_kind. induction l as [|x l IH]; [reflexivity|]. cbn [map sumZ filter].
      rewrite IH, same_kind_eqb. destruct (kind_eqb (face x) (c, n)); cbn [length]; lia. }
    rewrite Q. change 4 with (Z.of_nat 4). rewrite <- Len. apply inj_le. apply NoDup_incl_length; [now apply NoDup_filter|].
    intros x X. apply filter_In in X. destruct X as [X Y]. apply kind_eqb_eq in Y. apply R. split; auto.
  - assert (count_kind k (map face l) = 0); [|lia]. unfold count_kind. apply sumZ_zero. intros x X. rewrite same_kind_eqb.
    destruct (kind_eqb x k) eqn:E; [|reflexivity]. apply kind_eqb_eq in E. subst. contradiction.
Qed.

Definition object (t : tile) : Prop := match t with Aka c => c <> Cz | _ => True end.
Definition keys_are (P : tile -> Prop) (s : tset) : Prop := Forall (fun e => P (fst e)) s.

Lemma put_keys (P : tile -> Prop) s t v : keys_are P s -> P t -> keys_are P (put s t v).
Proof.
  unfold keys_are. induction 1 as [|[t' v'] s A B IH]; intro H; cbn [put]; [repeat constructor; exact H|].
  destruct (tile_eqb t' t); constructor; auto.
Qed.
Lemma of_tiles_keys (P : tile -> Prop) l : Forall P l -> keys_are P (of_tiles l).
Proof.
  intro H. unfold of_tiles. assert (G : forall s, keys_are P s -> keys_are P (fold_left (fun a t => put a t (get a t + 1)) l s)).
  { induction H as [|t l A B IH]; intros s S; [exact S|]. cbn [fold_left]. apply IH. now apply put_keys. }
  apply G. constructor.
Qed.
Lemma sub_into_keys (P : tile -> Prop) o s : keys_are P s -> keys_are P o -> keys_are P (sub_into s o).
Proof.
  intros S O. unfold sub_into. revert s S. induction O as [|e o A B IH]; intros s S; [exact S|].
  cbn [fold_left]. apply IH. now apply put_keys.
Qed.
Lemma add_into_keys (P : tile -> Prop) o s : keys_are P s -> keys_are P o -> keys_are P (add_into s o).
Proof.
  intros S O. unfold add_into. revert s S. induction O as [|e o A B IH]; intros s S; [exact S|].
  cbn [fold_left]. apply IH. now apply put_keys.
Qed.
Lemma filter_keys (P : tile -> Prop) f s : keys_are P s -> keys_are P (filter f s).
Proof. unfold keys_are. rewrite !Forall_forall. intros H e I. apply filter_In in I. now apply H. Qed.
Lemma ts_sub_keys (P : tile -> Prop) a b : keys_are P a -> keys_are P b -> keys_are P (ts_sub a b).
Proof. intros A B. apply filter_keys. now apply sub_into_keys. Qed.
Lemma re_sort_keys (P : tile -> Prop) s : keys_are P s -> keys_are P (re_sort s).
Proof. intro H. eapply Permutation_Forall; [symmetry; apply re_sort_perm|exact H]. Qed.
Lemma ts_add_keys (P : tile -> Prop) a b : keys_are P a -> keys_are P b -> keys_are P (ts_add a b).
Proof. intros A B. apply re_sort_keys, filter_keys. now apply add_into_keys. Qed.
Lemma neg_keys (P : tile -> Prop) s : keys_are P s -> keys_are P (neg s).
Proof.
  intro H. unfold neg, keys_are. apply Forall_map. cbn [fst]. apply (filter_keys P _ s H).
Qed.

(** Units are made of plain tiles, so the search adds plain keys only. *)
Lemma unit_ts_plain u : keys_are plain_tile (unit_ts u).
Proof. destruct u as [[c n]|c n|[c n]]; repeat constructor; cbn; eexists _, _; reflexivity. Qed.
Lemma next_plain p t u p' : In (u, p') (next_states p t) -> keys_are plain_tile u.
Proof.
  assert (F : forall f, flush t = Some f -> keys_are plain_tile f).
  { unfold flush. destruct (flush_tiles t) as [l|] eqn:E; [|discriminate]. cbn. intros f X. injection X as <-.
    apply of_tiles_keys. destruct t as [n c|c]; cbn [flush_tiles] in E;
      match type of E with (if ?b then _ else _) = _ => destruct b; [|discriminate] end; injection E as <-;
      repeat constructor; eexists _, _; reflexivity. }
  destruct p as [a b|a l]; cbn [next_states].
  - rewrite in_app_iff. intros [H|H].
    + destruct (0 <? a); [|destruct H]. destruct H as [H|[]]. injection H as <- _. rewrite pair_view. apply unit_ts_plain.
    + destruct (0 <? b); [|destruct H]. apply in_app_iff in H. destruct H as [H|H].
      * destruct (flush t) as [f|] eqn:E; [|destruct H]. destruct H as [H|[]]. injection H as <- _. now apply F.
      * destruct H as [H|[]]. injection H as <- _. rewrite triplet_view. apply unit_ts_plain.
  - destruct (negb _ && _); [|intros []]. intros [H|[]]. injection H as <- _. rewrite pair_view. apply unit_ts_plain.
Qed.

Section Keys.
  Variable P : tile -> Prop.
  Hypothesis HP : forall n c, P (Plain n c).
  Lemma plain_P t : plain_tile t -> P t.
  Proof. intros (n & c & ->). apply HP. Qed.
  Lemma keys_plain s : keys_are plain_tile s -> keys_are P s.
  Proof. unfold keys_are. rewrite !Forall_forall. intros H e I. apply plain_P. now apply H. Qed.
  Definition good_results (rs : list hres) : Prop := Forall (fun r : hres => keys_are P (snd r) /\ Forall (keys_are P) (snd (fst r))) rs.
  Lemma h_units_keys rec hand base mu cb us mx : keys_are P hand ->
    (forall st h m, keys_are P h -> good_results (fst (rec st h m))) ->
    Forall (fun u => keys_are P (fst u)) us ->
    good_results (fst (fst (h_units rec hand base mu cb us mx))).
  Proof.
    intros H R U. revert mx. induction U as [|[u st] us A B IH]; intro mx; cbn [h_units]; [constructor|].
    destruct (base + mu <=? mx); [|constructor].
    destruct (borrowed_tile_count (subtract hand u) - base =? cb).
    - specialize (R st (subtract hand u) mx ltac:(apply sub_into_keys; assumption)).
      destruct (rec st (subtract hand u) mx) as [rs0 mx0]. cbn [fst] in R.
      specialize (IH mx0). destruct (h_units rec hand base mu cb us mx0) as [[rs2 mx2] ret]. cbn [fst] in *.
      apply Forall_app. split; [|exact IH]. apply Forall_map. cbn [fst snd]. eapply Forall_impl; [|exact R]. cbn beta.
      intros r [X Y]. split; [exact X|]. constructor; [exact A|exact Y].
    - specialize (IH mx). destruct (h_units rec hand base mu cb us mx) as [[rs2 mx2] ret]. cbn [fst app] in *. exact IH.
  Qed.
  Lemma next_keys p t : Forall (fun u => keys_are P (fst u)) (next_states p t).
  Proof. apply Forall_forall. intros [u p'] I. apply keys_plain. eapply next_plain. exact I. Qed.
  Lemma h_tiles_keys rec group cb hand base mu st tiles mx : keys_are P hand ->
    (forall g st h m, keys_are P h -> good_results (fst (rec g st h m))) ->
    good_results (fst (fst (h_tiles rec group cb hand base mu st tiles mx))).
  Proof.
    intros H R. revert mx. induction tiles as [|t rest IH]; intro mx; cbn [h_tiles]; [constructor|].
    pose proof (h_units_keys (rec (set_nth cb (t :: rest) group)) hand base mu (Z.of_nat cb) (next_states st t) mx H
                  (fun st h m => R _ st h m) (next_keys st t)) as U.
    destruct (h_units (rec (set_nth cb (t :: rest) group)) hand base mu (Z.of_nat cb) (next_states st t) mx) as [[rs mx1] ret].
    cbn [fst] in U. destruct ret; [exact U|]. specialize (IH mx1).
    destruct (h_tiles rec group cb hand base mu st rest mx1) as [[rs2 mx2] ret2]. cbn [fst] in *. apply Forall_app. auto.
  Qed.
  Lemma h_rounds_keys rec group hand base st rounds mx : keys_are P hand ->
    (forall cb g st h m, keys_are P h -> good_results (fst (rec cb g st h m))) ->
    good_results (fst (h_rounds rec group hand base st rounds mx)).
  Proof.
    intros H R. revert mx. induction rounds as [|cb more IH]; intro mx; cbn [h_rounds]; [constructor|].
    pose proof (h_tiles_keys (rec cb) group cb hand base (need_units st * Z.of_nat cb) st (nth cb group []) mx H (R cb)) as U.
    destruct (h_tiles (rec cb) group cb hand base (need_units st * Z.of_nat cb) st (nth cb group []) mx) as [[rs mx1] ret].
    cbn [fst] in U. destruct ret; [exact U|]. specialize (IH mx1).
    destruct (h_rounds rec group hand base st more mx1) as [rs2 mx2]. cbn [fst] in *. apply Forall_app. auto.
  Qed.
  Lemma h_sel_keys fuel ig limits pr stage group st hand mx : keys_are P hand ->
    good_results (fst (h_sel fuel ig limits pr stage group st hand mx)).
  Proof.
    revert stage group st hand mx. induction fuel as [|f IH]; intros stage group st hand mx H; [constructor|]. cbn [h_sel].
    destruct (ig && negb (within_limits limits hand)); [constructor|]. destruct (has_win st).
    - cbn [fst]. constructor; [|constructor]. cbn [fst snd]. split; [now apply neg_keys|constructor].
    - apply h_rounds_keys; [exact H|]. intros. now apply IH.
  Qed.
  Lemma h_combos_keys p hand ig w : keys_are P hand -> good_results (h_combos p hand ig w).
  Proof. apply h_sel_keys. Qed.

  Lemma set_add_P t s : P t -> Forall P s -> Forall P (set_add t s).
  Proof. intros A B. unfold set_add. destruct (existsb _ s); [exact B|]. apply Forall_app. auto. Qed.
  Lemma set_update_P s ts : Forall P ts -> Forall P s -> Forall P (set_update s ts).
  Proof.
    unfold set_update. intro A. revert s. induction A as [|t ts A B IH]; intros s S; [exact S|].
    cbn [fold_left]. apply IH. now apply set_add_P.
  Qed.
  Lemma keys_map s : keys_are P s -> Forall P (map fst s).
  Proof. intro H. apply Forall_map. exact H. Qed.
  Lemma union_borrowed_P (rs : list hres) : good_results rs -> Forall P (union_borrowed rs).
  Proof.
    intro H. unfold union_borrowed. assert (G : forall a, Forall P a -> Forall P (fold_left (fun a (r : hres) => set_update a (map fst (snd r))) rs a)).
    { induction H as [|r rs A B IH]; intros a S; [exact S|]. cbn [fold_left]. apply IH. apply set_update_P; [apply keys_map, A|exact S]. }
    apply G. constructor.
  Qed.
  Lemma h_both_keys p hand r : keys_are P hand -> h_both p hand true = Ok r -> Forall P (snd r).
  Proof.
    intros H E. unfold h_both in E. destruct (h_step p hand true) as [w|]; [|discriminate]. cbn [bindr] in E.
    apply Ok_inj in E. subst r. cbn [snd]. apply union_borrowed_P. now apply h_combos_keys.
  Qed.
  Definition good_dict (d : list (tile * list tile)) : Prop := Forall (fun e => P (fst e) /\ Forall P (snd e)) d.
  Lemma dict_update_P d t ts : good_dict d -> P t -> Forall P ts -> good_dict (dict_update d t ts).
  Proof.
    unfold good_dict. induction 1 as [|[t' s] d [A B] C IH]; intros T S; cbn [dict_update].
    - constructor; [|constructor]. split; [exact T|]. apply set_update_P; [exact S|constructor].
    - cbn [fst snd] in *. destruct (tile_eqb t' t); constructor; auto. split; [exact A|]. now apply set_update_P.
  Qed.
  Lemma h_batch_keys p hand rows : keys_are P hand -> h_batch p hand true = Ok rows ->
    Forall (fun r => P (fst (fst r)) /\ Forall P (snd r)) rows.
  Proof.
    intros H E. unfold h_batch in E. destruct (h_step p hand true) as [w|]; [|discriminate]. cbn [bindr] in E.
    apply Ok_inj in E. subst rows. apply Forall_map. cbn [fst snd].
    pose proof (h_combos_keys p hand true w H) as G. revert G. generalize (h_combos p hand true w).
    intros rs G. match goal with |- Forall _ ?d => change (good_dict d) end.
    assert (K : forall d, good_dict d -> good_dict (fold_left (fun d (r : hres) =>
             let hand_win := fold_left ts_add (snd (fst r)) [] in
             let can_drops := ts_sub hand hand_win in
             fold_left (fun d e => dict_update d (fst e) (map fst (snd r))) can_drops d) rs d)).
    { clear w. induction G as [|r rs A B IH]; intros d D; [exact D|]. cbn [fold_left]. apply IH. cbv zeta.
      assert (KD : keys_are P (ts_sub hand (fold_left ts_add (snd (fst r)) []))).
      { apply ts_sub_keys; [exact H|]. destruct A as [_ A]. assert (Z0 : keys_are P []) by constructor. revert Z0. generalize (@nil (tile * Z)).
        induction A as [|u us U V IHu]; intros z Z0; [exact Z0|]. cbn [fold_left]. apply IHu. now apply ts_add_keys. }
      revert d D. induction KD as [|e l X Y IHl]; intros d D; [exact D|]. cbn [fold_left]. apply IHl.
      apply dict_update_P; [exact D|exact X|]. apply keys_map, A. }
    apply K. constructor.
  Qed.
End Keys.

(** ** The hand built from tile numbers. *)
(** A red five among the tiles is one of the hand. *)
Definition held (hand : list Z) (t : tile) : Prop :=
  match t with Plain _ _ => True | Aka c => exists u, In u hand /\ red_number u /\ face u = (c, 5) end.
Lemma held_plain_tile hand n c : held hand (Plain n c). Proof. exact I. Qed.
Lemma no_red_useless hand P : no_red_five hand -> reds_useless hand P.
Proof. intros N t T R. now destruct (N t T). Qed.
Lemma no_red_idle ss hand : no_red_five hand -> reds_idle ss hand.
Proof. intros N s k _ _. now apply no_red_useless. Qed.
Lemma useless_mono hand (P Q : kind -> Prop) : (forall j, Q j -> P j) -> reds_useless hand P -> reds_useless hand Q.
Proof. intros M U t T R X. apply (U t T R). now apply M. Qed.
Lemma held_plain hand (P : kind -> Prop) l : Forall (held hand) l -> (forall j, In j (map view l) <-> P j) -> reds_useless hand P -> Forall plain_tile l.
Proof.
  intros F E U. rewrite Forall_forall in *. intros t T. specialize (F t T). destruct t as [n c|c]; [eexists _, _; reflexivity|]. exfalso.
  destruct F as (u & Iu & R & Q). apply (U u Iu R). apply E. rewrite Q. apply in_map_iff. now exists (Aka c).
Qed.
Lemma held_none hand t : held hand t -> no_red_five hand -> plain_tile t.
Proof. destruct t as [n c|c]; [eexists _, _; reflexivity|]. intros (u & Iu & R & _) N. now destruct (N u Iu). Qed.
Lemma held_of hand i t : In i hand -> view t = face i -> (red_number i <-> exists c, t = Aka c) -> held hand t.
Proof. intros Ii V R. destruct t as [n c|c]; [exact I|]. exists i. split; [exact Ii|]. split; [apply R; eauto|now rewrite <- V]. Qed.
Record hand_facts (hand : list Z) (H : tset) : Prop := mkHandFacts {
  hf_ok : hand_ok H;
  hf_four : four_max H;
  hf_count : forall k, face_count H k = hand_counts hand k;
  hf_size : hand_size H = Z.of_nat (length hand);
  hf_object : keys_are object H;
  hf_held : keys_are (held hand) H }.

Lemma tiles_of_numbers hand : Forall valid_tile hand ->
  exists l, mapM tile_from_tenhou hand = Ok l /\ map view l = map face hand /\ Forall (fun t => legal_kind (view t)) l /\
    Forall object l /\ Forall (held hand) l.
Proof.
  induction 1 as [|i hand V F IH]; [exists []; repeat split; constructor|].
  destruct IH as (l & E & A & B & C & D). destruct (C05_tile_of_number i V) as (t & Et & Lt & Vt & R).
  exists (t :: l). cbn [mapM map]. rewrite Et. cbn [bindr]. rewrite E. cbn [bindr]. split; [reflexivity|].
  split; [now rewrite Vt, A|]. split; [|split].
  - constructor; [|exact B]. destruct t as [n c|c]; [exact Lt|]. cbn in *. destruct c; cbn; try lia; congruence.
  - constructor; [|exact C]. destruct t; [exact I|exact Lt].
  - constructor; [apply (held_of _ i); [now left|exact Vt|exact R]|]. eapply Forall_impl; [|exact D]. intros [n c|c]; [intros _; exact I|].
    intros (u & Iu & Q). exists u. split; [now right|exact Q].
Qed.
Lemma hand_tiles_facts hand : NoDup hand -> Forall valid_tile hand ->
  exists H, hand_tiles hand = Ok H /\ hand_facts hand H.
Proof.
  intros N V. destruct (tiles_of_numbers hand V) as (l & E & A & B & C & D). exists (of_tiles l).
  unfold hand_tiles. rewrite E. split; [reflexivity|].
  assert (Q : forall k, getk (of_tiles l) k = hand_counts hand k).
  { intro k. rewrite getk_of_tiles, occ_count. unfold hand_counts. now rewrite A. }
  assert (G : good_hand (of_tiles l)).
  { split; [apply wf_of_tiles|]. split; [now apply legal_of_tiles|]. intro k. rewrite Q. unfold hand_counts, count_kind.
    apply sumZ_nonneg. intros x. destruct (same_kind x k); lia. }
  pose proof (good_hand_ok _ G) as Ho.
  constructor.
  - exact Ho.
  - intro k. rewrite <- hand_ok_fc by exact Ho. rewrite Q. now apply faces_le4.
  - intro k. rewrite <- hand_ok_fc by exact Ho. apply Q.
  - rewrite hand_size_total, total_sumK by apply G. unfold sumK.
    rewrite (sumZ_ext _ (getk (of_tiles l)) (fun k => count_kind k (map face hand))) by (intros; apply Q).
    change (sumK (fun k => count_kind k (map face hand)) = Z.of_nat (length hand)).
    rewrite sumK_count, map_length; [reflexivity|]. rewrite <- A. apply Forall_map. exact B.
  - now apply of_tiles_keys.
  - now apply of_tiles_keys.
Qed.
Lemma perm_face_count a b k : Permutation a b -> face_count a k = face_count b k.
Proof. unfold face_count. induction 1; cbn [sumZ]; lia. Qed.
Lemma perm_size a b : Permutation a b -> hand_size a = hand_size b.
Proof. unfold hand_size. induction 1; cbn [sumZ]; lia. Qed.
Lemma re_sort_facts hand H : hand_facts hand H -> hand_facts hand (re_sort H).
Proof.
  intros [A B C D E F]. pose proof (re_sort_perm H) as P. constructor.
  - destruct A as [A1 A2]. split.
    + eapply Permutation_NoDup; [|exact A1]. apply Permutation_map. now symmetry.
    + eapply Permutation_Forall; [symmetry; exact P|exact A2].
  - intro k. rewrite (perm_face_count _ _ k P). apply B.
  - intro k. rewrite (perm_face_count _ _ k P). apply C.
  - rewrite (perm_size _ _ P). exact D.
  - now apply re_sort_keys.
  - now apply re_sort_keys.
Qed.

(** ** Which discards keep the distance, for a hand of exactly the size of the shape. *)
Lemma sumK_uses_shape s us : forms s us -> sumK (uses us) = tiles_of s.
Proof.
  intro F. rewrite sumK_uses by apply F. apply sh_forms in F. rewrite <- (sh_need_count _ _ F).
  destruct s; cbn [need_count pattern_of tiles_of]; lia.
Qed.
Lemma wins_total s h : wins s h -> tiles_of s <= sumK h.
Proof. intros (us & F & T). rewrite <- (sumK_uses_shape s us F). now apply sumK_le. Qed.
Lemma sum_lt_witness (f g : kind -> Z) l : sumZ f l = sumZ g l -> (exists k, In k l /\ g k < f k) -> exists k, In k l /\ f k < g k.
Proof.
  intros E W. assert (D : (exists k, In k l /\ f k < g k) \/ (forall k, In k l -> g k <= f k)).
  { clear. induction l as [|x l IH]; [right; intros k []|]. destruct IH as [(k & I & L)|H].
    - left. exists k. split; [now right|exact L].
    - destruct (Z_lt_dec (f x) (g x)) as [L|L]; [left; exists x; split; [now left|exact L]|].
      right. intros k [<-|I]; [lia|auto]. }
  destruct D as [D|D]; [exact D|]. exfalso. destruct W as (k & I & L).
  assert (X : sumZ g l < sumZ f l); [|lia]. clear E. revert D I. induction l as [|x l IH]; [intros _ []|]. intros D [->|I]; cbn [sumZ].
  - assert (sumZ g l <= sumZ f l); [|lia]. clear IH. assert (D' : forall x, In x l -> g x <= f x) by (intros; apply D; now right). clear D. induction l as [|y l IH]; cbn [sumZ]; [lia|].
    pose proof (D' y (or_introl eq_refl)). specialize (IH (fun x X => D' x (or_intror X))). lia.
  - pose proof (D x (or_introl eq_refl)). specialize (IH (fun x X => D x (or_intror X)) I). lia.
Qed.
Lemma exact_discard s hand H : hand_facts hand H -> shape_ok s -> units_of s <= 34 -> tiles_of s = Z.of_nat (length hand) ->
  ((exists k, keeps_distance true s (face_count H) k) <-> ~ wins s (face_count H)).
Proof.
  intros HF S1 S2 Sz. pose proof (hf_ok _ _ HF) as Ho. pose proof (hand_ok_good _ Ho) as G.
  assert (O : okh true (getk H)) by (apply okl_okh; split; [exact Ho|intros _; apply HF]).
  assert (T : sumK (getk H) = tiles_of s).
  { rewrite <- total_sumK by apply G. rewrite <- hand_size_total, (hf_size _ _ HF). now symmetry. }
  assert (Ef : forall k, face_count H k = getk H k) by (intro; symmetry; now apply hand_ok_fc).
  split.
  - intros (k & P & n & D1 & D2) W.
    assert (R0 : reach true s (face_count H) 0).
    { exists []. split; [reflexivity|]. split; [constructor|]. split.
      - intros _ j. rewrite plus_nil. apply HF.
      - eapply wins_ext; [|exact W]. intro j. now rewrite plus_nil. }
    apply D1 in R0. assert (n = 0%nat) by lia. subst n. destruct D2 as [(add & L & _ & _ & W2) _]. destruct add; [|discriminate].
    assert (W3 : wins s (without (getk H) k)).
    { eapply wins_ext; [|exact W2]. intro j. rewrite plus_nil. symmetry. now apply without_fc. }
    apply wins_total in W3. assert (Lk : legal_kind k).
    { rewrite Ef in P. destruct (getk_nonzero_in H k) as (x & V & I); [lia|]. destruct G as (_ & L' & _).
      unfold legal_keys in L'. rewrite Forall_forall in L'. apply L'. apply in_map_iff. eexists. split; [|exact I]. exact V. }
    assert (Q : sumK (without (getk H) k) = sumK (getk H) - 1).
    { unfold sumK. rewrite (sumZ_ext _ (without (getk H) k) (fun j => getk H j + - (if kind_eqb k j then 1 else 0))).
      - rewrite sumZ_plus, sumZ_opp. pose proof (sumK_indicator k Lk) as Q. unfold sumK in Q. lia.
      - intros j _. rewrite without_eq. lia. }
    lia.
  - intro NW. destruct (distance_exists true s (getk H) O S1 S2) as (n & D). pose proof D as M. apply distance_mindef in M; [|exact O].
    destruct M as [(us & F & A & E) Min].
    assert (Pos : exists k, In k KINDS /\ getk H k < uses us k).
    { assert (Dn : (exists k, In k KINDS /\ getk H k < uses us k) \/ (forall k, In k KINDS -> uses us k <= getk H k)).
      { clear. generalize KINDS. intro ks. induction ks as [|x l IH]; [right; intros k []|]. destruct IH as [(k & I & L)|Hx].
        - left. exists k. split; [now right|exact L].
        - destruct (Z_lt_dec (getk H x) (uses us x)) as [L|L]; [left; exists x; split; [now left|exact L]|].
          right. intros k [<-|I]; [lia|auto]. }
      destruct Dn as [Dn|Dn]; [exact Dn|]. exfalso. apply NW. exists us. split; [exact F|]. intro k. rewrite Ef.
      destruct (Z_lt_dec 0 (uses us k)) as [L|L]; [|destruct G as (_ & _ & Nn); specialize (Nn k); lia].
      apply Dn. apply KINDS_legal. eapply uses_legal; [apply F|exact L]. }
    destruct (sum_lt_witness (uses us) (getk H) KINDS) as (k & Ik & Lk).
    { change (sumK (uses us) = sumK (getk H)). rewrite T. now apply sumK_uses_shape. }
    { exact Pos. }
    exists k. split; [rewrite Ef; pose proof (uses_nonneg us k); lia|]. exists n. split; [apply dist_fc; auto|].
    assert (Pk : 0 < getk H k) by (pose proof (uses_nonneg us k); lia).
    apply (distance_ext true s (without (getk H) k)); [intro j; now apply without_fc|].
    apply distance_mindef; [now apply okh_without|]. apply mindef_without; [exact O|now apply KINDS_legal|split; eauto|].
    exists us. auto.
Qed.
