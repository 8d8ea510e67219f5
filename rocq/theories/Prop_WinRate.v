(** C90-C93: estimating the win rate of every discard. *)
From Verif Require Import Base Tile TileSet Spec_Tile TileSetFacts Win Spec_Win WinFacts WinProofs WaitingFacts TileSetOps Spec_Hand WaitingTop
  Parse Prop_Tile Prop_Parse Prop_Win Distribution Prop_Distribution WinRate Spec_WinRate Text.
From Coq Require Import List ZArith QArith Qfield Lqa Lia Bool Permutation.
From Coq Require String.
Import String.StringSyntax ListNotations.
Open Scope string_scope.
Open Scope list_scope.
Open Scope Z_scope.

(** ** The hand that was typed in. *)
Lemma of_tiles_allpos : forall l, allpos (of_tiles l).
Proof.
  intros l. unfold of_tiles. assert (G : forall l s, allpos s -> allpos (fold_left (fun a t => put a t (get a t + 1)) l s)).
  { clear l. induction l as [|t l IH]; intros s A; cbn [fold_left]; auto. apply IH, put_allpos; auto.
    pose proof (get_allpos s t A). lia. }
  apply G. constructor.
Qed.
Lemma typed_hand : forall lines hand, read_hand lines = Some hand ->
  (exists l, In l lines /\ hand = tile_set_from_string l) /\ total hand = 14 /\ good_hand hand /\ allpos hand.
Proof.
  induction lines as [|l r IH]; intros hand H; cbn [read_hand] in H; [discriminate|]. cbv zeta in H.
  destruct (total (tile_set_from_string l) =? 14) eqn:E.
  - injection H as <-. apply Z.eqb_eq in E. split; [exists l; split; [now left|reflexivity]|]. split; [exact E|].
    split; [apply hand_ok_good; now apply (C10_parsed_set l (Cm, 1))|].
    unfold tile_set_from_string, allpos. eapply Permutation_Forall; [apply Permutation_sym, re_sort_perm|].
    apply of_tiles_allpos.
  - destruct (IH hand H) as ((l' & I & J) & K). split; auto. exists l'. split; auto. now right.
Qed.

(** ** One discard and one draw. *)
Lemma legal_face : forall t, legal_tile t -> legal_kind (view t).
Proof. exact legal_tile_kind. Qed.
Lemma wins_ext : forall s f g, (forall k, f k = g k) -> wins s f -> wins s g.
Proof. intros s f g E (us & A & B). exists us. split; auto. intros k. rewrite <- E. apply B. Qed.
Lemma count_one : forall k t, count_kind k [view t] = if kind_eqb (view t) k then 1 else 0.
Proof. intros k t. unfold count_kind. cbn [sumZ]. rewrite same_kind_eqb. lia. Qed.
Section Hand.
  Variable hand : tset.
  Hypothesis G : good_hand hand.
  Hypothesis A : allpos hand.
  Lemma key_held : forall t, In t (map fst hand) -> 1 <= getk hand (view t).
  Proof.
    intros t I. apply in_map_iff in I as ([u v] & E & I). cbn in E. subst u. destruct G as (W & _).
    rewrite (getk_in hand t v W I). unfold allpos in A. rewrite Forall_forall in A. specialize (A _ I). cbn in A. lia.
  Qed.
  Lemma key_legal : forall t, In t (map fst hand) -> legal_kind (view t).
  Proof.
    intros t I. apply in_map_iff in I as (e & E & I). destruct G as (_ & L & _). unfold legal_keys in L.
    rewrite Forall_forall in L. subst t. apply L. unfold kinds_of. now apply (in_map kview).
  Qed.
  Lemma after_getk : forall t drawn k, In t (map fst hand) -> Forall legal_tile drawn ->
    getk (ts_add (ts_sub hand (of_tiles [t])) (of_tiles drawn)) k = afterwards hand t drawn k.
  Proof.
    intros t drawn k I L. pose proof (key_held t I) as K. destruct G as (W & Lk & N). unfold afterwards, ts_add.
    assert (W1 : wf (ts_sub hand (of_tiles [t]))) by now apply wf_ts_sub.
    assert (W2 : wf (add_into (ts_sub hand (of_tiles [t])) (of_tiles drawn))) by now apply wf_add_into.
    rewrite getk_re_sort by now apply wf_filter. rewrite getk_keep_positive by auto.
    rewrite getk_add_into by apply wf_of_tiles. rewrite getk_ts_sub by (auto using wf_of_tiles).
    rewrite !getk_of_tiles, !occ_count. cbn [map]. rewrite count_one. rewrite face_count_getk by auto.
    fold (faces drawn). pose proof (N k) as Nk.
    assert (0 <= count_kind k (faces drawn)) by (apply sumZ_nonneg; intros x _; destruct (same_kind x k); lia).
    destruct (kind_eqb (view t) k) eqn:E; [apply kind_eqb_eq in E; subst k|]; lia.
  Qed.
  Lemma after_good : forall t drawn, In t (map fst hand) -> Forall legal_tile drawn ->
    good_hand (ts_add (ts_sub hand (of_tiles [t])) (of_tiles drawn)).
  Proof.
    intros t drawn I L. pose proof (key_legal t I) as Kl. destruct G as (W & Lk & N). unfold ts_add.
    assert (W1 : wf (ts_sub hand (of_tiles [t]))) by now apply wf_ts_sub.
    assert (W2 : wf (add_into (ts_sub hand (of_tiles [t])) (of_tiles drawn))) by now apply wf_add_into.
    split; [now apply wf_re_sort, wf_filter|]. split.
    - apply legal_re_sort, legal_filter, legal_add_into.
      + apply legal_ts_sub; auto. apply legal_of_tiles. constructor; auto.
      + apply legal_of_tiles. eapply Forall_impl; [|exact L]. intros u. apply legal_tile_kind.
    - intros k. rewrite getk_re_sort by now apply wf_filter. rewrite getk_keep_positive by auto. lia.
  Qed.
  Lemma pattern_wins : forall t drawn p s, In t (map fst hand) -> Forall legal_tile drawn ->
    (forall us, sh p us <-> forms s us) ->
    (match_ p (ts_add (ts_sub hand (of_tiles [t])) (of_tiles drawn)) = true <-> wins s (afterwards hand t drawn)).
  Proof.
    intros t drawn p s I L F. rewrite match_iff by now apply after_good. unfold wins.
    split; intros (us & B & C); exists us; (split; [now apply F|]); intros k; specialize (C k).
    - now rewrite <- after_getk.
    - now rewrite after_getk.
  Qed.
  Lemma hand_wins_iff : forall t drawn, In t (map fst hand) -> Forall legal_tile drawn ->
    (hand_wins (ts_sub hand (of_tiles [t])) (of_tiles drawn) = true <-> winning (afterwards hand t drawn)).
  Proof.
    intros t drawn I L. unfold hand_wins, win_patterns, winning. cbv zeta. cbn [existsb]. rewrite orb_false_r, orb_true_iff.
    rewrite (pattern_wins t drawn (NormalTypeWin 1 4) (Standard 1 4)) by (auto; intros; apply (sh_forms (Standard 1 4))).
    rewrite (pattern_wins t drawn (UniquePairs 7 []) (DistinctPairs 7)) by (auto; intros; apply (sh_forms (DistinctPairs 7))).
    reflexivity.
  Qed.
End Hand.

(** ** The discards that win with a draw. *)
Lemma tile_in_iff : forall t ws, tile_in t ws = true <-> In (view t) (faces ws).
Proof.
  intros t ws. unfold tile_in, faces. rewrite existsb_exists, in_map_iff. split; intros (u & X & Y); exists u.
  - rewrite same_kind_eqb in Y. apply kind_eqb_eq in Y. auto.
  - split; auto. rewrite same_kind_eqb. apply kind_eqb_eq. auto.
Qed.
Lemma tile_in_eqb : forall t ws, existsb (fun u => tile_eqb u t) ws = tile_in t ws.
Proof. intros t ws. unfold tile_in. induction ws as [|u ws IH]; cbn [existsb]; auto. rewrite IH, same_kind_eqb. reflexivity. Qed.
Definition won_by (hand : tset) (drawn : list tile) : list tile :=
  filter (fun t => hand_wins (ts_sub hand (of_tiles [t])) (of_tiles drawn)) (map fst hand).
Lemma win_set_keys : forall hand drawn, possible_win_set (possible_discard hand) (of_tiles drawn) = won_by hand drawn.
Proof.
  intros hand drawn. unfold possible_win_set, possible_discard, won_by. induction (map fst hand) as [|t r IH]; auto.
  cbn [map filter]. cbn [snd]. destruct (hand_wins _ _); cbn [map fst]; now rewrite IH.
Qed.
Lemma discard_keys : forall hand, map fst (possible_discard hand) = map fst hand.
Proof. intros hand. unfold possible_discard. rewrite map_map. cbn [fst]. apply map_id. Qed.
Lemma NoDup_map_filter : forall A B (f : A -> B) (p : A -> bool) l, NoDup (map f l) -> NoDup (map f (filter p l)).
Proof.
  intros A B f p l. induction l as [|a l IH]; intros H; cbn [filter]; auto. cbn [map] in H. inversion H as [|? ? N D]; subst.
  destruct (p a); auto. cbn [map]. constructor; auto. intros I. apply N. apply in_map_iff in I as (b & E & I).
  apply filter_In in I as [I _]. rewrite <- E. now apply in_map.
Qed.
Lemma keys_faces : forall hand, wf hand -> NoDup (faces (map fst hand)).
Proof. intros hand W. unfold faces. rewrite map_map. exact W. Qed.
Lemma won_winners : forall hand drawn, good_hand hand -> allpos hand -> Forall legal_tile drawn -> winners hand drawn (won_by hand drawn).
Proof.
  intros hand drawn G A L. split.
  - apply NoDup_map_filter, keys_faces, G.
  - intros t. unfold won_by. rewrite filter_In. split; intros [I H]; (split; [exact I|]); now apply hand_wins_iff.
Qed.
(** Two lists of winners have the same faces. *)
Lemma winners_in : forall hand drawn ws t, winners hand drawn ws -> wf hand -> In t (map fst hand) ->
  (tile_in t ws = true <-> winning (afterwards hand t drawn)).
Proof.
  intros hand drawn ws t (N & H) W I. rewrite tile_in_iff. split.
  - intros J. unfold faces in J. apply in_map_iff in J as (u & E & J). apply H in J as [J K].
    assert (u = t) as ->; auto.
    pose proof (keys_faces hand W) as D. clear - D E I J. unfold faces in D.
    induction (map fst hand) as [|x l IH]; [destruct I|]. cbn [map] in D. inversion D as [|? ? D1 D2]; subst.
    destruct I as [->|I], J as [->|J]; auto; exfalso; apply D1; [rewrite <- E|rewrite E]; now apply in_map.
  - intros K. unfold faces. apply in_map. apply H. auto.
Qed.

(** ** The wall. *)
Lemma four_each : forall k, getk (of_tiles (ALL_TILES ++ ALL_TILES ++ ALL_TILES ++ ALL_TILES)) k = if existsb (kind_eqb k) KINDS then 4 else 0.
Proof.
  intros k. rewrite getk_of_tiles, occ_count, !map_app, all_views.
  assert (Ap : forall a b, count_kind k (a ++ b) = count_kind k a + count_kind k b) by (intros; unfold count_kind; apply sumZ_app).
  rewrite !Ap. assert (E : count_kind k KINDS = if existsb (kind_eqb k) KINDS then 1 else 0).
  { pose proof KINDS_NoDup as D. induction KINDS as [|x l IH]; [reflexivity|]. inversion D as [|? ? D1 D2]; subst. specialize (IH D2).
    unfold count_kind in *. cbn [sumZ existsb]. rewrite IH, same_kind_eqb, kind_eqb_sym. destruct (kind_eqb k x) eqn:E; cbn [orb]; [|lia].
    apply kind_eqb_eq in E. subst x. destruct (existsb (kind_eqb k) l) eqn:F; [|lia]. apply existsb_kind in F. contradiction. }
  rewrite E. destruct (existsb (kind_eqb k) KINDS); lia.
Qed.
Lemma remain_getk : forall hand k, good_hand hand -> legal_kind k -> getk (remain_tiles hand) k = left_over hand k.
Proof.
  intros hand k (W & _ & N) L. unfold remain_tiles, left_over. rewrite getk_ts_sub by (auto using wf_of_tiles).
  rewrite four_each, face_count_getk by auto. apply KINDS_legal, existsb_kind in L. now rewrite L.
Qed.
Lemma remain_illegal : forall hand k, good_hand hand -> ~ legal_kind k -> getk (remain_tiles hand) k = 0.
Proof.
  intros hand k (W & _ & N) L. unfold remain_tiles. rewrite getk_ts_sub by (auto using wf_of_tiles).
  rewrite four_each. destruct (existsb (kind_eqb k) KINDS) eqn:E.
  - apply existsb_kind, KINDS_legal in E. contradiction.
  - specialize (N k). lia.
Qed.
Lemma legal_dec : forall k, legal_kind k \/ ~ legal_kind k.
Proof. intros [[] n]; unfold legal_kind; cbn [fst snd]; lia. Qed.
Lemma remain_ok : forall hand, good_hand hand -> wall_ok (remain_tiles hand).
Proof.
  intros hand G. split; [|split].
  - apply wf_dict, wf_ts_sub, wf_of_tiles.
  - intros t. unfold get. destruct G as (W & _). unfold remain_tiles. rewrite getk_ts_sub by (auto using wf_of_tiles). lia.
  - intros t H. unfold get in H. destruct (legal_dec (view t)) as [L|L]; [|rewrite remain_illegal in H by auto; lia].
    now rewrite <- view_face.
Qed.
Lemma remain_size : forall hand, good_hand hand -> wall_size (remain_tiles hand) = left_over_size hand.
Proof.
  intros hand G. unfold wall_size, left_over_size, get. rewrite <- (sumZ_map _ _ (getk (remain_tiles hand)) view ALL_TILES), all_views.
  apply sumZ_ext. intros k I. apply remain_getk; auto. now apply KINDS_legal.
Qed.
Lemma how_many_count : forall t l, how_many t l = count_kind (view t) (faces l).
Proof.
  intros t l. induction l as [|u l IH]; [reflexivity|]. cbn [how_many]. rewrite IH. unfold count_kind, faces, tile_eqb.
  cbn [map sumZ]. rewrite same_kind_eqb. reflexivity.
Qed.
Lemma random_short : forall xs n, 0 <= n -> random_ok n xs -> Z.of_nat (length xs) <= n.
Proof.
  induction xs as [|x r IH]; intros n N R; cbn [random_ok length] in *; [lia|]. destruct R as [B R]. specialize (IH (n - 1) ltac:(lia) R). lia.
Qed.
Lemma size_nonneg : forall hand, 0 <= left_over_size hand.
Proof. intros hand. apply sumZ_nonneg. intros k _. unfold left_over. lia. Qed.
Lemma faces_all_tiles : forall k, legal_kind k -> exists t, In t ALL_TILES /\ view t = k.
Proof. intros k L. apply KINDS_legal in L. rewrite <- all_views in L. apply in_map_iff in L as (t & E & I). eauto. Qed.
Lemma draws_legal : forall hand xs, good_hand hand -> random_ok (left_over_size hand) xs ->
  exists drawn, sample (remain_tiles hand) xs = Ok drawn /\ length drawn = length xs /\ legal_draw hand drawn.
Proof.
  intros hand xs G R. destruct (C49_without_replacement (remain_tiles hand) xs) as (d & E & L & I & H).
  - now apply remain_ok.
  - rewrite remain_size by auto. apply random_short; auto. apply size_nonneg.
  - now rewrite remain_size.
  - exists d. split; auto. split; auto. split.
    + apply Forall_forall. intros t It. now apply all_legal, I.
    + intros k. specialize (H (Plain (snd k) (fst k))). rewrite how_many_count in H. unfold get in H.
      cbn [view] in H. rewrite <- surjective_pairing in H. destruct (legal_dec k) as [Lk|Lk].
      * now rewrite <- remain_getk.
      * rewrite remain_illegal in H by auto. unfold left_over. lia.
Qed.

(** ** The counters. *)
Lemma occ_tile_in : forall t ws, NoDup (faces ws) -> occ (view t) ws = if tile_in t ws then 1 else 0.
Proof.
  intros t ws. rewrite occ_count. fold (faces ws). unfold faces, tile_in, count_kind. induction ws as [|u ws IH]; intros N; [reflexivity|].
  cbn [map] in N. inversion N as [|? ? N1 N2]; subst. specialize (IH N2). cbn [map sumZ existsb]. rewrite IH.
  destruct (same_kind (view u) (view t)) eqn:E; cbn [orb]; [|lia]. rewrite same_kind_eqb in E. apply kind_eqb_eq in E.
  fold (tile_in t ws). destruct (tile_in t ws) eqn:F; [|lia]. apply tile_in_iff in F. unfold faces in F. rewrite <- E in F. contradiction.
Qed.
Lemma count_wins : forall ws c t, get (fold_left (fun c t => put c t (get c t + 1)) ws c) t = get c t + occ (view t) ws.
Proof.
  induction ws as [|u ws IH]; intros c t; cbn [fold_left].
  - unfold occ. cbn. lia.
  - rewrite IH. unfold get. rewrite getk_put. unfold occ. cbn [sumZ]. destruct (kind_eqb (view u) (view t)) eqn:E; [|lia].
    apply kind_eqb_eq in E. rewrite E. lia.
Qed.
Lemma fraction_add : forall c u x t, (fraction (add_fraction c u x) t == fraction c t + (if tile_eqb u t then x else 0))%Q.
Proof.
  induction c as [|[v q] c IH]; intros u x t; cbn [add_fraction fraction].
  - destruct (tile_eqb u t); lra.
  - destruct (tile_eqb v u) eqn:E; cbn [fraction].
    + apply tile_eqb_eq in E. unfold tile_eqb. rewrite E. destruct (kind_eqb (view u) (view t)); lra.
    + destruct (tile_eqb v t) eqn:F; [|apply IH]. destruct (tile_eqb u t) eqn:H; [|lra].
      apply tile_eqb_eq in F, H. assert (tile_eqb v u = true) by (apply tile_eqb_eq; congruence). congruence.
Qed.
Lemma inject_plus : forall a b, (inject_Z (a + b) == inject_Z a + inject_Z b)%Q.
Proof. intros. rewrite inject_Z_plus. reflexivity. Qed.
Lemma occ_nil : forall k, occ k [] = 0. Proof. reflexivity. Qed.
Lemma occ_cons : forall u ws t, occ (view t) (u :: ws) = (if tile_eqb u t then 1 else 0) + occ (view t) ws.
Proof. intros. unfold occ. cbn [sumZ]. reflexivity. Qed.
Lemma share_out : forall ws c x t,
  (fraction (fold_left (fun c t => add_fraction c t x) ws c) t == fraction c t + inject_Z (occ (view t) ws) * x)%Q.
Proof.
  induction ws as [|u ws IH]; intros c x t; cbn [fold_left].
  - rewrite occ_nil. change (inject_Z 0) with 0%Q. lra.
  - rewrite IH, fraction_add, occ_cons, inject_plus. destruct (tile_eqb u t).
    + change (inject_Z 1) with 1%Q. ring.
    + change (inject_Z 0) with 0%Q. ring.
Qed.
Lemma entry_add : forall d u v x t, entry (add_entry d u v x) t = if tile_eqb u t then add_fraction (entry d t) v x else entry d t.
Proof.
  induction d as [|[w c] d IH]; intros u v x t; cbn [add_entry entry].
  - destruct (tile_eqb u t); reflexivity.
  - destruct (tile_eqb w u) eqn:E; cbn [entry].
    + apply tile_eqb_eq in E. unfold tile_eqb. rewrite E. destruct (kind_eqb (view u) (view t)); reflexivity.
    + destruct (tile_eqb w t) eqn:F; [|apply IH]. destruct (tile_eqb u t) eqn:H; [|reflexivity].
      apply tile_eqb_eq in F, H. assert (tile_eqb w u = true) by (apply tile_eqb_eq; congruence). congruence.
Qed.
Lemma entry_adds : forall ws d n x t, entry (fold_left (fun d t => add_entry d n t x) ws d) t =
  if tile_eqb n t then fold_left (fun c t => add_fraction c t x) ws (entry d t) else entry d t.
Proof.
  induction ws as [|u ws IH]; intros d n x t; cbn [fold_left].
  - now destruct (tile_eqb n t).
  - rewrite IH, entry_add. now destruct (tile_eqb n t).
Qed.
Lemma transfer_out : forall lost ws d x u t,
  (fraction (entry (fold_left (fun d n => fold_left (fun d t => add_entry d n t x) ws d) lost d) u) t ==
   fraction (entry d u) t + inject_Z (occ (view u) lost) * (inject_Z (occ (view t) ws) * x))%Q.
Proof.
  induction lost as [|n lost IH]; intros ws d x u t; cbn [fold_left].
  - rewrite occ_nil. change (inject_Z 0) with 0%Q. ring.
  - rewrite IH, entry_adds, occ_cons, inject_plus. destruct (tile_eqb n u).
    + rewrite share_out. change (inject_Z 1) with 1%Q. ring.
    + change (inject_Z 0) with 0%Q. ring.
Qed.

(** All counters after all experiments, in terms of the winners of each. *)
Definition note (ks ws : list tile) (s : tally) : tally :=
  let share := (1 / inject_Z (Z.of_nat (length ws)))%Q in
  let lost := filter (fun t => negb (existsb (fun u => tile_eqb u t) ws)) ks in
  mkTally (fold_left (fun c t => put c t (get c t + 1)) ws (win_counter s))
          (total_win_count s + Z.of_nat (length ws))
          (fold_left (fun c t => add_fraction c t share) ws (avg_win_counter s))
          (fold_left (fun d no_win => fold_left (fun d t => add_entry d no_win t share) ws d) lost (condition_win_counter s)).
Definition note_all (ks : list tile) (wss : list (list tile)) (s : tally) : tally := fold_left (fun s ws => note ks ws s) wss s.
Lemma experiment_note : forall hand drawn s,
  experiment (possible_discard hand) (of_tiles drawn) s = note (map fst hand) (won_by hand drawn) s.
Proof. intros. unfold experiment, note. now rewrite win_set_keys, discard_keys. Qed.
Lemma experiments_note : forall hand source s, good_hand hand -> Forall (random_ok (left_over_size hand)) source ->
  exists draws, Forall2 (fun xs d => sample (remain_tiles hand) xs = Ok d /\ length d = length xs /\ legal_draw hand d) source draws /\
    experiments (remain_tiles hand) (possible_discard hand) source s = Ok (note_all (map fst hand) (map (won_by hand) draws) s).
Proof.
  intros hand source s G. revert s. induction source as [|xs source IH]; intros s F.
  - exists []. split; [constructor|reflexivity].
  - inversion F as [|? ? F1 F2]; subst. destruct (draws_legal hand xs G F1) as (d & E & L & D).
    destruct (IH (note (map fst hand) (won_by hand d) s) F2) as (ds & H & K). exists (d :: ds). split; [constructor; auto|].
    cbn [experiments]. rewrite E. cbn [bindr]. rewrite experiment_note. exact K.
Qed.

Lemma faces_filter_lost : forall ks ws u, NoDup (faces ks) ->
  inject_Z (occ (view u) (filter (fun t => negb (existsb (fun v => tile_eqb v t) ws)) ks)) =
  (if tile_in u ks && negb (tile_in u ws) then 1 else 0)%Q.
Proof.
  intros ks ws u N. rewrite occ_tile_in by now apply NoDup_map_filter.
  assert (E : tile_in u (filter (fun t => negb (existsb (fun v => tile_eqb v t) ws)) ks) = tile_in u ks && negb (tile_in u ws)).
  { clear N. unfold tile_in at 1 2. induction ks as [|k ks IH]; [reflexivity|]. cbn [filter existsb]. rewrite tile_in_eqb.
    destruct (tile_in k ws) eqn:E; cbn [negb existsb].
    - rewrite IH. destruct (same_kind (view k) (view u)) eqn:F; [|reflexivity]. rewrite same_kind_eqb in F. apply kind_eqb_eq in F.
      assert (tile_in u ws = true) as ->. { apply tile_in_iff. rewrite <- F. now apply tile_in_iff. }
      rewrite !andb_false_r. reflexivity.
    - rewrite IH. destruct (same_kind (view k) (view u)) eqn:F; [|reflexivity]. rewrite same_kind_eqb in F. apply kind_eqb_eq in F.
      assert (tile_in u ws = false) as ->. { destruct (tile_in u ws) eqn:H; auto. apply tile_in_iff in H. rewrite <- F in H. apply tile_in_iff in H. congruence. }
      reflexivity. }
  rewrite E. destruct (tile_in u ks && negb (tile_in u ws)); reflexivity.
Qed.
Section Notes.
  Variable ks : list tile.
  Hypothesis K : NoDup (faces ks).
  Lemma note_all_wins : forall wss s t, Forall (fun ws => NoDup (faces ws)) wss ->
    get (win_counter (note_all ks wss s)) t = get (win_counter s) t + sumZ (fun ws => if tile_in t ws then 1 else 0) wss.
  Proof.
    induction wss as [|ws wss IH]; intros s t F; [cbn; lia|]. inversion F; subst. cbn [note_all fold_left].
    fold (note_all ks wss (note ks ws s)). rewrite IH by auto. unfold note at 1. cbn [win_counter]. rewrite count_wins, occ_tile_in by auto.
    cbn [sumZ]. lia.
  Qed.
  Lemma note_all_total : forall wss s,
    total_win_count (note_all ks wss s) = total_win_count s + sumZ (fun ws => Z.of_nat (length ws)) wss.
  Proof.
    induction wss as [|ws wss IH]; intros s; [cbn; lia|]. cbn [note_all fold_left].
    fold (note_all ks wss (note ks ws s)). rewrite IH. unfold note at 1. cbn [total_win_count sumZ]. lia.
  Qed.
  Lemma note_all_avg : forall wss s t, Forall (fun ws => NoDup (faces ws)) wss ->
    (fraction (avg_win_counter (note_all ks wss s)) t ==
     fraction (avg_win_counter s) t + add_up (fun ws => if tile_in t ws then even_share ws else 0) wss)%Q.
  Proof.
    induction wss as [|ws wss IH]; intros s t F; [cbn; lra|]. inversion F; subst. cbn [note_all fold_left].
    fold (note_all ks wss (note ks ws s)). rewrite IH by auto. unfold note at 1. cbn [avg_win_counter]. rewrite share_out, occ_tile_in by auto.
    cbn [add_up]. unfold even_share at 2. destruct (tile_in t ws).
    - change (inject_Z 1) with 1%Q. lra.
    - change (inject_Z 0) with 0%Q. lra.
  Qed.
  Lemma note_all_cond : forall wss s u t, Forall (fun ws => NoDup (faces ws)) wss ->
    (fraction (entry (condition_win_counter (note_all ks wss s)) u) t ==
     fraction (entry (condition_win_counter s) u) t +
     add_up (fun ws => if tile_in u ks && negb (tile_in u ws) && tile_in t ws then even_share ws else 0) wss)%Q.
  Proof.
    induction wss as [|ws wss IH]; intros s u t F; [cbn; lra|]. inversion F; subst. cbn [note_all fold_left].
    fold (note_all ks wss (note ks ws s)). rewrite IH by auto. unfold note at 1. cbn [condition_win_counter]. rewrite transfer_out, (occ_tile_in t ws) by auto.
    rewrite faces_filter_lost by auto. cbn [add_up]. unfold even_share at 2. destruct (tile_in u ks && negb (tile_in u ws)), (tile_in t ws); cbn [andb].
    - change (inject_Z 1) with 1%Q. lra.
    - change (inject_Z 0) with 0%Q. lra.
    - change (inject_Z 1) with 1%Q. lra.
    - change (inject_Z 0) with 0%Q. lra.
  Qed.
End Notes.

(** ** What is printed. *)
Lemma times_sum : forall hand t draws, good_hand hand -> allpos hand -> In t (map fst hand) -> Forall (legal_draw hand) draws ->
  times (fun d => winning (afterwards hand t d)) draws (sumZ (fun ws => if tile_in t ws then 1 else 0) (map (won_by hand) draws)).
Proof.
  intros hand t draws G A I. induction draws as [|d draws IH]; intros F; [constructor|]. inversion F as [|? ? [L _] F2]; subst.
  specialize (IH F2). cbn [map sumZ]. pose proof (winners_in hand d _ t (won_winners hand d G A L) (proj1 G) I) as W.
  destruct (tile_in t (won_by hand d)) eqn:E.
  - apply times_yes; auto. now apply W.
  - change (0 + ?x) with x. apply times_no; auto. intros H. apply W in H. discriminate.
Qed.
Lemma columns_inv : forall m s ks rest i, total_win_count s <> 0 ->
  exists cs, columns_from m s ks i rest = Ok cs /\ length cs = length rest /\
    forall j c, nth_error cs j = Some c -> exists t, nth_error rest j = Some t /\ column m s ks (i + j) t = Ok c.
Proof.
  intros m s ks rest. induction rest as [|t rest IH]; intros i T; cbn [columns_from].
  - exists []. split; auto. split; auto. intros [|j] c; discriminate.
  - destruct (column m s ks i t) as [c|e] eqn:E.
    + destruct (IH (S i) T) as (cs & H & L & N). exists (c :: cs). cbn [bindr]. rewrite H. cbn [bindr]. split; auto. split; [cbn; auto|].
      intros [|j] c' J; cbn [nth_error] in *.
      * injection J as <-. exists t. split; auto. now rewrite Nat.add_0_r.
      * destruct (N j c' J) as (u & U & V). exists u. split; auto. now rewrite Nat.add_succ_r.
    + unfold column, self_rate in E. apply Z.eqb_neq in T. rewrite T in E. discriminate.
Qed.
Lemma rough_length : forall m n, length (rough_pick m n) = n.
Proof. intros. unfold rough_pick. now rewrite map_length, seq_length. Qed.
Lemma combine_fst : forall A B (a : list A) (b : list B), length a = length b -> map fst (combine a b) = a.
Proof. induction a as [|x a IH]; intros [|y b] L; cbn in *; try discriminate; auto. f_equal. apply IH. lia. Qed.
Lemma combine_snd : forall A B (a : list A) (b : list B), length a = length b -> map snd (combine a b) = b.
Proof. induction a as [|x a IH]; intros [|y b] L; cbn in *; try discriminate; auto. f_equal. apply IH. lia. Qed.
(** Either nothing ever won and the program ends with an error, or everything is printed. *)
Lemma outcomes_cases : forall n s ks, ks <> [] -> (n = 0 -> total_win_count s = 0) ->
  (total_win_count s = 0 /\ outcomes n s ks = Err ZeroDivisionError) \/
  (total_win_count s <> 0 /\ exists m outs, condition_matrix n s ks = Ok m /\ outcomes n s ks = Ok outs /\ length m = length ks /\
     (forall j c, nth_error m j = Some c -> exists t, nth_error ks j = Some t /\ column (1 / inject_Z n)%Q s ks j t = Ok c) /\
     map out_tile outs = ks /\ map out_rough outs = rough_pick m (length ks) /\
     Forall (fun o => out_wins o = get (win_counter s) (out_tile o) /\ out_tries o = n) outs).
Proof.
  intros n s ks K N. destruct (Z.eq_dec (total_win_count s) 0) as [Z0|Z0].
  - left. split; auto. unfold outcomes, condition_matrix. destruct (n =? 0) eqn:E; [reflexivity|].
    destruct ks as [|k ks]; [contradiction|]. cbn [columns_from]. unfold column at 1, self_rate. rewrite Z0. reflexivity.
  - right. split; auto. destruct (columns_inv (1 / inject_Z n)%Q s ks ks 0 Z0) as (m & E & L & C).
    assert (n <> 0) as Nn by (intros ->; auto). apply Z.eqb_neq in Nn.
    assert (M : condition_matrix n s ks = Ok m) by (unfold condition_matrix; now rewrite Nn).
    eexists m, _. split; [exact M|]. unfold outcomes. rewrite M. cbn [bindr]. split; [reflexivity|]. split; auto. split; [exact C|].
    rewrite !map_map. cbn [out_tile out_rough].
    split; [now apply combine_fst; rewrite rough_length|]. split; [now apply combine_snd; rewrite rough_length|].
    apply Forall_map. apply Forall_forall. intros [t r] _. cbn. auto.
Qed.

Definition tries_ok (hand : tset) (n : nat) (source : list (list Z)) : Prop :=
  Forall (fun xs => length xs = n /\ random_ok (left_over_size hand) xs) source.
(** The tiles a run of the random source makes the program draw, for every experiment. *)
Definition drawn_by (hand : tset) (source : list (list Z)) (draws : list (list tile)) : Prop :=
  Forall2 (fun xs d => sample (remain_tiles hand) xs = Ok d) source draws.
Lemma run : forall lines hand n source, read_hand lines = Some hand -> tries_ok hand n source ->
  exists draws, drawn_by hand source draws /\ length draws = length source /\ Forall (fun d => length d = n /\ legal_draw hand d) draws /\
    experiments (remain_tiles hand) (possible_discard hand) source no_tally =
      Ok (note_all (map fst hand) (map (won_by hand) draws) no_tally).
Proof.
  intros lines hand n source R T. destruct (typed_hand lines hand R) as (_ & _ & G & A).
  destruct (experiments_note hand source no_tally G) as (draws & D & E).
  { eapply Forall_impl; [|exact T]. intros xs [_ H]. exact H. }
  exists draws. split; [|split; [|split; [|exact E]]].
  - clear - D. induction D as [|xs d source draws (H & _) D IH]; constructor; auto.
  - clear - D. induction D; cbn; auto.
  - clear - D T. induction D as [|xs d source draws (H & L & J) D IH]; constructor; inversion T as [|? ? [T1 T2] T3]; subst; auto.
Qed.
Lemma drawn_same : forall hand source a b, drawn_by hand source a -> drawn_by hand source b -> a = b.
Proof.
  intros hand source a b A. revert b. induction A as [|xs d source a H A IH]; intros b B; inversion B; subst; auto. f_equal; auto. congruence.
Qed.
Lemma hand_nonempty : forall hand : tset, total hand = 14 -> map fst hand <> [].
Proof. intros [|e h] H; [discriminate H|discriminate]. Qed.
Lemma wss_nodup : forall hand draws, good_hand hand -> Forall (fun ws => NoDup (faces ws)) (map (won_by hand) draws).
Proof. intros hand draws G. apply Forall_map, Forall_forall. intros d _. apply NoDup_map_filter, keys_faces, G. Qed.

(** C90. For every hand of 14 tiles and every behaviour of the random source: each experiment draws the requested number of
    tiles from what the hand leaves of the 136 tiles; for every different tile of the hand, the printed win count is the
    number of experiments in which the hand, without that tile and with the drawn ones, contains a winning shape. *)
Theorem C90_win_counts : forall lines hand n source, read_hand lines = Some hand -> tries_ok hand n source ->
  exists draws, drawn_by hand source draws /\ length draws = length source /\
    Forall (fun d => length d = n /\ legal_draw hand d) draws /\
    match main hand source with
    | Ok outs => map out_tile outs = map fst hand /\
        Forall (fun o => times (fun d => winning (afterwards hand (out_tile o) d)) draws (out_wins o) /\
                         out_tries o = Z.of_nat (length source) /\ 0 <= out_wins o <= out_tries o) outs
    | Err e => e = ZeroDivisionError
    end.
Proof.
  intros lines hand n source R T. destruct (typed_hand lines hand R) as (_ & S14 & G & A).
  destruct (run lines hand n source R T) as (draws & D & L & F & E). exists draws. split; auto. split; auto. split; auto.
  unfold main. cbv zeta. rewrite E, discard_keys. cbn [bindr].
  set (s := note_all _ _ _). 
  destruct (outcomes_cases (Z.of_nat (length source)) s (map fst hand) (hand_nonempty hand S14)) as [(Z0 & O)|(Z0 & m & outs & _ & O & _ & _ & Tl & _ & W)].
  - intros Z0. unfold s. destruct source; [|cbn [length] in Z0; lia]. destruct draws; [|discriminate L]. reflexivity.
  - now rewrite O.
  - rewrite O. split; auto. rewrite Forall_forall in W |- *. intros o I. destruct (W o I) as [Wo To].
    assert (In (out_tile o) (map fst hand)) as Ik by (rewrite <- Tl; now apply in_map).
    unfold s in Wo. rewrite note_all_wins in Wo by now apply wss_nodup. cbn [win_counter no_tally] in Wo. change (get [] (out_tile o)) with 0 in Wo.
    assert (Tm : times (fun d => winning (afterwards hand (out_tile o) d)) draws (out_wins o)).
    { rewrite Wo. apply times_sum; auto. eapply Forall_impl; [|exact F]. intros d [_ H]. exact H. }
    split; auto. split; auto. rewrite To, <- L. clear - Tm. induction Tm; cbn [length]; lia.
Qed.
(** ... and no draw of that many tiles is impossible. *)
Theorem C90_every_draw : forall lines hand n draws, read_hand lines = Some hand ->
  Forall (fun d => length d = n /\ legal_draw hand d /\ Forall (fun t => In t ALL_TILES) d) draws ->
  exists source, tries_ok hand n source /\ drawn_by hand source draws.
Proof.
  intros lines hand n draws R. destruct (typed_hand lines hand R) as (_ & _ & G & _). induction draws as [|d draws IH]; intros F.
  - exists []. split; constructor.
  - inversion F as [|? ? (L & (_ & C) & I) F2]; subst. destruct (IH F2) as (source & T & D).
    destruct (C49_everything_possible (remain_tiles hand) d) as (xs & X & S).
    + now apply remain_ok.
    + intros t It. rewrite Forall_forall in I. auto.
    + intros t. rewrite how_many_count. destruct (legal_dec (view t)) as [Lt|Lt].
      * unfold get. rewrite remain_getk by auto. apply C.
      * unfold get. rewrite remain_illegal by auto. specialize (C (view t)).
        assert (E : count_kind (view t) (faces d) = 0); [|lia]. clear - I Lt. induction d as [|u d IH]; [reflexivity|].
        inversion I as [|? ? I1 I2]; subst. unfold count_kind, faces in *. cbn [map sumZ]. rewrite IH by auto.
        destruct (same_kind (view u) (view t)) eqn:E; [|lia]. rewrite same_kind_eqb in E. apply kind_eqb_eq in E.
        exfalso. apply Lt. rewrite <- E. now apply legal_tile_kind, all_legal.
    + rewrite remain_size in X by auto. exists (xs :: source). split; constructor; auto. split; auto.
      pose proof (draws_legal hand xs G X) as (d' & S' & L' & _). rewrite S in S'. injection S' as <-. auto.
Qed.

(** C92. The program ends with a ZeroDivisionError exactly if no discard won in any experiment. *)
Lemma sum_zero : forall (A : Type) (f : A -> Z) l, (forall x, In x l -> 0 <= f x) -> (sumZ f l = 0 <-> Forall (fun x => f x = 0) l).
Proof.
  intros A f l. induction l as [|a l IH]; intros P; cbn [sumZ]; [split; auto|].
  pose proof (P a (or_introl eq_refl)). assert (0 <= sumZ f l) by (apply sumZ_nonneg; intros; apply P; now right).
  specialize (IH (fun x X => P x (or_intror X))). split.
  - intros E. constructor; [lia|]. apply IH. lia.
  - intros F. inversion F; subst. apply IH in H4. lia.
Qed.
Theorem C92_no_win : forall lines hand n source draws, read_hand lines = Some hand -> tries_ok hand n source -> drawn_by hand source draws ->
  (main hand source = Err ZeroDivisionError <->
   forall d t, In d draws -> In t (map fst hand) -> ~ winning (afterwards hand t d)).
Proof.
  intros lines hand n source draws R T D. destruct (typed_hand lines hand R) as (_ & S14 & G & A).
  destruct (run lines hand n source R T) as (draws' & D' & L & F & E). assert (draws' = draws) as -> by (eapply drawn_same; eauto).
  unfold main. cbv zeta. rewrite E, discard_keys. cbn [bindr].
  set (s := note_all _ _ _).
  assert (Tz : total_win_count s = 0 <-> forall d t, In d draws -> In t (map fst hand) -> ~ winning (afterwards hand t d)).
  { unfold s. rewrite note_all_total. cbn [total_win_count no_tally]. change (0 + ?x) with x. rewrite sumZ_map.
    rewrite sum_zero by (intros; lia). rewrite Forall_forall. split.
    - intros H d t Id It W. specialize (H d Id). destruct (won_by hand d) as [|w ws] eqn:Ew; [|cbn [length] in H; lia].
      rewrite Forall_forall in F. destruct (F d Id) as [_ [Ld _]]. destruct (won_winners hand d G A Ld) as [_ Iw].
      rewrite Ew in Iw. apply (proj2 (Iw t)). auto.
    - intros H d Id. destruct (won_by hand d) as [|w ws] eqn:Ew; [reflexivity|]. exfalso.
      rewrite Forall_forall in F. destruct (F d Id) as [_ [Ld _]]. destruct (won_winners hand d G A Ld) as [_ Iw].
      rewrite Ew in Iw. destruct (proj1 (Iw w) (or_introl eq_refl)) as [I1 I2]. exact (H d w Id I1 I2). }
  rewrite <- Tz.
  destruct (outcomes_cases (Z.of_nat (length source)) s (map fst hand) (hand_nonempty hand S14)) as [(Z0 & O)|(Z0 & m & outs & _ & O & _)].
  - intros Z0. unfold s. destruct source; [|cbn [length] in Z0; lia]. destruct draws; [|discriminate L]. reflexivity.
  - now rewrite O.
  - rewrite O. split; [discriminate|]. intros. contradiction.
Qed.
(** In particular without any draw: thirteen tiles are no winning hand. *)
Theorem C92_no_draw : forall lines hand source, read_hand lines = Some hand -> tries_ok hand 0 source ->
  main hand source = Err ZeroDivisionError.
Proof.
  intros lines hand source R T. destruct (typed_hand lines hand R) as (_ & S14 & G & A).
  destruct (run lines hand 0 source R T) as (draws & D & L & F & E). apply (C92_no_win lines hand 0 source draws R T D).
  intros d t Id It W. rewrite Forall_forall in F. destruct (F d Id) as [Ld _]. destruct d as [|]; [|discriminate Ld].
  apply hand_wins_iff in W; auto. 
  assert (Tt : total (ts_add (ts_sub hand (of_tiles [t])) (of_tiles [])) = 13).
  { destruct (after_good hand G t [] It (Forall_nil _)) as (W1 & L1 & _). rewrite total_sumK by auto.
    destruct G as (Wh & Lh & Nh). rewrite total_sumK in S14 by auto.
    unfold sumK. rewrite (sumZ_ext _ _ (fun k => getk hand k + (0 - count_kind k [view t]))).
    2:{ intros k _. rewrite after_getk; auto; [|split; auto]. unfold afterwards. rewrite face_count_getk by auto. cbn. lia. }
    unfold sumK in S14. rewrite sumZ_plus, S14.
    pose proof (key_legal hand (conj Wh (conj Lh Nh)) t It) as Lt. 
    assert (O : sumZ (fun k => 0 - count_kind k [view t]) KINDS = -1); [|lia].
    apply KINDS_legal in Lt. revert Lt. generalize (view t). intros k Ik.
    assert (Al : forallb (fun k => sumZ (fun j => 0 - count_kind j [k]) KINDS =? -1) KINDS = true) by (vm_compute; reflexivity).
    rewrite forallb_forall in Al. specialize (Al k Ik). now apply Z.eqb_eq in Al. }
  unfold hand_wins, win_patterns in W. cbv zeta in W. cbn [existsb] in W. revert W.
  set (h := ts_add _ _) in *. intros W.
  assert (No : forall p, need_count p = 14 -> match_ p h = false).
  { intros p Np. destruct (match_ p h) eqn:M; auto. apply match_iff in M as (us & U & V); [|now apply after_good].
    destruct (after_good hand G t [] It (Forall_nil _)) as (W1 & L1 & _).
    pose proof (total_ge_need p us h U W1 L1 V). lia. }
  rewrite !No in W by reflexivity. discriminate.
Qed.

(** ** Sums of fractions. *)
Lemma add_up_ext : forall A (f g : A -> Q) l, (forall a, In a l -> f a == g a)%Q -> (add_up f l == add_up g l)%Q.
Proof. induction l as [|a l IH]; intros H; cbn [add_up]; [reflexivity|]. rewrite (H a (or_introl eq_refl)), IH; [reflexivity|]. intros; apply H; now right. Qed.
Lemma add_up_plus : forall A (f g : A -> Q) l, (add_up (fun a => f a + g a) l == add_up f l + add_up g l)%Q.
Proof. induction l as [|a l IH]; cbn [add_up]; [lra|]. rewrite IH. lra. Qed.
Lemma add_up_scale : forall A (f : A -> Q) x l, (add_up (fun a => f a * x) l == add_up f l * x)%Q.
Proof. induction l as [|a l IH]; cbn [add_up]; [lra|]. rewrite IH. ring. Qed.
Lemma add_up_zero : forall A (l : list A), (add_up (fun _ => 0) l == 0)%Q.
Proof. induction l as [|a l IH]; cbn [add_up]; [lra|]. rewrite IH. lra. Qed.
Lemma add_up_swap : forall A B (f : A -> B -> Q) l m, (add_up (fun a => add_up (f a) m) l == add_up (fun b => add_up (fun a => f a b) l) m)%Q.
Proof.
  intros A B f l m. induction m as [|b m IH]; cbn [add_up].
  - apply add_up_zero.
  - rewrite add_up_plus, IH. reflexivity.
Qed.
Lemma add_up_le : forall A (f g : A -> Q) l, (forall a, In a l -> f a <= g a)%Q -> (add_up f l <= add_up g l)%Q.
Proof.
  induction l as [|a l IH]; intros H; cbn [add_up]; [lra|]. pose proof (H a (or_introl eq_refl)).
  assert (add_up f l <= add_up g l)%Q by (apply IH; intros; apply H; now right). lra.
Qed.
Lemma add_up_lt : forall A (f g : A -> Q) l a, In a l -> (f a < g a)%Q -> (forall a, In a l -> f a <= g a)%Q -> (add_up f l < add_up g l)%Q.
Proof.
  induction l as [|b l IH]; intros a I S H; [destruct I|]. cbn [add_up]. destruct I as [->|I].
  - assert (add_up f l <= add_up g l)%Q by (apply add_up_le; intros; apply H; now right). lra.
  - pose proof (H b (or_introl eq_refl)). assert (add_up f l < add_up g l)%Q by (apply (IH a); auto; intros; apply H; now right). lra.
Qed.
Lemma add_up_nonneg : forall A (f : A -> Q) l, (forall a, In a l -> 0 <= f a)%Q -> (0 <= add_up f l)%Q.
Proof. intros A f l H. rewrite <- (add_up_zero A l). now apply add_up_le. Qed.
Lemma add_up_member : forall A (f : A -> Q) l a, (forall a, In a l -> 0 <= f a)%Q -> In a l -> (f a <= add_up f l)%Q.
Proof.
  induction l as [|b l IH]; intros a H I; [destruct I|]. cbn [add_up]. destruct I as [->|I].
  - assert (0 <= add_up f l)%Q by (apply add_up_nonneg; intros; apply H; now right). lra.
  - pose proof (H b (or_introl eq_refl)). assert (f a <= add_up f l)%Q by (apply IH; auto; intros; apply H; now right). lra.
Qed.
Lemma add_up_const : forall A (l : list A) x, (add_up (fun _ => x) l == inject_Z (Z.of_nat (length l)) * x)%Q.
Proof.
  induction l as [|a l IH]; intros x; cbn [add_up length]; [change (inject_Z (Z.of_nat 0)) with 0%Q; lra|].
  rewrite IH, Nat2Z.inj_succ, <- Z.add_1_l, inject_plus. change (inject_Z 1) with 1%Q. ring.
Qed.
Lemma add_up_map : forall A B (f : B -> Q) (g : A -> B) l, add_up f (map g l) = add_up (fun a => f (g a)) l.
Proof. induction l as [|a l IH]; cbn [add_up map]; [reflexivity|]. now rewrite IH. Qed.
Lemma sumQ_add_up : forall A (f : A -> Q) l, sumQ (map f l) = add_up f l.
Proof. induction l as [|a l IH]; cbn; auto. unfold sumQ in IH. now rewrite IH. Qed.
Lemma sumQ_id : forall l, sumQ l = add_up (fun x => x) l.
Proof. intros l. rewrite <- sumQ_add_up, map_id. reflexivity. Qed.
Lemma add_up_inject : forall A (f : A -> Z) l, (add_up (fun a => inject_Z (f a)) l == inject_Z (sumZ f l))%Q.
Proof. induction l as [|a l IH]; cbn [add_up sumZ]; [reflexivity|]. rewrite IH, inject_plus. reflexivity. Qed.

(** ** Each experiment's win is shared out completely. *)
Lemma in_won : forall hand d t, wf hand -> In t (map fst hand) ->
  tile_in t (won_by hand d) = hand_wins (ts_sub hand (of_tiles [t])) (of_tiles d).
Proof.
  intros hand d t W I. pose proof (keys_faces hand W) as N. unfold won_by.
  set (f := fun t => hand_wins (ts_sub hand (of_tiles [t])) (of_tiles d)). change (tile_in t (filter f (map fst hand)) = f t).
  clearbody f. induction (map fst hand) as [|k ks IH]; [destruct I|]. unfold faces in N. cbn [map] in N. inversion N as [|? ? N1 N2]; subst.
  cbn [filter]. destruct I as [->|I].
  - destruct (f t) eqn:E; [unfold tile_in; cbn [existsb]; rewrite same_kind_eqb, kind_eqb_refl; reflexivity|].
    destruct (tile_in t (filter f ks)) eqn:F; auto. apply tile_in_iff in F. unfold faces in F. apply in_map_iff in F as (u & U & V).
    apply filter_In in V as [V _]. exfalso. apply N1. rewrite <- U. now apply in_map.
  - rewrite <- (IH I N2). destruct (f k); [|reflexivity]. unfold tile_in. cbn [existsb]. rewrite same_kind_eqb.
    destruct (kind_eqb (view k) (view t)) eqn:E; [|reflexivity]. apply kind_eqb_eq in E. exfalso. apply N1. rewrite E. now apply in_map.
Qed.
Lemma sum_won : forall hand d, wf hand -> sumZ (fun t => if tile_in t (won_by hand d) then 1 else 0) (map fst hand) = Z.of_nat (length (won_by hand d)).
Proof.
  intros hand d W. rewrite (sumZ_ext _ _ (fun t => if hand_wins (ts_sub hand (of_tiles [t])) (of_tiles d) then 1 else 0)).
  - unfold won_by. induction (map fst hand) as [|k ks IH]; [reflexivity|]. cbn [sumZ filter]. rewrite IH. destruct (hand_wins _ _); cbn [length]; lia.
  - intros t I. now rewrite in_won.
Qed.
Lemma sumZ_swap : forall A B (f : A -> B -> Z) l m, sumZ (fun a => sumZ (f a) m) l = sumZ (fun b => sumZ (fun a => f a b) l) m.
Proof.
  intros A B f l m. induction m as [|b m IH]; cbn [sumZ].
  - induction l; cbn [sumZ]; auto.
  - rewrite sumZ_plus, IH. reflexivity.
Qed.
Lemma share_whole : forall ws : list tile, (inject_Z (Z.of_nat (length ws)) * even_share ws == inject_Z (match ws with [] => 0 | _ => 1 end))%Q.
Proof.
  intros [|w ws].
  - change (inject_Z (Z.of_nat (length []))) with 0%Q. change (inject_Z 0) with 0%Q. lra.
  - unfold even_share. set (q := inject_Z (Z.of_nat (length (w :: ws)))). change (inject_Z 1) with 1%Q. assert (0 < q)%Q.
    { unfold q. change 0%Q with (inject_Z 0). rewrite <- Zlt_Qlt. cbn [length]. lia. } field. lra.
Qed.
Definition some_won (ws : list tile) : Z := match ws with [] => 0 | _ => 1 end.
Lemma avg_sum : forall hand draws, wf hand ->
  (add_up (fun t => add_up (fun ws => if tile_in t ws then even_share ws else 0) (map (won_by hand) draws)) (map fst hand)
   == inject_Z (sumZ some_won (map (won_by hand) draws)))%Q.
Proof.
  intros hand draws W. rewrite add_up_swap, <- add_up_inject, !add_up_map. apply add_up_ext. intros d _.
  transitivity (add_up (fun t => inject_Z (if tile_in t (won_by hand d) then 1 else 0) * even_share (won_by hand d)) (map fst hand))%Q.
  - apply add_up_ext. intros t _. destruct (tile_in t (won_by hand d)); [change (inject_Z 1) with 1%Q|change (inject_Z 0) with 0%Q]; lra.
  - rewrite add_up_scale, add_up_inject, sum_won by auto. apply share_whole.
Qed.

(** C91. What the matrix is computed from: with [wss] the winners of each experiment, a tile's count is that of the experiments it
    won (C90) and the total is the sum of the counts; every experiment won by someone is shared out evenly, so that the
    shares of all tiles make up the number of the experiments that could be won; a tile that did not win has its loss
    attributed to the winners in the same shares. *)
Theorem C91_shares : forall lines hand n source draws, read_hand lines = Some hand -> tries_ok hand n source -> drawn_by hand source draws ->
  exists wss s w, Forall2 (winners hand) draws wss /\
    experiments (remain_tiles hand) (possible_discard hand) source no_tally = Ok s /\
    total_win_count s = sumZ (fun t => get (win_counter s) t) (map fst hand) /\
    (forall t, (fraction (avg_win_counter s) t == add_up (fun ws => if tile_in t ws then even_share ws else 0) wss)%Q) /\
    (forall u t, In u (map fst hand) -> (fraction (entry (condition_win_counter s) u) t ==
       add_up (fun ws => if negb (tile_in u ws) && tile_in t ws then even_share ws else 0) wss)%Q) /\
    times (fun d => exists t, In t (map fst hand) /\ winning (afterwards hand t d)) draws w /\
    (add_up (fraction (avg_win_counter s)) (map fst hand) == inject_Z w)%Q.
Proof.
  intros lines hand n source draws R T D. destruct (typed_hand lines hand R) as (_ & S14 & G & A).
  destruct (run lines hand n source R T) as (draws' & D' & L & F & E). assert (draws' = draws) as -> by (eapply drawn_same; eauto).
  exists (map (won_by hand) draws). eexists. exists (sumZ some_won (map (won_by hand) draws)).
  pose proof (wss_nodup hand draws G) as Nw. pose proof (keys_faces hand (proj1 G)) as Nk.
  assert (Av : forall t, (fraction (avg_win_counter (note_all (map fst hand) (map (won_by hand) draws) no_tally)) t ==
     add_up (fun ws => if tile_in t ws then even_share ws else 0) (map (won_by hand) draws))%Q).
  { intros t. rewrite note_all_avg by auto. cbn [no_tally avg_win_counter fraction]. lra. }
  split; [|split; [exact E|split; [|split; [exact Av|split; [|split]]]]].
  - clear - F G A. induction F as [|d draws [_ [Ld _]] F IH]; cbn [map]; constructor; auto. now apply won_winners.
  - rewrite note_all_total. cbn [total_win_count no_tally]. change (0 + ?x) with x.
    rewrite (sumZ_ext _ _ (fun t => sumZ (fun ws => if tile_in t ws then 1 else 0) (map (won_by hand) draws))).
    + rewrite sumZ_swap. rewrite !sumZ_map. apply sumZ_ext. intros d _. symmetry. apply sum_won, G.
    + intros t _. rewrite note_all_wins by auto. reflexivity.
  - intros u t Iu. rewrite note_all_cond by auto. cbn [no_tally condition_win_counter entry fraction].
    assert (tile_in u (map fst hand) = true) as -> by (apply tile_in_iff; unfold faces; now apply in_map). cbn [andb]. lra.
  - clear - F G A. induction F as [|d draws [_ [Ld _]] F IH]; cbn [map sumZ]; [constructor|].
    destruct (won_winners hand d G A Ld) as [_ Iw]. destruct (won_by hand d) as [|w ws]; cbn [some_won].
    + apply times_no; auto. intros (t & It & W). apply (proj2 (Iw t)). auto.
    + apply times_yes; auto. exists w. apply Iw. now left.
  - rewrite <- avg_sum by apply G. apply add_up_ext. intros t _. apply Av.
Qed.

(** ** The pick rates. *)
Lemma replace_length : forall l i x, length (replace_at i x l) = length l.
Proof. induction l as [|y l IH]; intros [|i] x; cbn; auto. Qed.
Lemma replace_sum : forall l i x, (i < length l)%nat -> (sumQ (replace_at i x l) == sumQ l - nth i l 0 + x)%Q.
Proof.
  induction l as [|y l IH]; intros i x H; cbn [length] in H; [lia|]. destruct i as [|i]; cbn [replace_at nth].
  - unfold sumQ. cbn [fold_right]. fold (sumQ l). lra.
  - unfold sumQ. cbn [fold_right]. fold (sumQ (replace_at i x l)) (sumQ l). rewrite IH by lia. lra.
Qed.
Lemma replace_in : forall l i x y, In y (replace_at i x l) -> y = x \/ In y l.
Proof. induction l as [|z l IH]; intros [|i] x y I; cbn in I |- *; auto; destruct I as [<-|I]; auto. destruct (IH i x y I); auto. Qed.
Lemma nth_sum : forall c : list Q, (add_up (fun i => nth i c 0) (seq 0 (length c)) == sumQ c)%Q.
Proof.
  induction c as [|x c IH]; [reflexivity|]. cbn [length seq add_up nth]. rewrite <- seq_shift, add_up_map.
  unfold sumQ. cbn [fold_right nth]. fold (sumQ c). rewrite <- IH. reflexivity.
Qed.
Lemma rough_sum : forall m n, Forall (fun c => length c = n) m ->
  (add_up (fun x => x) (rough_pick m n) == add_up sumQ m * (1 / inject_Z (Z.of_nat n)))%Q.
Proof.
  intros m n F. unfold rough_pick. rewrite add_up_map, <- add_up_scale.
  transitivity (add_up (fun i => add_up (fun c => nth i c 0 * (1 / inject_Z (Z.of_nat n))) m) (seq 0 n))%Q.
  { apply add_up_ext. intros i _. now rewrite sumQ_add_up. }
  rewrite add_up_swap. apply add_up_ext. intros c I. rewrite Forall_forall in F. specialize (F c I). subst n.
  rewrite add_up_scale, nth_sum. reflexivity.
Qed.
Lemma inject_pos : forall z, 0 < z -> (0 < inject_Z z)%Q.
Proof. intros z H. change 0%Q with (inject_Z 0). now rewrite <- Zlt_Qlt. Qed.
Lemma inject_le : forall a b, a <= b -> (inject_Z a <= inject_Z b)%Q.
Proof. intros a b H. now rewrite <- Zle_Qle. Qed.
Lemma div_pos : forall a b, (0 < a -> 0 < b -> 0 < a / b)%Q.
Proof. intros a b A B. apply Qlt_shift_div_l; [exact B|]. now rewrite Qmult_0_l. Qed.
Lemma div_nonneg : forall a b, (0 <= a -> 0 < b -> 0 <= a / b)%Q.
Proof. intros a b A B. apply Qle_shift_div_l; [exact B|]. now rewrite Qmult_0_l. Qed.
Lemma share_nonneg : forall ws, (0 <= even_share ws)%Q.
Proof.
  intros [|w ws]; [vm_compute; discriminate|]. apply Qlt_le_weak. unfold even_share. apply div_pos; [lra|].
  apply inject_pos. cbn [length]. lia.
Qed.

Section Matrix.
  Variables (ks : list tile) (s : tally) (mr : Q).
  Hypothesis Mp : (0 < mr)%Q.
  Hypothesis Tp : 0 < total_win_count s.
  Hypothesis An : forall t, (0 <= fraction (avg_win_counter s) t)%Q.
  Hypothesis Asum : (add_up (fraction (avg_win_counter s)) ks <= inject_Z (total_win_count s))%Q.
  Hypothesis Own : forall t, In t ks -> (fraction (entry (condition_win_counter s) t) t == 0)%Q.
  Definition self_of (t : tile) : Q := (fraction (avg_win_counter s) t / inject_Z (total_win_count s))%Q.
  Lemma self_nonneg : forall t, (0 <= self_of t)%Q.
  Proof. intros t. unfold self_of. apply div_nonneg; [apply An|now apply inject_pos]. Qed.
  Lemma self_sum : (add_up self_of ks <= 1)%Q.
  Proof.
    unfold self_of, Qdiv. rewrite add_up_scale. apply Qle_shift_div_r; [now apply inject_pos|]. rewrite Qmult_1_l. exact Asum.
  Qed.
  Lemma self_le : forall t, In t ks -> (self_of t <= 1)%Q.
  Proof.
    intros t I. pose proof self_sum. pose proof (add_up_member _ self_of ks t (fun a _ => self_nonneg a) I). lra.
  Qed.
  Lemma raw_pos : forall a b, (0 < raw_entry mr s a b)%Q.
  Proof.
    intros a b. unfold raw_entry. cbv zeta. destruct (Qle_bool (fraction (entry (condition_win_counter s) a) b) 0) eqn:E; cbn [negb andb]; auto.
    assert (~ (fraction (entry (condition_win_counter s) a) b <= 0)%Q). { intros H. apply Qle_bool_iff in H. congruence. }
    destruct (0 <? get (win_counter s) b); auto. lra.
  Qed.
  Lemma raw_own : forall t, In t ks -> raw_entry mr s t t = mr.
  Proof.
    intros t I. unfold raw_entry. cbv zeta. assert (Qle_bool (fraction (entry (condition_win_counter s) t) t) 0 = true) as ->; [|reflexivity].
    apply Qle_bool_iff. rewrite Own by auto. lra.
  Qed.
  Lemma column_facts : forall i t c, nth_error ks i = Some t -> column mr s ks i t = Ok c ->
    length c = length ks /\ (forall x, In x c -> 0 <= x)%Q /\
    exists S, (mr <= S)%Q /\ (length ks = 1%nat -> S == mr)%Q /\ (sumQ c == 1 - mr * (1 - self_of t) / S)%Q.
  Proof.
    intros i t c N C. pose proof (nth_error_In _ _ N) as It. pose proof (self_le t It) as Sl. pose proof (self_nonneg t) as Sn.
    unfold column, self_rate in C. destruct (total_win_count s =? 0) eqn:E; [apply Z.eqb_eq in E; lia|]. cbn [bindr] in C. cbv zeta in C.
    fold (self_of t) in C. injection C as <-. set (raw := map (raw_entry mr s t) ks). set (S := sumQ raw).
    assert (Lr : length raw = length ks) by (unfold raw; apply map_length).
    assert (Li : (i < length raw)%nat) by (rewrite Lr; apply nth_error_Some; congruence).
    assert (Sm : (mr <= S)%Q).
    { unfold S, raw. rewrite sumQ_add_up. rewrite <- (raw_own t It) at 1. apply (add_up_member _ (raw_entry mr s t)); auto.
      intros a _. apply Qlt_le_weak, raw_pos. }
    assert (Fn : (0 <= (1 - self_of t) / S)%Q) by (apply div_nonneg; lra).
    split; [now rewrite replace_length, map_length|]. split.
    - intros x I. apply replace_in in I as [->|I]; auto. apply in_map_iff in I as (r & <- & Ir). unfold raw in Ir.
      apply in_map_iff in Ir as (u & <- & _). apply Qmult_le_0_compat; auto. apply Qlt_le_weak, raw_pos.
    - exists S. split; auto. split.
      + intros L1. assert (Ks1 : ks = [t]). { clear - L1 It. destruct ks as [|k [|? ?]]; try discriminate L1. destruct It as [<-|[]]. reflexivity. }
        unfold S, raw. rewrite Ks1. cbn [map]. unfold sumQ. cbn [fold_right]. rewrite raw_own by auto. lra.
      + rewrite replace_sum by (now rewrite map_length). rewrite sumQ_add_up, add_up_scale, <- sumQ_id.
        replace (nth i (map (fun x => x * ((1 - self_of t) / S))%Q raw) 0%Q) with (mr * ((1 - self_of t) / S))%Q.
        * fold S. field. lra.
        * symmetry. apply nth_error_nth, map_nth_error with (f := fun x => (x * ((1 - self_of t) / S))%Q).
          pose proof (map_nth_error (raw_entry mr s t) i ks N) as Nr. rewrite (raw_own t It) in Nr. exact Nr.
  Qed.
  Variable m : list (list Q).
  Hypothesis Ml : length m = length ks.
  Hypothesis Mc : forall j c, nth_error m j = Some c -> exists t, nth_error ks j = Some t /\ column mr s ks j t = Ok c.
  Hypothesis Ks : ks <> [].
  Lemma in_matrix : forall c, In c m -> exists j t, nth_error m j = Some c /\ nth_error ks j = Some t /\ column mr s ks j t = Ok c.
  Proof. intros c I. apply In_nth_error in I as (j & J). destruct (Mc j c J) as (t & A & B). eauto. Qed.
  Lemma matrix_lengths : Forall (fun c => length c = length ks) m.
  Proof. apply Forall_forall. intros c I. destruct (in_matrix c I) as (j & t & _ & N & C). now apply (column_facts j t c). Qed.
  Lemma column_le : forall c, In c m -> (sumQ c <= 1)%Q.
  Proof.
    intros c I. destruct (in_matrix c I) as (j & t & _ & N & C). destruct (column_facts j t c N C) as (_ & _ & S & A & _ & B). rewrite B.
    pose proof (self_le t (nth_error_In _ _ N)). assert (0 <= mr * (1 - self_of t) / S)%Q; [|lra]. apply div_nonneg; [|lra].
    apply Qmult_le_0_compat; lra.
  Qed.
  Lemma size_pos : (0 < inject_Z (Z.of_nat (length ks)))%Q.
  Proof. apply inject_pos. destruct ks; [contradiction|]. cbn [length]. lia. Qed.
  Lemma rough_nonneg : forall x, In x (rough_pick m (length ks)) -> (0 <= x)%Q.
  Proof.
    intros x I. unfold rough_pick in I. apply in_map_iff in I as (i & <- & _). rewrite sumQ_add_up. apply add_up_nonneg. intros c Ic.
    destruct (in_matrix c Ic) as (j & t & _ & N & C). destruct (column_facts j t c N C) as (_ & P & _).
    apply Qmult_le_0_compat.
    - destruct (nth_in_or_default i c 0%Q) as [H|H]; [now apply P|]. rewrite H. lra.
    - apply Qlt_le_weak, div_pos; [lra|apply size_pos].
  Qed.
  Lemma total_le : (add_up (fun x => x) (rough_pick m (length ks)) <= 1)%Q.
  Proof.
    rewrite rough_sum by apply matrix_lengths. unfold Qdiv. rewrite Qmult_1_l. apply Qle_shift_div_r; [apply size_pos|].
    rewrite <- Ml, Qmult_comm, <- add_up_const. apply add_up_le. exact column_le.
  Qed.
  Lemma total_lt : (2 <= length ks)%nat -> (add_up (fun x => x) (rough_pick m (length ks)) < 1)%Q.
  Proof.
    intros K2. rewrite rough_sum by apply matrix_lengths. unfold Qdiv. rewrite Qmult_1_l. apply Qlt_shift_div_r; [apply size_pos|].
    assert (H : exists j t, nth_error ks j = Some t /\ (self_of t < 1)%Q).
    { pose proof self_sum as Su. pose proof self_nonneg as Sn. generalize dependent self_of. intros f Su Sn. clear - K2 Su Sn. destruct ks as [|a [|b r]]; try (cbn [length] in K2; lia). cbn [add_up] in Su.
      pose proof (Sn a). pose proof (add_up_nonneg _ f r (fun x _ => Sn x)).
      destruct (Qlt_le_dec (f a) 1) as [Q|Q]; [exists 0%nat, a; auto|]. exists 1%nat, b. split; auto. lra. }
    destruct H as (j & t & N & Q).
    assert (J : (j < length m)%nat) by (rewrite Ml; apply nth_error_Some; congruence).
    destruct (nth_error m j) as [c|] eqn:E; [|apply nth_error_None in E; lia].
    rewrite <- Ml, Qmult_comm, <- add_up_const. apply (add_up_lt _ _ _ m c).
    - eapply nth_error_In; eauto.
    - destruct (Mc j c E) as (t' & N' & C). rewrite N in N'. injection N' as <-.
      destruct (column_facts j t c N C) as (_ & _ & S & A & _ & B). rewrite B.
      assert (0 < mr * (1 - self_of t) / S)%Q; [|lra]. apply div_pos; [|lra].
      apply (Qmult_lt_compat_r 0 mr (1 - self_of t)) in Mp; lra.
    - exact column_le.
  Qed.
End Matrix.

Lemma some_le : forall wss, sumZ some_won wss <= sumZ (fun ws : list tile => Z.of_nat (length ws)) wss.
Proof. induction wss as [|ws wss IH]; cbn [sumZ]; [lia|]. destruct ws; cbn [some_won length]; lia. Qed.
(** C93. The rough pick rates are not negative, none exceeds 100% and together they stay below 100%, always strictly
    for a hand with two different tiles. *)
Theorem C93_rates_partial : forall lines hand n source outs, read_hand lines = Some hand -> tries_ok hand n source -> main hand source = Ok outs ->
  Forall (fun o => (0 <= out_rough o <= 1)%Q) outs /\
  (add_up out_rough outs <= 1)%Q /\
  ((2 <= length hand)%nat -> (add_up out_rough outs < 1)%Q).
Proof.
  intros lines hand n source outs R T Mn. destruct (typed_hand lines hand R) as (_ & S14 & G & A).
  destruct (run lines hand n source R T) as (draws & D & L & F & E).
  pose proof (wss_nodup hand draws G) as Nw. pose proof (keys_faces hand (proj1 G)) as Nk.
  unfold main in Mn. cbv zeta in Mn. rewrite E, discard_keys in Mn. cbn [bindr] in Mn.
  set (s := note_all _ _ _) in *.
  destruct (outcomes_cases (Z.of_nat (length source)) s (map fst hand) (hand_nonempty hand S14)) as [(Z0 & O)|(Z0 & m & outs' & _ & O & Ml & Mc & _ & Rg & _)].
  - intros Z0. unfold s. destruct source; [|cbn [length] in Z0; lia]. destruct draws; [|discriminate L]. reflexivity.
  - congruence.
  - rewrite O in Mn. injection Mn as ->.
    assert (Tt : total_win_count s = sumZ (fun ws => Z.of_nat (length ws)) (map (won_by hand) draws)).
    { unfold s. rewrite note_all_total. reflexivity. }
    assert (Tp : 0 < total_win_count s).
    { assert (0 <= total_win_count s); [|lia]. rewrite Tt. apply sumZ_nonneg. intros; lia. }
    assert (Sp : (0 < 1 / inject_Z (Z.of_nat (length source)))%Q).
    { apply div_pos; [lra|]. apply inject_pos. rewrite <- L. destruct draws; [|cbn [length]; lia]. rewrite Tt in Tp. cbn in Tp. lia. }
    assert (Av : forall t, (fraction (avg_win_counter s) t == add_up (fun ws => if tile_in t ws then even_share ws else 0) (map (won_by hand) draws))%Q).
    { intros t. unfold s. rewrite note_all_avg by auto. cbn [no_tally avg_win_counter fraction]. lra. }
    assert (An : forall t, (0 <= fraction (avg_win_counter s) t)%Q).
    { intros t. rewrite Av. apply add_up_nonneg. intros ws _. destruct (tile_in t ws); [apply share_nonneg|lra]. }
    assert (As : (add_up (fraction (avg_win_counter s)) (map fst hand) <= inject_Z (total_win_count s))%Q).
    { rewrite (add_up_ext _ _ _ _ (fun t _ => Av t)), avg_sum by apply G. apply inject_le. rewrite Tt. apply some_le. }
    assert (Ow : forall t, In t (map fst hand) -> (fraction (entry (condition_win_counter s) t) t == 0)%Q).
    { intros t _. unfold s. rewrite note_all_cond by auto. cbn [no_tally condition_win_counter entry fraction].
      rewrite (add_up_ext _ _ (fun _ => 0%Q)); [rewrite add_up_zero; lra|]. intros ws _. destruct (tile_in t ws); cbn [negb]; rewrite ?andb_false_r; cbn [andb]; lra. }
    assert (Eq : add_up out_rough outs = add_up (fun x => x) (rough_pick m (length (map fst hand)))).
    { rewrite <- Rg, add_up_map. reflexivity. }
    pose proof (total_le (map fst hand) s _ Sp Tp An As Ow m Ml Mc (hand_nonempty hand S14)) as Le.
    pose proof (rough_nonneg (map fst hand) s _ Sp Tp An As Ow m Ml Mc (hand_nonempty hand S14)) as Nn.
    assert (No : forall o, In o outs -> (0 <= out_rough o)%Q).
    { intros o I. apply Nn. rewrite <- Rg. now apply in_map. }
    rewrite Eq. split; [|split; [exact Le|]].
    + apply Forall_forall. intros o I. split; [now apply No|]. pose proof (add_up_member _ out_rough outs o No I) as H. rewrite Eq in H. lra.
    + intros H2. apply (total_lt (map fst hand) s _ Sp Tp An As Ow m Ml Mc (hand_nonempty hand S14)). now rewrite map_length.
Qed.

(** ** Examples. The last line is the first with 14 tiles; the first of the two experiments draws 1p, the second 1m: only the
    discard of 3s wins, and only with the first. *)
Definition ex_lines : list text := [t_ "12m"; t_ "1234506789m11223ps"; t_ "123456789m1122p3s"].
Definition ex_typed : tset := tile_set_from_string (t_ "123456789m1122p3s").
Definition ex_source : list (list Z) := [[27]; [0]].
Lemma ex_random : tries_ok ex_typed 1 ex_source.
Proof.
  assert (L : left_over_size ex_typed = 122) by (vm_compute; reflexivity). unfold tries_ok. rewrite L.
  constructor; [|constructor; [|constructor]]; (split; [reflexivity|cbn; lia]).
Qed.
Example C90_ex : read_hand ex_lines = Some ex_typed /\ tries_ok ex_typed 1 ex_source /\
  drawn_by ex_typed ex_source [[Plain 1 Cp]; [Plain 1 Cm]] /\
  match main ex_typed ex_source with
  | Ok outs => map (fun o => (out_tile o, out_wins o, out_tries o)) (filter (fun o => 0 <? out_wins o) outs) = [(Plain 3 Cs, 1, 2)]
               /\ length outs = 12%nat
  | Err _ => False
  end.
Proof.
  split; [vm_compute; reflexivity|]. split; [exact ex_random|]. split.
  - repeat constructor.
  - vm_compute. split; reflexivity.
Qed.
Example C92_ex : read_hand ex_lines = Some ex_typed /\ tries_ok ex_typed 1 [[0]] /\ drawn_by ex_typed [[0]] [[Plain 1 Cm]] /\
  main ex_typed [[0]] = Err ZeroDivisionError.
Proof.
  assert (L : left_over_size ex_typed = 122) by (vm_compute; reflexivity).
  split; [vm_compute; reflexivity|]. split; [|split; [repeat constructor|vm_compute; reflexivity]].
  unfold tries_ok. rewrite L. constructor; [|constructor]. split; [reflexivity|cbn; lia].
Qed.
(** The rough pick rates of a hand should make up 100%: they do not. *)
Theorem C93_sum_refuted : exists lines hand n source outs, read_hand lines = Some hand /\ tries_ok hand n source /\
  main hand source = Ok outs /\ ~ (add_up out_rough outs == 1)%Q.
Proof.
  destruct (main ex_typed ex_source) as [outs|e] eqn:E; [|exfalso; revert E; vm_compute; discriminate].
  exists ex_lines, ex_typed, 1%nat, ex_source, outs. split; [vm_compute; reflexivity|]. split; [exact ex_random|]. split; [exact E|].
  destruct (C93_rates_partial ex_lines ex_typed 1 ex_source outs) as (_ & _ & H); [vm_compute; reflexivity|exact ex_random|exact E|].
  assert (2 <= length ex_typed)%nat as K by (vm_compute; lia). specialize (H K). lra.
Qed.

Print Assumptions C90_win_counts.
Print Assumptions C90_every_draw.
Print Assumptions C91_shares.
Print Assumptions C92_no_win.
Print Assumptions C92_no_draw.
Print Assumptions C93_rates_partial.
Print Assumptions C93_sum_refuted.
