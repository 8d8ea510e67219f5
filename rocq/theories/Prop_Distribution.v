(** Property C49: sampling draws without replacement. *)
From Verif Require Import Base Tile TileSet Spec_Tile TileSetFacts Distribution Prop_Tile.
From Coq Require Import List ZArith Lia Bool.
Import ListNotations.
Open Scope Z_scope.

(** ** Specification. *)
(** How many tiles of a list show the face of [t]. *)
Fixpoint how_many (t : tile) (l : list tile) : Z :=
  match l with [] => 0 | u :: r => (if tile_eqb u t then 1 else 0) + how_many t r end.
(** A wall: a TileSet of legal faces, no negative count. *)
Definition wall_ok (w : tset) : Prop := dict_ok w /\ counts_nonneg w /\ forall t, 0 < get w t -> legal_kind (face_of t).
(** The random source: with [n] tiles left it delivers a number below [n]. *)
Fixpoint random_ok (n : Z) (xs : list Z) : Prop :=
  match xs with [] => True | x :: r => 0 <= x < n /\ random_ok (n - 1) r end.
(** The number of tiles in a wall. *)
Definition wall_size (w : tset) : Z := sumZ (fun t => get w t) ALL_TILES.

(** ** Proofs. *)
Lemma nth_accumulate : forall l a i, (i < length l)%nat -> nth i (accumulate a l) 0 = a + sumZ (fun x => x) (firstn (S i) l).
Proof.
  induction l as [|w l IH]; intros a i H; cbn [length] in H; [lia|]. cbn [accumulate]. destruct i as [|i].
  - cbn. lia.
  - cbn [nth]. rewrite IH by lia. cbn [firstn sumZ]. lia.
Qed.
Lemma acc_length : forall l a, length (accumulate a l) = length l.
Proof. induction l; intros; cbn; auto. Qed.
Lemma sum_firstn_S : forall (l : list Z) i, (i < length l)%nat -> sumZ (fun x => x) (firstn (S i) l) = sumZ (fun x => x) (firstn i l) + nth i l 0.
Proof.
  induction l as [|w l IH]; intros i H; cbn [length] in H; [lia|]. destruct i as [|i]; [cbn; lia|].
  specialize (IH i ltac:(lia)). cbn [firstn sumZ nth] in *. lia.
Qed.
Lemma sum_firstn_mono : forall (l : list Z) i j, (forall x, In x l -> 0 <= x) -> (i <= j)%nat -> sumZ (fun x => x) (firstn i l) <= sumZ (fun x => x) (firstn j l).
Proof.
  induction l as [|w l IH]; intros i j P H; [rewrite !firstn_nil; lia|]. destruct i as [|i].
  - cbn [firstn sumZ]. apply sumZ_nonneg. intros x X. apply P. rewrite <- (firstn_skipn j (w :: l)). apply in_or_app. auto.
  - destruct j as [|j]; [lia|]. cbn [firstn sumZ]. specialize (IH i j (fun x X => P x (or_intror X)) ltac:(lia)). lia.
Qed.
(** What [choices] does: position i is chosen exactly for x in its interval. *)
Lemma choices_spec : forall pop ws x, length pop = length ws -> (forall w, In w ws -> 0 <= w) ->
  0 <= x < sumZ (fun w => w) ws ->
  exists i t, nth_error pop i = Some t /\ choices pop ws x = Ok t /\
    sumZ (fun w => w) (firstn i ws) <= x < sumZ (fun w => w) (firstn (S i) ws).
Proof.
  intros pop ws x L P H. unfold choices. cbv zeta. set (n := length pop) in *.
  assert (N : (0 < n)%nat). { destruct ws; cbn in *; lia. }
  assert (Cn : forall i, (i < n)%nat -> nth i (accumulate 0 ws) 0 = sumZ (fun w => w) (firstn (S i) ws)) by (intros; rewrite nth_accumulate by lia; lia).
  destruct (bisect_right_loop_spec Z.ltb 0 n (accumulate 0 ws) x 0 (n - 1)) as (A & B & C); rewrite ?acc_length; try lia.
  - intros i j Hij E. rewrite Cn in * by lia. apply Z.ltb_lt in E. apply Z.ltb_lt.
    pose proof (sum_firstn_mono ws (S i) (S j) P ltac:(lia)). lia.
  - intros i Hi. assert (i = (n - 1)%nat) by lia. subst i. rewrite Cn by lia. apply Z.ltb_lt.
    replace (S (n - 1)) with (length ws) by lia. rewrite firstn_all. lia.
  - set (i := bisect_right_loop Z.ltb 0 n (accumulate 0 ws) x 0 (n - 1)) in *. rewrite acc_length in C.
    destruct (nth_error pop i) as [t|] eqn:E; [|apply nth_error_None in E; lia].
    exists i, t. split; auto. split; auto. split.
    + destruct (Nat.eq_dec i 0) as [->|Z0]; [cbn; lia|]. specialize (B (i - 1)%nat ltac:(lia)). rewrite Cn in B by lia.
      replace (S (i - 1)) with i in B by lia. apply Z.ltb_ge in B. lia.
    + specialize (C i ltac:(lia)). rewrite Cn in C by lia. apply Z.ltb_lt in C. lia.
Qed.
Lemma interval_unique : forall ws i j x, (forall w, In w ws -> 0 <= w) ->
  sumZ (fun w => w) (firstn i ws) <= x < sumZ (fun w => w) (firstn (S i) ws) ->
  sumZ (fun w => w) (firstn j ws) <= x < sumZ (fun w => w) (firstn (S j) ws) -> i = j.
Proof.
  intros ws i j x P A B. destruct (Nat.lt_trichotomy i j) as [H|[H|H]]; auto.
  - pose proof (sum_firstn_mono ws (S i) j P ltac:(lia)). lia.
  - pose proof (sum_firstn_mono ws (S j) i P ltac:(lia)). lia.
Qed.

Lemma legal_tile_kind : forall t, legal_tile t -> legal_kind (view t).
Proof. intros [n c|c] H; cbn in *; auto. destruct c; cbn; try lia. Qed.
Lemma all_views : map view ALL_TILES = KINDS.
Proof. reflexivity. Qed.
Lemma all_legal : forall t, In t ALL_TILES -> legal_tile t.
Proof.
  intros t I. assert (K : legal_kind (view t)) by (apply KINDS_legal; rewrite <- all_views; now apply in_map).
  destruct t as [n c|c]; auto.
  assert (F : forallb (fun t => match t with Plain _ _ => true | Aka _ => false end) ALL_TILES = true) by reflexivity.
  rewrite forallb_forall in F. specialize (F _ I). discriminate.
Qed.
Lemma get_pick : forall w t u, wall_ok w -> get (wall_pick w t) u = if tile_eqb t u then Z.max 0 (get w u - 1) else get w u.
Proof.
  intros w t u (D & C & _). unfold wall_pick, ts_sub, get. rewrite getk_keep_positive by (apply wf_sub_into; now apply dict_wf).
  rewrite getk_sub_into by apply wf_of_tiles. rewrite getk_of_tiles. unfold occ. cbn [sumZ]. specialize (C u). unfold get in C.
  unfold tile_eqb. cbn -[kind_eqb]. destruct (kind_eqb (view t) (view u)); lia.
Qed.
Lemma pick_ok : forall w t, wall_ok w -> wall_ok (wall_pick w t).
Proof.
  intros w t W. pose proof W as (D & C & L). split; [|split].
  - apply wf_dict. unfold wall_pick, ts_sub, keep_positive. apply wf_filter, wf_sub_into. now apply dict_wf.
  - intros u. rewrite get_pick by auto. specialize (C u). destruct (tile_eqb t u); lia.
  - intros u H. apply L. rewrite get_pick in H by auto. destruct (tile_eqb t u); lia.
Qed.
Lemma size_pick : forall w t, wall_ok w -> In t ALL_TILES -> 0 < get w t -> wall_size (wall_pick w t) = wall_size w - 1.
Proof.
  intros w t W I P. unfold wall_size, get at 1 2.
  rewrite <- (sumZ_map _ _ (getk (wall_pick w t)) view ALL_TILES), <- (sumZ_map _ _ (getk w) view ALL_TILES), all_views.
  rewrite (sumZ_change_one KINDS (getk (wall_pick w t)) (getk w) (view t)).
  - change (getk (wall_pick w t) (view t)) with (get (wall_pick w t) t). change (getk w (view t)) with (get w t).
    rewrite get_pick by auto. unfold tile_eqb. rewrite kind_eqb_refl. lia.
  - apply KINDS_NoDup.
  - apply KINDS_legal, legal_tile_kind, all_legal, I.
  - intros k Ik N. assert (E : exists u, In u ALL_TILES /\ view u = k).
    { rewrite <- all_views in Ik. apply in_map_iff in Ik as (u & E & Iu). eauto. }
    destruct E as (u & _ & <-). change (get (wall_pick w t) u = get w u). rewrite get_pick by auto.
    unfold tile_eqb. rewrite (proj2 (kind_eqb_neq (view t) (view u))); auto.
Qed.
Lemma all_weights_nonneg : forall w, wall_ok w -> forall x, In x (weights w) -> 0 <= x.
Proof. intros w (_ & C & _) x I. apply in_map_iff in I as (t & <- & _). apply C. Qed.
Lemma weights_sum : forall w, sumZ (fun x => x) (weights w) = wall_size w.
Proof. intros w. unfold weights. now rewrite sumZ_map. Qed.
Lemma draw_one : forall w x, wall_ok w -> 0 <= x < wall_size w ->
  exists t, choices ALL_TILES (weights w) x = Ok t /\ In t ALL_TILES /\ 0 < get w t.
Proof.
  intros w x W H. destruct (choices_spec ALL_TILES (weights w) x) as (i & t & E & C & B).
  - unfold weights. now rewrite map_length.
  - now apply all_weights_nonneg.
  - now rewrite weights_sum.
  - exists t. split; auto. split; [eapply nth_error_In; eauto|].
    assert (Li : (i < length (weights w))%nat) by (unfold weights; rewrite map_length; apply nth_error_Some; congruence).
    rewrite sum_firstn_S in B by auto. unfold weights in B at 2 3. 
    assert (N : nth i (weights w) 0 = get w t). { unfold weights. apply nth_error_nth. now apply map_nth_error. }
    fold (weights w) in B. rewrite N in B. lia.
Qed.

(** ** C49. Every run of the random source: the sample has one tile per draw, all of them of the 34 faces, and no face
    is drawn more often than it is in the wall. *)
Theorem C49_without_replacement : forall wall xs, wall_ok wall -> Z.of_nat (length xs) <= wall_size wall ->
  random_ok (wall_size wall) xs ->
  exists drawn, sample wall xs = Ok drawn /\ length drawn = length xs /\
    (forall t, In t drawn -> In t ALL_TILES) /\ forall t, how_many t drawn <= get wall t.
Proof.
  intros wall xs. revert wall. induction xs as [|x xs IH]; intros wall W L R.
  - exists []. split; auto. split; auto. split; [intros t []|]. intros t. destruct W as (_ & C & _). apply C.
  - cbn [random_ok] in R. destruct R as [Rx R]. destruct (draw_one wall x W Rx) as (t & E & I & P).
    destruct (IH (wall_pick wall t)) as (d & D & Ld & Id & Hd).
    + now apply pick_ok.
    + rewrite size_pick by auto. cbn [length] in L. lia.
    + rewrite size_pick by auto. exact R.
    + exists (t :: d). cbn [sample]. rewrite E. cbn [bindr]. rewrite D. split; auto. split; [cbn; auto|]. split.
      * intros u [<-|U]; auto.
      * intros u. cbn [how_many]. specialize (Hd u). rewrite get_pick in Hd by auto.
        destruct (tile_eqb t u) eqn:Et; [|lia]. apply tile_eqb_eq in Et. unfold get in *. rewrite Et in P. lia.
Qed.
(** Conversely every such sequence can be drawn. *)
Theorem C49_everything_possible : forall wall drawn, wall_ok wall -> (forall t, In t drawn -> In t ALL_TILES) ->
  (forall t, how_many t drawn <= get wall t) ->
  exists xs, random_ok (wall_size wall) xs /\ sample wall xs = Ok drawn.
Proof.
  intros wall drawn. revert wall. induction drawn as [|t d IH]; intros wall W I H.
  - exists []. split; [exact Logic.I|reflexivity].
  - assert (P : 0 < get wall t).
    { specialize (H t). cbn [how_many] in H. unfold tile_eqb in H at 1. rewrite kind_eqb_refl in H.
      assert (G : forall l, 0 <= how_many t l). { induction l as [|u l IHl]; cbn [how_many]; [lia|]. destruct (tile_eqb u t); lia. }
      specialize (G d). lia. }
    assert (It : In t ALL_TILES) by (apply I; now left).
    destruct (IH (wall_pick wall t)) as (xs & R & S).
    + now apply pick_ok.
    + intros u U. apply I. now right.
    + intros u. rewrite get_pick by auto. specialize (H u). cbn [how_many] in H. destruct (tile_eqb t u); lia.
    + destruct (In_nth_error _ _ It) as (i & Ei).
      assert (Li : (i < length (weights wall))%nat) by (unfold weights; rewrite map_length; apply nth_error_Some; congruence).
      assert (N : nth i (weights wall) 0 = get wall t). { unfold weights. apply nth_error_nth. now apply map_nth_error. }
      set (x := sumZ (fun w => w) (firstn i (weights wall))).
      assert (B : x <= x < sumZ (fun w => w) (firstn (Datatypes.S i) (weights wall))).
      { rewrite sum_firstn_S by auto. rewrite N. fold x. lia. }
      assert (Rx : 0 <= x < wall_size wall).
      { split.
        - apply sumZ_nonneg. intros w Iw. apply all_weights_nonneg with wall; auto.
          rewrite <- (firstn_skipn i (weights wall)). apply in_or_app. auto.
        - rewrite <- weights_sum. rewrite <- (firstn_all (weights wall)).
          pose proof (sum_firstn_mono (weights wall) (Datatypes.S i) (length (weights wall)) (all_weights_nonneg wall W) ltac:(lia)). lia. }
      exists (x :: xs). split.
      * cbn [random_ok]. split; auto. rewrite size_pick in R by auto. exact R.
      * cbn [sample]. destruct (choices_spec ALL_TILES (weights wall) x) as (j & u & Ej & C & Bj).
        -- unfold weights. now rewrite map_length.
        -- now apply all_weights_nonneg.
        -- now rewrite weights_sum.
        -- assert (j = i) by (eapply interval_unique; eauto; now apply all_weights_nonneg). subst j.
           rewrite Ei in Ej. injection Ej as <-. rewrite C. cbn [bindr]. now rewrite S.
Qed.
Definition ex_wall : tset := [(Aka Cp, 2); (Plain 5 Cz, 3); (Plain 9 Cm, 0)].
Example C49_ex : wall_ok ex_wall /\ wall_size ex_wall = 5 /\ random_ok 5 [1; 3; 0; 1; 0] /\
  sample ex_wall [1; 3; 0; 1; 0] = Ok [Plain 5 Cp; Plain 5 Cz; Plain 5 Cp; Plain 5 Cz; Plain 5 Cz].
Proof.
  split; [|split; [reflexivity|split; [cbn; lia|vm_compute; reflexivity]]].
  split; [|split].
  - unfold dict_ok. cbn. repeat constructor; cbn; intuition discriminate.
  - intros t. unfold get. cbn [ex_wall getk]. repeat destruct (kind_eqb _ _); lia.
  - intros t. unfold get. cbn [ex_wall getk].
    destruct (kind_eqb (view (Aka Cp)) (view t)) eqn:E1; [|destruct (kind_eqb (view (Plain 5 Cz)) (view t)) eqn:E2; [|destruct (kind_eqb (view (Plain 9 Cm)) (view t)); lia]]; intros _.
    + apply kind_eqb_eq in E1. rewrite <- view_face, <- E1. cbn. lia.
    + apply kind_eqb_eq in E2. rewrite <- view_face, <- E2. cbn. lia.
Qed.

Print Assumptions C49_without_replacement.
Print Assumptions C49_everything_possible.
