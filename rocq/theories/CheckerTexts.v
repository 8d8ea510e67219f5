(** The texts of the report. *)
From Coq Require Import String.
From Verif Require Import Base Category Tile TileSet Spec_Tile TileSetFacts Win Spec_Win WinFacts WinProofs Waiting Spec_Waiting WaitingFacts WaitingPM WaitingBrute WaitingHeur WaitingHeurTop WaitingSize Spec_Hand WaitingTop.
From Verif Require Import Parse Text Tenhou TenhouProofs Spec_Meld MeldProofs Prop_Meld Event State Spec_Log StateProofs Checker Spec_Checker CheckerProofs CheckerHand CheckerRows CheckerReport CheckerGame Prop_Checker.
From Coq Require Import List ZArith QArith Lia Bool Permutation.
Import ListNotations.
Open Scope list_scope.
Open Scope Z_scope.

Lemma tile_text_of x t : valid_tile x -> tile_from_tenhou x = Ok t -> tile_text x (tile_str t).
Proof.
  intros V E. destruct (C05_tile_of_number x V) as (t' & E' & L & W & R). rewrite E in E'. apply Ok_inj in E'. subst t'.
  destruct t as [n c|c].
  - right. split; [intro X; apply R in X; destruct X as [c' X]; discriminate|]. rewrite <- W. reflexivity.
  - left. split; [apply R; eauto|]. rewrite <- W. reflexivity.
Qed.
Lemma count_kind_occ k l : count_kind k l = Z.of_nat (count_occ kind_eq_dec l k).
Proof.
  unfold count_kind. induction l as [|x l IH]; [reflexivity|]. cbn [sumZ count_occ]. rewrite IH, same_kind_eqb.
  destruct (kind_eq_dec x k) as [->|N]; [rewrite (proj2 (kind_eqb_eq k k) eq_refl); lia|].
  destruct (kind_eqb x k) eqn:E; [apply kind_eqb_eq in E; contradiction|lia].
Qed.
Lemma count_repeat k x n : count_kind k (map view (repeat x n)) = if kind_eqb (view x) k then Z.of_nat n else 0.
Proof.
  induction n as [|n IH]; cbn [repeat map]; [now destruct (kind_eqb (view x) k)|]. unfold count_kind in *. cbn [sumZ]. rewrite IH, same_kind_eqb.
  destruct (kind_eqb (view x) k); lia.
Qed.
Lemma count_app k a b : count_kind k (a ++ b) = count_kind k a + count_kind k b.
Proof. unfold count_kind. induction a as [|x a IH]; cbn [app sumZ]; [reflexivity|]. rewrite IH. lia. Qed.
Lemma tiles_count s k : Forall (fun e => 0 <= snd e) s -> count_kind k (map view (tiles s)) = face_count s k.
Proof.
  unfold tiles, face_count. induction 1 as [|[x n] s N F IH]; [reflexivity|]. cbn [flat_map fst snd map sumZ]. rewrite map_app, count_app, count_repeat, IH, same_kind_eqb.
  cbn [snd] in N. destruct (kind_eqb (view x) k); lia.
Qed.
Lemma hand_shown hand H : hand_facts hand H -> Permutation (map view (tiles (re_sort H))) (map face hand).
Proof.
  intro HF. apply re_sort_facts in HF. apply (Permutation_count_occ kind_eq_dec). intro k. apply Nat2Z.inj. rewrite <- !count_kind_occ.
  rewrite tiles_count.
  - rewrite (hf_count _ _ HF). reflexivity.
  - destruct (hf_ok _ _ HF) as [_ F]. eapply Forall_impl; [|exact F]. cbn. intros a A. apply A.
Qed.
Inductive kinds_le : list kind -> Prop :=
| le_nil : kinds_le []
| le_cons k l : (forall j, In j l -> kind_ltb j k = false) -> kinds_le l -> kinds_le (k :: l).
Lemma sorted_tiles_le s : sorted s -> kinds_le (map view (tiles s)).
Proof.
  unfold sorted, kinds_of, tiles. induction s as [|[x n] s IH]; intro S; [constructor|]. cbn [map fst snd] in S. inversion S as [|? ? S1 S2]; subst.
  cbn [flat_map fst snd]. rewrite map_app. specialize (IH S1).
  assert (Lt : forall j, In j (map view (flat_map (fun e => repeat (fst e) (Z.to_nat (snd e))) s)) -> kind_lt (view x) j).
  { intros j J. apply in_map_iff in J. destruct J as (t & <- & T). apply in_flat_map in T. destruct T as ([y m] & Y & T). apply repeat_spec in T. subst t. cbn [fst].
    rewrite Forall_forall in S2. apply S2. apply in_map_iff. exists (y, m). auto. }
  assert (Irr : kind_ltb (view x) (view x) = false) by (apply kind_ltb_false; now left).
  induction (Z.to_nat n) as [|k IHk]; [exact IH|]. cbn [repeat map app]. constructor; [|exact IHk].
  intros j J. apply in_app_or in J. destruct J as [J|J].
  - apply in_map_iff in J. destruct J as (t & <- & T). apply repeat_spec in T. now subst t.
  - apply Lt in J. apply kind_ltb_false. right. exact J.
Qed.

(** Every row is about legal tiles, whatever else may be wrong with it. *)
Definition shows_tiles (x : item) : Prop :=
  object (ri_discard x) /\ legal_kind (view (ri_discard x)) /\ Forall (fun t => object t /\ legal_kind (view t)) (ri_useful x).
Lemma says_tiles s hand unseen n x : Forall valid_tile hand -> says s hand unseen n x -> keeps_distance true s (hand_counts hand) (view (ri_discard x)) ->
  object (ri_discard x) -> shows_tiles x.
Proof.
  intros V A K O. split; [exact O|]. split.
  - destruct K as (P & _). unfold hand_counts in P. rewrite count_kind_occ in P. assert (In (view (ri_discard x)) (map face hand)) as I by (apply (count_occ_In kind_eq_dec); lia).
    apply in_map_iff in I. destruct I as (t & <- & T). apply face_legal. rewrite Forall_forall in V. auto.
  - pose proof (legal_of_useful _ _ _ _ (says_one _ _ _ _ _ A)) as L. pose proof (sy_objects _ _ _ _ _ A) as Ob. rewrite Forall_forall in *. auto.
Qed.
Lemma rows_tiles hand H m unseen merged : hand_facts hand H -> Forall valid_tile hand -> 0 <= m <= 4 -> Z.of_nat (length hand) = 14 - 3 * m ->
  merged_rows H unseen (map pattern_of (shapes_for m)) = Ok merged -> Forall shows_tiles merged.
Proof.
  intros HF V M L E. assert (G : forall s n rows, shape_rows hand H unseen s n rows -> Forall shows_tiles rows).
  { intros s n rows (_ & _ & _ & K & Sy & Ob). rewrite Forall_forall in Sy, Ob. apply Forall_forall. intros x X. apply (says_tiles s hand unseen n x V (Sy x X)); [|exact (Ob x X)].
    apply K. now apply (in_map (fun x => view (ri_discard x))). }
  destruct (Z.eq_dec m 0) as [E0|N0].
  - destruct (closed_rows hand H m unseen HF M L E0) as (n1 & rows1 & n2 & rows2 & l & R1 & R2 & F & E'). rewrite E in E'. apply Ok_inj in E'. subst merged.
    eapply Permutation_Forall; [apply sort_items_perm|]. apply G in R1, R2. clear - R1 R2 F. revert rows2 l R2 F.
    induction R1 as [|x rows1 A1 B1 IH]; intros [|y rows2] l R2 F; cbn [combine] in F; inversion F as [|? z ? l' M1 M2]; subst; try constructor.
    + inversion R2 as [|? ? A2 B2]; subst. cbn [fst snd] in M1. destruct (merge_two unseen x y) as (c & _ & Em). rewrite Em in M1. apply Ok_inj in M1. subst z.
      destruct A1 as (P1 & P2 & P3), A2 as (Q1 & Q2 & Q3). split; [exact P1|]. split; [exact P2|]. cbn [ri_useful]. unfold merged_useful.
      destruct (ri_step y <? ri_step x); [exact Q3|]. destruct (ri_step x =? ri_step y); [|exact P3]. now apply set_update_P.
    + inversion R2; subst. eapply IH; eassumption.
  - destruct (open_rows hand H m unseen HF M L N0) as (n & rows & R & E'). rewrite E in E'. apply Ok_inj in E'. subst merged.
    eapply Permutation_Forall; [apply sort_items_perm|]. eapply G; exact R.
Qed.
Lemma picture_of t : object t -> legal_kind (view t) -> picture (tile_str t).
Proof.
  intros O L. destruct t as [n c|c].
  - exists n, c. split; [reflexivity|]. unfold legal_kind in L. destruct c; cbn in *; lia.
  - exists 0, c. split; [reflexivity|]. cbn in *. destruct c; try (cbn; lia). now destruct O.
Qed.
Definition row_texts (x : shown) : list text := sh_discard x ++ sh_useful x.
Lemma norm_pictures x : shows_tiles x -> Forall picture (row_texts (norm x)).
Proof.
  intros (O & L & U). unfold row_texts. cbn [norm sh_discard sh_useful app]. constructor; [now apply picture_of|].
  apply Forall_map. assert (U' : Forall (fun t => object t /\ legal_kind (view t)) (sorted_tiles (ri_useful x))).
  { unfold sorted_tiles. assert (G : forall l a, Forall (fun t => object t /\ legal_kind (view t)) a -> Forall (fun t => object t /\ legal_kind (view t)) l ->
      Forall (fun t => object t /\ legal_kind (view t)) (fold_left (fun a t => insert_tile t a) l a)).
    { clear. induction l as [|t l IH]; intros a A F; [exact A|]. inversion F; subst. cbn [fold_left]. apply IH; [|assumption]. apply Forall_forall. intros y Y. apply insert_tile_in in Y.
      rewrite Forall_forall in A. destruct Y as [->|Y]; auto. }
    apply G; [constructor|exact U]. }
  eapply Forall_impl; [|exact U']. intros t [A B]. now apply picture_of.
Qed.

(** ** C65: the hand and the melds as shown. *)
Definition not_descending (ks : list kind) : Prop :=
  forall a b before between after, ks = before ++ a :: between ++ b :: after -> kind_ltb b a = false.
Lemma kinds_le_spec l : kinds_le l -> not_descending l.
Proof.
  intros K a b before between after ->. induction before as [|x before IH]; cbn [app] in K; inversion K as [|? ? K1 K2]; subst.
  - apply K1. apply in_or_app. right. now left.
  - now apply IH.
Qed.
Theorem C65_hand : forall e p hand players invisible melds t r, discards e p hand melds t ->
  reported e p hand players invisible melds = Ok r ->
  exists ks, Permutation ks (map face hand) /\ not_descending ks /\ Forall2 names (rr_hand r) ks /\
    (no_red_five hand -> rr_hand r = map face_text ks).
Proof.
  intros e p hand players invisible melds t r (HP & HD & HW & HM) E. rewrite table_melds_eq in *. unfold reported in E.
  destruct (report_form e hand players p invisible melds t HD HP HW HM) as (H & tt & ms & HF & _ & _ & _ & _ & _ & _ & R). rewrite R in E.
  destruct (merged_rows _ _ _); [|discriminate]. cbn [bindr] in E. destruct (first_group _); [|discriminate]. cbn [bindr] in E. destruct (choice_row _ _ _ _); [|discriminate]. cbn [bindr] in E.
  destruct (py_nth _ 0); [|discriminate]. cbn [bindr] in E. destruct (wrong_rate _ _ _); [|discriminate]. cbn [bindr] in E. apply Ok_inj in E. subst r. cbn [rr_hand].
  exists (map view (tiles (re_sort H))). split; [now apply hand_shown|]. split; [apply kinds_le_spec, sorted_tiles_le, re_sort_sorted; apply (hand_ok_good _ (hf_ok _ _ HF))|].
  pose proof (re_sort_facts _ _ HF) as HF'.
  assert (In_tiles : forall x, In x (tiles (re_sort H)) -> exists n, In (x, n) (re_sort H)).
  { intros x X. unfold tiles in X. apply in_flat_map in X. destruct X as ([y n] & Y & X). apply repeat_spec in X. subst. eauto. }
  split.
  - assert (Ob : Forall object (tiles (re_sort H))).
    { apply Forall_forall. intros x X. destruct (In_tiles x X) as [n Y]. pose proof (hf_object _ _ HF') as K. unfold keys_are in K. rewrite Forall_forall in K. apply (K _ Y). }
    clear - Ob. induction Ob as [|x l O F IH]; cbn [map]; constructor; [now apply tile_names|exact IH].
  - intro nr. rewrite map_map. apply map_ext_in. intros x X. destruct (In_tiles x X) as [n Y]. pose proof (hf_held _ _ HF') as K. unfold keys_are in K. rewrite Forall_forall in K.
    destruct (held_none _ _ (K _ Y) nr) as (i & c & Q). cbn [fst] in Q. subst x. reflexivity.
Qed.
Theorem C65_melds : forall e p hand players invisible melds t r, discards e p hand melds t ->
  reported e p hand players invisible melds = Ok r ->
  Forall2 (fun m txts => Forall2 tile_text (m_self m ++ m_borrowed m) txts) melds (rr_melds r).
Proof.
  intros e p hand players invisible melds t r (HP & HD & HW & HM) E. rewrite table_melds_eq in *. unfold reported in E.
  destruct (report_form e hand players p invisible melds t HD HP HW HM) as (H & tt & ms & HF & _ & _ & _ & _ & _ & Em & R). rewrite R in E.
  destruct (merged_rows _ _ _); [|discriminate]. cbn [bindr] in E. destruct (first_group _); [|discriminate]. cbn [bindr] in E. destruct (choice_row _ _ _ _); [|discriminate]. cbn [bindr] in E.
  destruct (py_nth _ 0); [|discriminate]. cbn [bindr] in E. destruct (wrong_rate _ _ _); [|discriminate]. cbn [bindr] in E. apply Ok_inj in E. subst r. cbn [rr_melds].
  unfold meld_texts in Em. apply mapM_Forall2 in Em. clear - Em HM. induction Em as [|m txts melds ms A B IH]; constructor; [|inversion HM; auto].
  inversion HM as [|? ? V _]; subst. apply mapM_Forall2 in A. clear - A V. induction A as [|x s l ss X Y IH]; constructor; [|inversion V; auto].
  inversion V as [|? ? V1 _]; subst. destruct (tile_from_tenhou x) as [k|] eqn:Ek; [|discriminate]. cbn [bindr] in X. apply Ok_inj in X. subst s. now apply tile_text_of.
Qed.

(** ** C66: the page has a picture for every tile it shows. *)
Lemma names_picture s k : names s k -> legal_kind k -> picture s.
Proof.
  destruct k as [c n]. intros [->|(Q & N & ->)] L; unfold face_text; cbn [fst snd] in *.
  - exists n, c. split; [reflexivity|]. unfold legal_kind in L. destruct c; cbn in *; lia.
  - exists 0, c. split; [reflexivity|]. destruct c; cbn; try lia. now destruct N.
Qed.
Theorem C66_pictures : forall e p hand players invisible melds t r, discards e p hand melds t -> NoDup invisible ->
  reported e p hand players invisible melds = Ok r ->
  Forall picture (rr_hand r) /\ Forall (Forall picture) (rr_melds r) /\
  Forall picture (row_texts (rr_choice r)) /\ Forall (fun x => Forall picture (row_texts x)) (rr_expected r ++ rr_merged r).
Proof.
  intros e p hand players invisible melds t r T Ni E. pose proof T as (HP & HD & HW & HM). pose proof HD as (_ & Vh & Mh & Lh & It).
  split; [|split; [|split]].
  - destruct (C65_hand _ _ _ _ _ _ _ _ T E) as (ks & P & _ & F & _). assert (L : Forall legal_kind ks).
    { eapply Permutation_Forall; [symmetry; exact P|]. apply Forall_map. eapply Forall_impl; [|exact Vh]. apply face_legal. }
    clear - F L. induction F as [|s k l ks A B IH]; constructor; inversion L; subst; [eapply names_picture; eassumption|auto].
  - pose proof (C65_melds _ _ _ _ _ _ _ _ T E) as F. clear - F HM. induction F as [|m txts melds ms A B IH]; constructor; inversion HM as [|? ? V W]; subst; [|auto].
    clear - A V. induction A as [|x s l ss X Y IH]; constructor; inversion V as [|? ? V1 V2]; subst; [|auto]. apply face_legal in V1.
    destruct X as [[R ->]|[_ ->]]; [|apply (names_picture _ (face x)); [now left|exact V1]]. unfold face_text. cbn [fst snd]. exists 0, (fst (face x)). split; [reflexivity|].
    destruct R as [->|[->| ->]]; vm_compute; split; discriminate.
  - destruct (C63_choice _ _ _ _ _ _ _ _ T Ni E) as [((x & Qx & N) & _ & (ks & (_ & F) & A)) _]. unfold row_texts. rewrite Qx. cbn [app]. constructor.
    + apply (names_picture _ _ N). apply face_legal. rewrite Forall_forall in Vh. auto.
    + assert (L : Forall legal_kind ks) by (apply Forall_forall; intros j J; apply A in J; destruct J as (? & ? & _ & _ & _ & L & _); exact L).
      clear - F L. induction F as [|s k l ks A B IH]; constructor; inversion L; subst; [eapply names_picture; eassumption|auto].
  - assert (G : Forall (fun x => Forall picture (row_texts x)) (rr_merged r)).
    { rewrite table_melds_eq in *. unfold reported in E.
      destruct (report_form e hand players p invisible melds t HD HP HW HM) as (H & tt & ms & HF & _ & _ & _ & _ & _ & _ & R). rewrite R in E.
      destruct (merged_rows _ _ _) as [merged|] eqn:Em; [|discriminate]. cbn [bindr] in E. destruct (first_group _); [|discriminate]. cbn [bindr] in E. destruct (choice_row _ _ _ _); [|discriminate]. cbn [bindr] in E.
      destruct (py_nth _ 0); [|discriminate]. cbn [bindr] in E. destruct (wrong_rate _ _ _); [|discriminate]. cbn [bindr] in E. apply Ok_inj in E. subst r. cbn [rr_merged].
      apply Forall_map. eapply Forall_impl; [|exact (rows_tiles _ _ _ _ _ HF Vh Mh Lh Em)]. apply norm_pictures. }
    apply Forall_app. split; [|exact G]. destruct (C52_expected _ _ _ _ _ _ E) as (_ & rest & _ & Q & _). rewrite Q in G. apply Forall_app in G. apply G.
Qed.

Print Assumptions C65_hand.
Print Assumptions C65_melds.
Print Assumptions C66_pictures.
