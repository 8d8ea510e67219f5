(** The rows of the report before they are turned into text. *)
From Coq Require Import String.
From Verif Require Import Base Category Tile TileSet Spec_Tile TileSetFacts Win Spec_Win WinFacts WinProofs Waiting Spec_Waiting WaitingFacts WaitingPM WaitingBrute WaitingHeur WaitingHeurTop WaitingSize Spec_Hand WaitingTop.
From Verif Require Import Parse Text Tenhou TenhouProofs Spec_Meld MeldProofs Prop_Meld Event State Spec_Log StateProofs Checker Spec_Checker CheckerProofs CheckerHand.
From Coq Require Import List ZArith QArith Lia Bool Permutation.
Import ListNotations.
Open Scope list_scope.
Open Scope Z_scope.

Lemma keeps_ext s h h' k : (forall j, h j = h' j) -> keeps_distance true s h k -> keeps_distance true s h' k.
Proof.
  intros E (P & n & A & B). split; [now rewrite <- E|]. exists n. split; [eapply distance_ext; eauto|].
  eapply distance_ext; [|exact B]. intro j. unfold without. now rewrite E.
Qed.
Lemma without_ext h h' k : (forall j, h j = h' j) -> forall j, without h k j = without h' k j.
Proof. intros E j. unfold without. now rewrite E. Qed.

(** One item says the right thing about discarding its tile, for one shape; [n] is the
    distance of the hand after the discard. *)
Record says (s : shape) (hand : list Z) (unseen : list inv) (n : nat) (x : item) : Prop := mkSays {
  sy_distance : distance true s (without (hand_counts hand) (view (ri_discard x))) n;
  sy_step : ri_step x = Z.of_nat n - 1;
  sy_nodup : NoDup (map view (ri_useful x));
  sy_useful : forall j, In j (map view (ri_useful x)) <-> advances true s (without (hand_counts hand) (view (ri_discard x))) j;
  sy_count : useful_count unseen (ri_useful x) = Ok (ri_count x);
  sy_objects : Forall object (ri_useful x);
  sy_held : Forall (held hand) (ri_useful x) }.

Lemma object_plain n c : object (Plain n c). Proof. exact I. Qed.
Lemma plain_plain n c : plain_tile (Plain n c). Proof. eexists _, _. reflexivity. Qed.

Lemma mapM_Forall2 {A B} (f : A -> res B) l ys : mapM f l = Ok ys -> Forall2 (fun x y => f x = Ok y) l ys.
Proof.
  revert ys. induction l as [|x l IH]; intros ys E; cbn [mapM] in E; [apply Ok_inj in E; subst; constructor|].
  destruct (f x) as [y|] eqn:F; [|discriminate]. cbn [bindr] in E. destruct (mapM f l) as [r|]; [|discriminate].
  cbn [bindr] in E. apply Ok_inj in E. subst. constructor; auto.
Qed.
Lemma mapM_total {A B} (f : A -> res B) l : (forall x, In x l -> exists y, f x = Ok y) -> exists ys, mapM f l = Ok ys.
Proof.
  induction l as [|x l IH]; intro H; [eexists; reflexivity|]. destruct (H x (or_introl eq_refl)) as [y E].
  destruct IH as [ys E2]; [intros; apply H; now right|]. exists (y :: ys). cbn [mapM]. rewrite E. cbn [bindr]. now rewrite E2.
Qed.

(** The useful sets have no face twice. *)
Definition nodup_dict (d : list (tile * list tile)) : Prop := Forall (fun e => NoDup (map view (snd e))) d.
Lemma dict_update_nodup d t ts : nodup_dict d -> nodup_dict (dict_update d t ts).
Proof.
  unfold nodup_dict. induction 1 as [|[t' s] d A B IH]; cbn [dict_update].
  - constructor; [|constructor]. apply set_update_nodup. constructor.
  - destruct (tile_eqb t' t); constructor; auto. cbn [snd]. now apply set_update_nodup.
Qed.
Lemma h_batch_nodup p hand rows : h_batch p hand true = Ok rows -> Forall (fun r => NoDup (map view (snd r))) rows.
Proof.
  intros E. unfold h_batch in E. destruct (h_step p hand true) as [w|]; [|discriminate]. cbn [bindr] in E.
  apply Ok_inj in E. subst rows. apply Forall_map. cbn [fst snd].
  match goal with |- Forall _ ?d => change (nodup_dict d) end.
  assert (K : forall rs d, nodup_dict d -> nodup_dict (fold_left (fun d (r : hres) =>
             let hand_win := fold_left ts_add (snd (fst r)) [] in
             let can_drops := ts_sub hand hand_win in
             fold_left (fun d e => dict_update d (fst e) (map fst (snd r))) can_drops d) rs d)).
  { clear w. induction rs as [|r rs IH]; intros d D; [exact D|]. cbn [fold_left]. apply IH. cbv zeta.
    generalize (ts_sub hand (fold_left ts_add (snd (fst r)) [])). intro l. revert d D.
    induction l as [|e l IHl]; intros d D; [exact D|]. cbn [fold_left]. apply IHl. now apply dict_update_nodup. }
  apply K. constructor.
Qed.

Section Shape.
  Variables (s : shape) (hand : list Z) (H : tset) (unseen : list inv).
  Hypothesis HF : hand_facts hand H.
  Hypothesis US : usual_size s H.

  Lemma counts_fc k : face_count (re_sort H) k = hand_counts hand k.
  Proof. apply (hf_count _ _ (re_sort_facts _ _ HF)). Qed.

  Lemma usual_sorted : usual_size s (re_sort H).
  Proof. destruct US as (A & B & C). rewrite (perm_size _ _ (Permutation_sym (re_sort_perm H))) in B, C. split; [exact A|split; [exact B|exact C]]. Qed.

  Lemma one_win_rows : exists n rows, distance true s (hand_counts hand) n /\
    one_win_reasoning H unseen (pattern_of s) = Ok rows /\
    NoDup (map (fun x => view (ri_discard x)) rows) /\
    (forall k, In k (map (fun x => view (ri_discard x)) rows) <-> keeps_distance true s (hand_counts hand) k) /\
    Forall (says s hand unseen n) rows /\ Forall (fun x => object (ri_discard x)) rows.
  Proof.
    pose proof (re_sort_facts _ _ HF) as HF'.
    destruct (h_batch_spec s (re_sort H) (hf_ok _ _ HF') (hf_four _ _ HF') usual_sorted) as (n & raw & D & E & N & K & R).
    unfold one_win_reasoning. rewrite E. cbn [bindr].
    destruct (mapM_total (fun r => convert_to_reasoning unseen (fst (fst r)) (snd r) (snd (fst r))) raw) as [rows M].
    { intros r _. unfold convert_to_reasoning. destruct (useful_count_ok unseen (snd r)) as (c & -> & _). cbn [bindr]. eauto. }
    exists n, rows. rewrite M. pose proof (mapM_Forall2 _ _ _ M) as F2.
    assert (Em : map (fun x => view (ri_discard x)) rows = map (fun r => view (fst (fst r))) raw).
    { clear - F2. induction F2 as [|r x raw rows A B IH]; [reflexivity|]. cbn [map]. rewrite IH. f_equal.
      unfold convert_to_reasoning in A. destruct (useful_count unseen (snd r)); [|discriminate]. cbn [bindr] in A. apply Ok_inj in A. now subst. }
    rewrite Em. split; [eapply distance_ext; [|exact D]; apply counts_fc|]. split; [reflexivity|]. split; [exact N|].
    split; [|split].
    - intro k. rewrite K. split; apply keeps_ext; intros; [|symmetry]; apply counts_fc.
    - pose proof (h_batch_keys object object_plain (pattern_of s) (re_sort H) raw (hf_object _ _ HF') E) as KO.
      pose proof (h_batch_keys (held hand) (held_plain_tile hand) (pattern_of s) (re_sort H) raw (hf_held _ _ HF') E) as KP.
      pose proof (proj1 (Forall_forall _ _) KO) as KO'.
      apply Forall_forall. intros x X.
      assert (exists r, In r raw /\ convert_to_reasoning unseen (fst (fst r)) (snd r) (snd (fst r)) = Ok x) as (r & Ir & Er).
      { clear - F2 X. induction F2 as [|r y raw rows A B IH]; [destruct X|]. destruct X as [->|X]; [exists r; split; [now left|exact A]|].
        destruct (IH X) as (r' & I' & E'). exists r'. split; [now right|exact E']. }
      destruct r as [[t w] u]. cbn [fst snd] in Er. unfold convert_to_reasoning in Er.
      destruct (useful_count unseen u) as [c|] eqn:Ec; [|discriminate]. cbn [bindr] in Er. apply Ok_inj in Er. subst x.
      assert (Kt : keeps_distance true s (hand_counts hand) (view t)).
      { apply (keeps_ext s (face_count (re_sort H))); [apply counts_fc|]. apply K. apply in_map_iff. exists (t, w, u). auto. }
      destruct (R t w u Ir) as [-> U]. destruct Kt as (P & m & D1 & D2).
      assert (m = n). { eapply distance_unique; [exact D1|]. eapply distance_ext; [|exact D]. apply counts_fc. } subst m.
      constructor; cbn [ri_discard ri_step ri_useful ri_count].
      + exact D2.
      + reflexivity.
      + pose proof (h_batch_nodup _ _ _ E) as Nu.
        rewrite Forall_forall in Nu. apply (Nu _ Ir).
      + intro j. change (map view u) with (faces u). rewrite U. split; apply advances_ext; apply without_ext; intros; [|symmetry]; apply counts_fc.
      + exact Ec.
      + apply (KO' _ Ir).
      + rewrite Forall_forall in KP. apply (KP _ Ir).
    - pose proof (h_batch_keys object object_plain (pattern_of s) (re_sort H) raw (hf_object _ _ HF') E) as KO.
      clear - F2 KO. induction F2 as [|r y raw rows A B IH]; [constructor|]. inversion KO as [|? ? [K1 _] K2]; subst. constructor; [|now apply IH].
      unfold convert_to_reasoning in A. destruct (useful_count unseen (snd r)); [|discriminate]. cbn [bindr] in A. apply Ok_inj in A. subst. exact K1.
  Qed.

  Lemma choice_item t : 0 < face_count H (view t) -> shape_tiles s < hand_size H + 1 -> 1 < hand_size H -> object t ->
    held hand t ->
    exists n x, reasoning_discards H unseen t (pattern_of s) = Ok x /\ ri_discard x = t /\ says s hand unseen n x.
  Proof.
    intros P Sz1 Sz2 Ot Pt. unfold reasoning_discards.
    destruct (remove_tile_fc H t (hf_ok _ _ HF) P) as [Ho Fc]. set (H1 := ts_sub H (of_tiles [t])) in *.
    pose proof (re_sort_perm H1) as Pm.
    assert (Ho' : hand_ok (re_sort H1)).
    { destruct Ho as [A1 A2]. split.
      - eapply Permutation_NoDup; [|exact A1]. apply Permutation_map. now symmetry.
      - eapply Permutation_Forall; [symmetry; exact Pm|exact A2]. }
    assert (Fw : forall k, face_count (re_sort H1) k = without (hand_counts hand) (view t) k).
    { intro k. rewrite (perm_face_count _ _ k Pm), Fc. apply without_ext. apply (hf_count _ _ HF). }
    assert (F4 : four_max (re_sort H1)).
    { intro k. rewrite (perm_face_count _ _ k Pm), Fc. pose proof (hf_four _ _ HF k). unfold without. destruct (same_kind (view t) k); lia. }
    assert (US' : usual_size s (re_sort H1)).
    { destruct US as (A & B & C). split; [exact A|]. rewrite (perm_size _ _ Pm). unfold H1.
      rewrite hand_size_remove by (exact P || apply HF). lia. }
    assert (Ko : keys_are object (re_sort H1)).
    { apply re_sort_keys, ts_sub_keys; [apply HF|]. apply of_tiles_keys. constructor; [exact Ot|constructor]. }
    assert (Kp : keys_are (held hand) (re_sort H1)).
    { apply re_sort_keys, ts_sub_keys; [apply HF|]. apply of_tiles_keys. constructor; [exact Pt|constructor]. }
    destruct (h_both_spec s (re_sort H1) Ho' F4 US') as (n & ts & D & E & N & K). rewrite E. cbn [bindr fst snd].
    destruct (useful_count_ok unseen ts) as (c & Ec & _). unfold convert_to_reasoning. rewrite Ec. cbn [bindr].
    exists n. eexists. split; [reflexivity|]. split; [reflexivity|]. constructor; cbn [ri_discard ri_step ri_useful ri_count].
    - eapply distance_ext; [|exact D]. exact Fw.
    - reflexivity.
    - exact N.
    - intro j. change (map view ts) with (faces ts). rewrite K. split; apply advances_ext; intros; rewrite Fw; reflexivity.
    - exact Ec.
    - apply (h_both_keys object object_plain _ _ _ Ko E).
    - apply (h_both_keys (held hand) (held_plain_tile hand) _ _ _ Kp E).
  Qed.
End Shape.

(** ** Several shapes: [says_all ss] is about the nearest of them. *)
Record says_all (ss : list shape) (hand : list Z) (unseen : list inv) (x : item) : Prop := mkSaysAll {
  sa_step : exists n, best_distance ss (without (hand_counts hand) (view (ri_discard x))) n /\ ri_step x = Z.of_nat n - 1;
  sa_nodup : NoDup (map view (ri_useful x));
  sa_useful : forall j, In j (map view (ri_useful x)) <-> best_advances ss (without (hand_counts hand) (view (ri_discard x))) j;
  sa_count : useful_count unseen (ri_useful x) = Ok (ri_count x);
  sa_objects : Forall object (ri_useful x);
  sa_held : Forall (held hand) (ri_useful x) }.

Lemma best_one s h n : distance true s h n -> best_distance [s] h n.
Proof. intro D. split; [exists s; split; [now left|exact D]|]. intros s' m [<-|[]] D'. rewrite (distance_unique _ _ _ _ _ D D'). lia. Qed.
Lemma best_unique ss h n m : best_distance ss h n -> best_distance ss h m -> n = m.
Proof. intros [(s & S1 & D1) L1] [(s' & S2 & D2) L2]. specialize (L1 _ _ S2 D2). specialize (L2 _ _ S1 D1). lia. Qed.
Lemma says_one s hand unseen n x : says s hand unseen n x -> says_all [s] hand unseen x.
Proof.
  intros [D St N U C O P]. constructor; auto.
  - exists n. split; [now apply best_one|exact St].
  - intro j. rewrite U. split.
    + intro A. exists s, n. split; [now left|]. split; [now apply best_one|]. auto.
    + intros (s' & n' & [<-|[]] & _ & _ & A). exact A.
Qed.

Lemma merge_one unseen x : useful_count unseen (ri_useful x) = Ok (ri_count x) -> reasoning_merge [x] unseen = Ok x.
Proof. intro C. unfold reasoning_merge. cbn [fold_left map min_list bindr]. rewrite C. cbn [bindr]. now destruct x. Qed.
Definition merged_useful (x y : item) : list tile :=
  if ri_step y <? ri_step x then ri_useful y
  else if ri_step x =? ri_step y then set_update (ri_useful x) (ri_useful y) else ri_useful x.
Lemma merge_two unseen x y : exists c, useful_count unseen (merged_useful x y) = Ok c /\
  reasoning_merge [x; y] unseen = Ok (mkItem (ri_discard x) (Z.min (ri_step x) (ri_step y)) (merged_useful x y) c).
Proof.
  destruct (useful_count_ok unseen (merged_useful x y)) as (c & E & _). exists c. split; [exact E|].
  unfold reasoning_merge. cbn [fold_left]. assert (Q : ri_useful (reduce_useful x y) = merged_useful x y).
  { unfold reduce_useful, merged_useful. destruct (ri_step y <? ri_step x); [reflexivity|]. now destruct (ri_step x =? ri_step y). }
  rewrite Q, E. cbn [map]. destruct (min_list_some (ri_step x) [ri_step y]) as [m M]. rewrite M. cbn [bindr]. do 2 f_equal.
  apply min_list_least in M. destruct M as [M1 M2]. pose proof (M2 _ (or_introl eq_refl)). pose proof (M2 _ (or_intror (or_introl eq_refl))).
  destruct M1 as [<-|[<-|[]]]; lia.
Qed.
Lemma says_two s1 s2 hand unseen n1 n2 x y m : says s1 hand unseen n1 x -> says s2 hand unseen n2 y ->
  view (ri_discard x) = view (ri_discard y) -> reasoning_merge [x; y] unseen = Ok m ->
  ri_discard m = ri_discard x /\ says_all [s1; s2] hand unseen m.
Proof.
  intros [D1 St1 N1 U1 C1 O1 P1] [D2 St2 N2 U2 C2 O2 P2] V M. rewrite <- V in *.
  destruct (merge_two unseen x y) as (c & Ec & E). rewrite E in M. apply Ok_inj in M. subst m. split; [reflexivity|].
  set (h := without (hand_counts hand) (view (ri_discard x))) in *.
  assert (B : best_distance [s1; s2] h (Nat.min n1 n2)).
  { split.
    - destruct (le_lt_dec n1 n2).
      + exists s1. split; [now left|]. now replace (Nat.min n1 n2) with n1 by lia.
      + exists s2. split; [now right; left|]. now replace (Nat.min n1 n2) with n2 by lia.
    - intros s' m [<-|[<-|[]]] D'; [rewrite (distance_unique _ _ _ _ _ D' D1)|rewrite (distance_unique _ _ _ _ _ D' D2)]; lia. }
  constructor; cbn [ri_discard ri_step ri_useful ri_count].
  - exists (Nat.min n1 n2). split; [exact B|]. rewrite St1, St2. lia.
  - unfold merged_useful. destruct (ri_step y <? ri_step x); [exact N2|]. destruct (ri_step x =? ri_step y); [now apply set_update_nodup|exact N1].
  - intro j. fold h. unfold merged_useful. destruct (Z.ltb_spec (ri_step y) (ri_step x)) as [L|L]; [|destruct (Z.eqb_spec (ri_step x) (ri_step y)) as [Q|Q]].
    + rewrite U2. assert (n2 < n1)%nat by lia. split.
      * intro A. exists s2, n2. replace (Nat.min n1 n2) with n2 in B by lia. split; [now right; left|]. auto.
      * intros (s' & n' & [<-|[<-|[]]] & B' & D' & A); [|exact A]. rewrite (best_unique _ _ _ _ B' B), (distance_unique _ _ _ _ _ D1 D') in *. lia.
    + rewrite set_update_in, U1, U2. assert (n1 = n2) by lia. subst n2. rewrite Nat.min_id in B. split.
      * intros [A|A]; [exists s2, n1; split; [now right; left|]; auto|exists s1, n1; split; [now left|]; auto].
      * intros (s' & n' & [<-|[<-|[]]] & B' & D' & A); auto.
    + rewrite U1. assert (n1 < n2)%nat by lia. split.
      * intro A. exists s1, n1. replace (Nat.min n1 n2) with n1 in B by lia. split; [now left|]. auto.
      * intros (s' & n' & [<-|[<-|[]]] & B' & D' & A); [exact A|]. rewrite (best_unique _ _ _ _ B' B), (distance_unique _ _ _ _ _ D2 D') in *. lia.
  - exact Ec.
  - unfold merged_useful. destruct (ri_step y <? ri_step x); [exact O2|]. destruct (ri_step x =? ri_step y); [now apply set_update_P|exact O1].
  - unfold merged_useful. destruct (ri_step y <? ri_step x); [exact P2|]. destruct (ri_step x =? ri_step y); [now apply set_update_P|exact P1].
Qed.

(** ** From rows to texts. *)
Lemma legal_of_useful ss hand unseen x : says_all ss hand unseen x -> Forall (fun t => legal_kind (view t)) (ri_useful x).
Proof.
  intro A. apply Forall_forall. intros t T. destruct (proj1 (sa_useful _ _ _ _ A (view t)) (in_map view _ _ T)) as (s & n & _ & _ & _ & L & _). exact L.
Qed.
Lemma tile_names t : object t -> names (tile_str t) (view t).
Proof.
  intros O. destruct t as [n c|c]; cbn [object] in O; [left; reflexivity|]. right. cbn [view fst snd]. split; [reflexivity|]. split; [|reflexivity].
  exact O.
Qed.
Lemma insert_tile_in t l x : In x (insert_tile t l) <-> x = t \/ In x l.
Proof.
  induction l as [|y l IH]; cbn [insert_tile]; [cbn; intuition|]. destruct (tile_ltb t y); cbn [In]; [intuition|]. rewrite IH. intuition.
Qed.
Inductive kinds_up : list kind -> Prop :=
| up_nil : kinds_up []
| up_cons k l : (forall j, In j l -> kind_lt k j) -> kinds_up l -> kinds_up (k :: l).
Lemma insert_tile_up t l : kinds_up (map view l) -> ~ In (view t) (map view l) -> kinds_up (map view (insert_tile t l)).
Proof.
  induction l as [|y l IH]; intros K N; cbn [insert_tile map]; [constructor; [intros j []|constructor]|].
  cbn [map] in K. inversion K as [|? ? K1 K2]; subst. destruct (tile_ltb t y) eqn:E; cbn [map].
  - constructor; [|exact K]. intros j [<-|J]; [exact E|]. eapply kind_lt_trans; [exact E|]. now apply K1.
  - constructor; [|apply IH; [exact K2|intro X; apply N; now right]]. intros j J. apply in_map_iff in J. destruct J as (z & <- & Z).
    apply insert_tile_in in Z. destruct Z as [->|Z]; [|apply K1; now apply in_map].
    unfold tile_ltb in E. apply kind_ltb_false in E. destruct E as [E|E]; [|exact E]. exfalso. apply N. left. now symmetry.
Qed.
Lemma sorted_tiles_spec l : NoDup (map view l) -> kinds_up (map view (sorted_tiles l)) /\ forall x, In x (sorted_tiles l) <-> In x l.
Proof.
  intro N. unfold sorted_tiles.
  assert (G : forall l a, kinds_up (map view a) -> NoDup (map view (l ++ a)) ->
     kinds_up (map view (fold_left (fun a t => insert_tile t a) l a)) /\ forall x, In x (fold_left (fun a t => insert_tile t a) l a) <-> In x l \/ In x a).
  { clear. induction l as [|t l IH]; intros a K N; [split; [exact K|intro x; cbn; tauto]|]. cbn [fold_left]. cbn [app map] in N. inversion N as [|? ? N1 N2]; subst.
    destruct (IH (insert_tile t a)) as [A B].
    - apply insert_tile_up; [exact K|]. intro X. apply N1. rewrite map_app. apply in_or_app. now right.
    - assert (Pm : Permutation (l ++ insert_tile t a) (t :: l ++ a)).
      { transitivity (l ++ t :: a); [apply Permutation_app_head|symmetry; apply Permutation_middle].
        clear. induction a as [|y a IH]; cbn [insert_tile]; [reflexivity|]. destruct (tile_ltb t y); [reflexivity|].
        rewrite IH. apply perm_swap. }
      eapply Permutation_NoDup; [apply Permutation_map; symmetry; exact Pm|]. exact N.
    - split; [exact A|]. intro x. rewrite B, insert_tile_in. cbn [In]. intuition. }
  destruct (G l [] up_nil) as [A B]; [now rewrite app_nil_r|]. split; [exact A|]. intro x. rewrite B. cbn [In]. tauto.
Qed.
Lemma kinds_up_in_order l : kinds_up l -> in_order l.
Proof.
  intros K a b before between after ->. induction before as [|x before IH]; cbn [app] in K; inversion K as [|? ? K1 K2]; subst.
  - apply K1. apply in_or_app. right. now left.
  - now apply IH.
Qed.
Lemma norm_right ss hand unseen x : says_all ss hand unseen x -> object (ri_discard x) ->
  right_row ss hand (view (ri_discard x)) (sh_discard (norm x)) (sh_step (norm x)) (sh_useful (norm x)).
Proof.
  intros A O. cbn [norm sh_discard sh_step sh_useful]. split; [|split].
  - eexists. split; [reflexivity|]. now apply tile_names.
  - apply A.
  - destruct (sorted_tiles_spec _ (sa_nodup _ _ _ _ A)) as [K In']. exists (map view (sorted_tiles (ri_useful x))). split.
    + split; [now apply kinds_up_in_order|]. pose proof (sa_objects _ _ _ _ A) as Ob. rewrite Forall_forall in Ob.
      assert (Ob' : Forall object (sorted_tiles (ri_useful x))) by (apply Forall_forall; intros t T; apply Ob; now apply In').
      clear - Ob'. induction Ob' as [|t l Ot Ol IH]; cbn [map]; constructor; [now apply tile_names|exact IH].
    + intro j. rewrite <- (sa_useful _ _ _ _ A). rewrite !in_map_iff. split; intros (t & V & T); exists t; (split; [exact V|]); now apply In'.
Qed.
Lemma norm_count ss hand unseen x : NoDup unseen -> reds_useless hand (best_advances ss (without (hand_counts hand) (view (ri_discard x)))) -> says_all ss hand unseen x ->
  right_count ss hand (fun t => In (ITile t) unseen) (view (ri_discard x)) (ri_count x).
Proof.
  intros N nr A. exists (map view (ri_useful x)). split; [apply A|]. apply useful_plain; [exact N|exact (held_plain _ _ _ (sa_held _ _ _ _ A) (sa_useful _ _ _ _ A) nr)|eapply legal_of_useful; eassumption|apply A|apply A].
Qed.
Lemma best_adv_one s h j : best_advances [s] h j -> advances true s h j.
Proof. intros (s' & n & [<-|[]] & _ & _ & A). exact A. Qed.
Lemma useless_one s hand h : reds_useless hand (advances true s h) -> reds_useless hand (best_advances [s] h).
Proof. apply useless_mono. intro j. apply best_adv_one. Qed.
