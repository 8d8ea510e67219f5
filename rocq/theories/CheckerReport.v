(** The report as a whole. *)
From Coq Require Import String.
From Verif Require Import Base Category Tile TileSet Spec_Tile TileSetFacts Win Spec_Win WinFacts WinProofs Waiting Spec_Waiting WaitingFacts WaitingPM WaitingBrute WaitingHeur WaitingHeurTop WaitingSize Spec_Hand WaitingTop.
From Verif Require Import Parse Text Tenhou TenhouProofs Spec_Meld MeldProofs Prop_Meld Event State Spec_Log StateProofs Checker Spec_Checker CheckerProofs CheckerHand CheckerRows.
From Coq Require Import List ZArith QArith Lia Bool Permutation.
Import ListNotations.
Open Scope list_scope.
Open Scope Z_scope.

Lemma win_types_shapes m : win_types m = map pattern_of (shapes_for m).
Proof. unfold win_types, shapes_for. cbn [map pattern_of]. f_equal. now destruct (m =? 0). Qed.
Lemma shapes_size hand m H s : hand_facts hand H -> 0 <= m <= 4 -> Z.of_nat (length hand) = 14 - 3 * m -> In s (shapes_for m) ->
  usual_size s H /\ shape_tiles s < hand_size H + 1 /\ 1 < hand_size H.
Proof.
  intros HF M L Hs. unfold usual_size. rewrite (hf_size _ _ HF). unfold shapes_for in Hs. destruct Hs as [<-|Hs].
  - cbn [sane_shape shape_tiles]. lia.
  - destruct (Z.eqb_spec m 0) as [->|]; [|destruct Hs]. destruct Hs as [<-|[]]. cbn [sane_shape shape_tiles]. lia.
Qed.
Lemma shapes_exact (hand : list Z) m s : 0 <= m <= 4 -> Z.of_nat (length hand) = 14 - 3 * m -> In s (shapes_for m) ->
  shape_ok s /\ units_of s <= 34 /\ tiles_of s = Z.of_nat (length hand).
Proof.
  intros M L Hs. unfold shapes_for in Hs. destruct Hs as [<-|Hs].
  - cbn [shape_ok units_of tiles_of]. lia.
  - destruct (Z.eqb_spec m 0) as [->|]; [|destruct Hs]. destruct Hs as [<-|[]]. cbn [shape_ok units_of tiles_of]. lia.
Qed.
Lemma wins_counts s hand H : hand_facts hand H -> (wins s (face_count H) <-> wins s (hand_counts hand)).
Proof. intro HF. split; apply wins_ext; intro k; [|symmetry]; apply (hf_count _ _ HF). Qed.
Lemma keeps_counts s hand H k : hand_facts hand H -> (keeps_distance true s (face_count H) k <-> keeps_distance true s (hand_counts hand) k).
Proof. intro HF. split; apply keeps_ext; intro j; [|symmetry]; apply (hf_count _ _ HF). Qed.

Lemma positive_unseen unseen u n : useful_count unseen u = Ok n -> n <> 0 -> 0 < Z.of_nat (length unseen).
Proof.
  intros E N. destruct unseen as [|x l]; [|cbn [length]; lia]. exfalso. apply N. clear N. revert n E. induction u as [|t u IH]; intros n E.
  - apply Ok_inj in E. cbn in E. exact E.
  - rewrite useful_count_cons in E. destruct (copies [] t) as [a|] eqn:Ea; [|discriminate]. cbn [bindr] in E.
    destruct (useful_count [] u) as [b|]; [|discriminate]. cbn [bindr] in E. apply Ok_inj in E. subst n. rewrite (IH b eq_refl).
    unfold copies in Ea. destruct (tile_to_tenhou_range t) as [r|]; [|discriminate]. cbn [bindr] in Ea. apply Ok_inj in Ea. subst a.
    enough (Q : filter (fun n => inv_mem n []) (set_of r) = []) by (rewrite Q; reflexivity). generalize (set_of r). intro l. induction l; [reflexivity|exact IHl].
Qed.
Lemma wrong_rate_ok unseen best choice : 0 <= ri_step choice - ri_step best -> ri_count best <> 0 -> 0 < unseen ->
  wrong_rate unseen best choice = Ok (1 - inject_Z (ri_count choice) / (inject_Z (ri_count best) * inject_Z (unseen ^ (ri_step choice - ri_step best))))%Q.
Proof.
  intros S C U. unfold wrong_rate, py_pow. destruct (Z.leb_spec 0 (ri_step choice - ri_step best)) as [_|]; [|lia]. cbn [bindr].
  unfold py_div. rewrite <- inject_Z_mult. assert (P : ri_count best * unseen ^ (ri_step choice - ri_step best) <> 0).
  { pose proof (Z.pow_pos_nonneg unseen (ri_step choice - ri_step best)). nia. }
  destruct (Qeq_bool (inject_Z (ri_count best * unseen ^ (ri_step choice - ri_step best))) 0) eqn:E; [|reflexivity].
  apply Qeq_bool_iff in E. unfold Qeq in E. cbn in E. lia.
Qed.
Lemma wrong_rate_zero unseen best choice : 0 <= ri_step choice - ri_step best -> ri_count best = 0 ->
  wrong_rate unseen best choice = Err ZeroDivisionError.
Proof.
  intros S C. unfold wrong_rate, py_pow. destruct (Z.leb_spec 0 (ri_step choice - ri_step best)) as [_|]; [|lia]. cbn [bindr].
  unfold py_div. rewrite <- inject_Z_mult, C. cbn [Z.mul]. reflexivity.
Qed.

(** ** The merged rows. *)
Section Rows.
  Variables (hand : list Z) (H : tset) (m : Z) (unseen : list inv).
  Hypothesis HF : hand_facts hand H.
  Hypothesis HM : 0 <= m <= 4.
  Hypothesis HL : Z.of_nat (length hand) = 14 - 3 * m.

  Definition shape_rows (s : shape) (n : nat) (rows : list item) : Prop :=
    distance true s (hand_counts hand) n /\ one_win_reasoning H unseen (pattern_of s) = Ok rows /\
    NoDup (map (fun x => view (ri_discard x)) rows) /\
    (forall k, In k (map (fun x => view (ri_discard x)) rows) <-> keeps_distance true s (hand_counts hand) k) /\
    Forall (says s hand unseen n) rows /\ Forall (fun x => object (ri_discard x)) rows.
  Lemma shape_rows_exist s : In s (shapes_for m) -> exists n rows, shape_rows s n rows.
  Proof. intro Hs. apply one_win_rows; [exact HF|]. now apply (shapes_size hand m). Qed.
  Lemma distance_wins s n : distance true s (hand_counts hand) n -> (n = 0%nat <-> wins s (hand_counts hand)).
  Proof.
    intros [(add & La & _ & _ & W) L]. split.
    - intros ->. destruct add; [|discriminate]. eapply wins_ext; [|exact W]. intro k. apply plus_nil.
    - intro W'. enough (n <= 0)%nat by lia. apply L. exists []. split; [reflexivity|]. split; [constructor|]. split.
      + intros _ k. rewrite plus_nil. rewrite <- (hf_count _ _ HF). apply HF.
      + eapply wins_ext; [|exact W']. intro k. symmetry. apply plus_nil.
  Qed.
  Lemma shape_rows_nil s n rows : In s (shapes_for m) -> shape_rows s n rows -> (rows = [] <-> wins s (hand_counts hand)).
  Proof.
    intros Hs (D & _ & _ & K & _). destruct (shapes_exact hand m s HM HL Hs) as (A & B & C).
    pose proof (exact_discard s hand H HF A B C) as X. rewrite (wins_counts s hand H HF) in X. pose proof (distance_wins s n D) as Dw. split.
    - intros ->. destruct (Nat.eq_dec n 0) as [Z|Z]; [now apply Dw|]. exfalso.
      destruct (proj2 X (fun W => Z (proj2 Dw W))) as (k & Hk). apply (keeps_counts s hand H) in Hk; [|exact HF]. apply K in Hk. exact Hk.
    - intro W. destruct rows as [|x rows]; [reflexivity|]. exfalso. apply (proj1 X); [|exact W].
      exists (view (ri_discard x)). apply (keeps_counts s hand H); [exact HF|]. apply K. now left.
  Qed.
  Lemma best_exists_one s n : distance true s (hand_counts hand) n -> best_distance [s] (hand_counts hand) n.
  Proof. apply best_one. Qed.
  Lemma best_exists_two s1 s2 h n1 n2 : distance true s1 h n1 -> distance true s2 h n2 -> best_distance [s1; s2] h (Nat.min n1 n2).
  Proof.
    intros D1 D2. split.
    - destruct (le_lt_dec n1 n2).
      + exists s1. split; [now left|]. now replace (Nat.min n1 n2) with n1 by lia.
      + exists s2. split; [now right; left|]. now replace (Nat.min n1 n2) with n2 by lia.
    - intros s' k [<-|[<-|[]]] D'; [rewrite (distance_unique _ _ _ _ _ D' D1)|rewrite (distance_unique _ _ _ _ _ D' D2)]; lia.
  Qed.

  Lemma merge_each rows : Forall (fun x => useful_count unseen (ri_useful x) = Ok (ri_count x)) rows ->
    mapM (fun l => reasoning_merge l unseen) (map (fun x => [x]) rows) = Ok rows.
  Proof. induction 1 as [|x l E F IH]; [reflexivity|]. cbn [map mapM]. rewrite (merge_one _ _ E). cbn [bindr]. now rewrite IH. Qed.

  Lemma open_rows : m <> 0 -> exists n rows, shape_rows (Standard 1 (4 - m)) n rows /\
    merged_rows H unseen (map pattern_of (shapes_for m)) = Ok (sort_items rows).
  Proof.
    intro N0. assert (Es : shapes_for m = [Standard 1 (4 - m)]) by (unfold shapes_for; destruct (Z.eqb_spec m 0); [contradiction|reflexivity]).
    destruct (shape_rows_exist (Standard 1 (4 - m))) as (n & rows & R); [rewrite Es; now left|]. exists n, rows. split; [exact R|].
    rewrite Es. destruct R as (_ & E & _ & _ & Sy & _). unfold merged_rows. cbn [map mapM]. rewrite E. cbn [bindr]. rewrite zip_one, merge_each; [reflexivity|].
    eapply Forall_impl; [|exact Sy]. intros x X. apply X.
  Qed.
  Lemma closed_rows : m = 0 -> exists n1 rows1 n2 rows2 l, shape_rows (Standard 1 4) n1 rows1 /\ shape_rows (DistinctPairs 7) n2 rows2 /\
    Forall2 (fun xy z => reasoning_merge [fst xy; snd xy] unseen = Ok z) (combine rows1 rows2) l /\
    merged_rows H unseen (map pattern_of (shapes_for m)) = Ok (sort_items l).
  Proof.
    intro E0. assert (Es : shapes_for m = [Standard 1 4; DistinctPairs 7]) by (rewrite E0; reflexivity).
    destruct (shape_rows_exist (Standard 1 4)) as (n1 & rows1 & R1); [rewrite Es; now left|].
    destruct (shape_rows_exist (DistinctPairs 7)) as (n2 & rows2 & R2); [rewrite Es; now right; left|].
    destruct (mapM_total (fun l => reasoning_merge l unseen) (map (fun xy => [fst xy; snd xy]) (combine rows1 rows2))) as [l El].
    { intros z Z. apply in_map_iff in Z. destruct Z as ([x y] & <- & _). destruct (merge_two unseen x y) as (c & _ & E). eexists. exact E. }
    exists n1, rows1, n2, rows2, l. split; [exact R1|]. split; [exact R2|]. split.
    - apply mapM_Forall2 in El. clear - El. revert l El. induction (combine rows1 rows2) as [|xy r IH]; intros l F; inversion F; subst; constructor; auto.
    - rewrite Es. unfold merged_rows. destruct R1 as (_ & E1 & _), R2 as (_ & E2 & _). cbn [map mapM]. rewrite E1. cbn [bindr]. rewrite E2. cbn [bindr].
      rewrite zip_two, El. reflexivity.
  Qed.

  Lemma all_rows : exists l n, merged_rows H unseen (map pattern_of (shapes_for m)) = Ok (sort_items l) /\
    best_distance (shapes_for m) (hand_counts hand) n /\ (l = [] <-> complete hand m) /\
    Forall (fun x => ri_step x = Z.of_nat n - 1 /\ useful_count unseen (ri_useful x) = Ok (ri_count x)) l.
  Proof.
    destruct (Z.eq_dec m 0) as [E0|N0].
    - destruct (closed_rows E0) as (n1 & rows1 & n2 & rows2 & l & R1 & R2 & F & E). exists l, (Nat.min n1 n2). split; [exact E|].
      assert (Es : shapes_for m = [Standard 1 4; DistinctPairs 7]) by (rewrite E0; reflexivity).
      pose proof (shape_rows_nil _ _ _ ltac:(rewrite Es; now left) R1) as W1. pose proof (shape_rows_nil _ _ _ ltac:(rewrite Es; now right; left) R2) as W2.
      rewrite Es. split; [apply best_exists_two; [apply R1|apply R2]|]. split.
      + unfold complete. rewrite Es. split.
        * intros ->. inversion F as [Q|]; subst. destruct rows1 as [|x rows1]; [exists (Standard 1 4); split; [now left|now apply W1]|].
          destruct rows2 as [|y rows2]; [exists (DistinctPairs 7); split; [now right; left|now apply W2]|]. discriminate Q.
        * intros (s & [<-|[<-|[]]] & W); [apply W1 in W|apply W2 in W]; subst; [|destruct rows1]; inversion F; reflexivity.
      + destruct R1 as (_ & _ & _ & _ & S1 & _), R2 as (_ & _ & _ & _ & S2 & _). clear W1 W2 E. revert rows2 l F S2. induction S1 as [|x rows1 A1 B1 IH]; intros [|y rows2] l F S2; cbn [combine] in F; inversion F; subst; try constructor.
        * cbn [fst snd] in *. inversion S2; subst. destruct (merge_two unseen x y) as (c & Ec & Em). rewrite Em in H2. apply Ok_inj in H2. subst. cbn [ri_step ri_useful ri_count].
          split; [|exact Ec]. rewrite (sy_step _ _ _ _ _ A1), (sy_step _ _ _ _ _ H3). lia.
        * inversion S2; subst. eapply IH; eassumption.
    - destruct (open_rows N0) as (n & rows & R & E). exists rows, n. split; [exact E|].
      assert (Es : shapes_for m = [Standard 1 (4 - m)]) by (unfold shapes_for; destruct (Z.eqb_spec m 0); [contradiction|reflexivity]).
      pose proof (shape_rows_nil _ _ _ ltac:(rewrite Es; now left) R) as W. rewrite Es. split; [apply best_one, R|]. split.
      + rewrite W. unfold complete. rewrite Es. split; [intro; eexists; split; [now left|assumption]|]. intros (s & [<-|[]] & X). exact X.
      + destruct R as (_ & _ & _ & _ & S1 & _). eapply Forall_impl; [|exact S1]. intros x X. split; apply X.
  Qed.

  Lemma choice_all tt : 0 < hand_counts hand (view tt) -> object tt -> held hand tt ->
    exists c, choice_row (re_sort H) unseen tt (map pattern_of (shapes_for m)) = Ok c /\ ri_discard c = tt /\ says_all (shapes_for m) hand unseen c.
  Proof.
    intros P O Pl. pose proof (re_sort_facts _ _ HF) as HF'. rewrite <- (hf_count _ _ HF') in P.
    assert (G : forall s, In s (shapes_for m) -> exists n x, reasoning_discards (re_sort H) unseen tt (pattern_of s) = Ok x /\ ri_discard x = tt /\ says s hand unseen n x).
    { intros s Hs. destruct (shapes_size hand m (re_sort H) s HF' HM HL Hs) as (A & B & C). now apply choice_item. }
    destruct (Z.eq_dec m 0) as [E0|N0].
    - assert (Es : shapes_for m = [Standard 1 4; DistinctPairs 7]) by (rewrite E0; reflexivity). rewrite Es in *.
      destruct (G (Standard 1 4)) as (n1 & x & E1 & D1 & S1); [now left|]. destruct (G (DistinctPairs 7)) as (n2 & y & E2 & D2 & S2); [now right; left|].
      destruct (merge_two unseen x y) as (c & _ & Em). eexists. unfold choice_row. cbn [map mapM]. rewrite E1. cbn [bindr]. rewrite E2. cbn [bindr]. split; [exact Em|].
      destruct (says_two _ _ _ _ _ _ _ _ _ S1 S2 ltac:(congruence) Em) as [A B]. split; [now rewrite A|exact B].
    - assert (Es : shapes_for m = [Standard 1 (4 - m)]) by (unfold shapes_for; destruct (Z.eqb_spec m 0); [contradiction|reflexivity]). rewrite Es in *.
      destruct (G (Standard 1 (4 - m))) as (n1 & x & E1 & D1 & S1); [now left|]. exists x. unfold choice_row. cbn [map mapM]. rewrite E1. cbn [bindr].
      split; [apply merge_one, S1|]. split; [exact D1|]. eapply says_one; eassumption.
  Qed.

  Lemma without_farther k n n' : 0 < hand_counts hand k -> best_distance (shapes_for m) (hand_counts hand) n ->
    best_distance (shapes_for m) (without (hand_counts hand) k) n' -> (n <= n')%nat.
  Proof.
    intros P [_ L] [(s & Hs & D) _].
    destruct (shapes_exact hand m s HM HL Hs) as (A & B & C).
    destruct (distance_exists true s (getk H)) as (n0 & D0); [apply okl_okh; split; [apply HF|intros _; apply HF]|exact A|exact B|].
    assert (D1 : distance true s (face_count H) n0) by (eapply distance_ext; [|exact D0]; intro j; now apply hand_ok_fc, HF).
    rewrite <- (hf_count _ _ HF) in P. destruct k as [c i].
    destruct (distance_remove true s H (Plain i c) n0 (hf_ok _ _ HF) (fun _ => hf_four _ _ HF) P D1) as (n1 & D2 & Q).
    destruct (remove_tile_fc H (Plain i c) (hf_ok _ _ HF) P) as [_ Fc].
    assert (n1 = n').
    { eapply distance_unique; [|exact D]. eapply distance_ext; [|exact D2]. intro j. rewrite Fc. apply without_ext. apply (hf_count _ _ HF). }
    subst n1. assert (X : (n <= n0)%nat); [|lia]. apply (L s); [exact Hs|]. eapply distance_ext; [|exact D1]. apply (hf_count _ _ HF).
  Qed.
End Rows.

Section Report.
  Variables (e : event) (hand : list Z) (n p : Z) (inv0 : list inv) (melds : list meld) (t : Z).
  Let m := meld_count melds.
  Let unseen := inv_minus inv0 hand.
  Hypothesis HD : to_discard hand m t.
  Hypothesis HP : seat p.
  Hypothesis HW : writes (Discard p t) e.
  Hypothesis HM : Forall (fun x => Forall valid_tile (m_self x ++ m_borrowed x)) melds.

  Definition meld_texts (melds : list meld) : res (list (list text)) :=
    mapM (fun m => mapM (fun x => do t <- tile_from_tenhou x; Ok (tile_str t)) (m_self m ++ m_borrowed m)) melds.
  Lemma meld_texts_ok : exists l, meld_texts melds = Ok l.
  Proof.
    apply mapM_total. intros x X. apply mapM_total. intros y Y. rewrite Forall_forall in HM. specialize (HM x X). rewrite Forall_forall in HM.
    destruct (C05_tile_of_number y (HM y Y)) as (k & -> & _). cbn [bindr]. eauto.
  Qed.

  Lemma report_form : exists H tt ms, hand_facts hand H /\ hand_tiles hand = Ok H /\ tile_from_tenhou t = Ok tt /\ view tt = face t /\ object tt /\ held hand tt /\
    meld_texts melds = Ok ms /\
    discard_reasoning e (SHand p hand) (SInvisible n (Some inv0)) p (SMeld p melds) =
    do merged <- merged_rows H unseen (map pattern_of (shapes_for m));
    do expected <- first_group merged;
    do choice <- choice_row (re_sort H) unseen tt (map pattern_of (shapes_for m));
    do best <- py_nth expected 0;
    do wrong <- wrong_rate (Z.of_nat (length unseen)) best choice;
    Ok (mkRound (map tile_str (tiles (re_sort H))) ms (norm choice) (map norm expected) (map norm merged) wrong false []).
  Proof.
    destruct HD as (N & V & M & L & It). destruct (hand_tiles_facts hand N V) as (H & E & HF).
    pose proof (proj1 (Forall_forall _ _) V t It) as Vt. destruct (C05_tile_of_number t Vt) as (tt & Et & Lt & Vw & R).
    destruct meld_texts_ok as [ms Ems].
    exists H, tt, ms. split; [exact HF|]. split; [exact E|]. split; [exact Et|]. split; [exact Vw|]. split; [destruct tt; [exact I|exact Lt]|].
    split.
    { exact (held_of hand t tt It Vw R). }
    split; [exact Ems|].
    unfold discard_reasoning. cbn [hand_value invisible_value meld_value opt_minus bindr]. fold unseen. rewrite E. cbn [bindr].
    fold m. rewrite win_types_shapes. destruct (merged_rows H unseen (map pattern_of (shapes_for m))) as [merged|]; [|reflexivity]. cbn [bindr].
    destruct (first_group merged) as [expected|]; [|reflexivity]. cbn [bindr].
    assert (Ei : discard_tile_index p e = Ok t).
    { unfold discard_tile_index. rewrite (discard_match_eq p (Discard p t) e HP (conj HP Vt) HW). rewrite Z.eqb_refl. cbn [bindr].
      f_equal. apply str_int_nonneg. unfold valid_tile in Vt. lia. }
    rewrite Ei. cbn [bindr]. rewrite Et. cbn [bindr]. destruct (choice_row (re_sort H) unseen tt (map pattern_of (shapes_for m))) as [choice|]; [|reflexivity]. cbn [bindr].
    destruct (py_nth expected 0) as [best|]; [|reflexivity]. cbn [bindr]. destruct (wrong_rate (Z.of_nat (length unseen)) best choice) as [w|]; [|reflexivity]. cbn [bindr].
    unfold meld_texts in Ems. rewrite Ems. reflexivity.
  Qed.

  Definition report := discard_reasoning e (SHand p hand) (SInvisible n (Some inv0)) p (SMeld p melds).
  Lemma face_count_pos : 0 < hand_counts hand (face t).
  Proof.
    destruct HD as (_ & _ & _ & _ & It). unfold hand_counts, count_kind. clear - It. induction hand as [|x l IH]; [destruct It|].
    cbn [map sumZ]. assert (Nn : 0 <= sumZ (fun x => if same_kind x (face t) then 1 else 0) (map face l)).
    { apply sumZ_nonneg. intro y. destruct (same_kind y (face t)); lia. }
    destruct It as [->|It].
    - rewrite same_kind_eqb, (proj2 (kind_eqb_eq _ _) eq_refl). lia.
    - specialize (IH It). destruct (same_kind (face x) (face t)); lia.
  Qed.
  Lemma report_outcome : exists H tt ms l d choice, hand_facts hand H /\ hand_tiles hand = Ok H /\
    tile_from_tenhou t = Ok tt /\ view tt = face t /\ object tt /\ meld_texts melds = Ok ms /\
    merged_rows H unseen (map pattern_of (shapes_for m)) = Ok (sort_items l) /\
    best_distance (shapes_for m) (hand_counts hand) d /\ (l = [] <-> complete hand m) /\
    Forall (fun x => ri_step x = Z.of_nat d - 1 /\ useful_count unseen (ri_useful x) = Ok (ri_count x)) l /\
    ri_discard choice = tt /\ says_all (shapes_for m) hand unseen choice /\ Z.of_nat d - 1 <= ri_step choice /\
    (complete hand m -> report = Err StopIteration) /\
    (forall best rest, sort_items l = best :: rest ->
       (ri_count best = 0 -> report = Err ZeroDivisionError) /\
       (ri_count best <> 0 -> exists g, first_group (best :: rest) = Ok g /\
          report = Ok (mkRound (map tile_str (tiles (re_sort H))) ms (norm choice) (map norm g) (map norm (best :: rest))
            (1 - inject_Z (ri_count choice) / (inject_Z (ri_count best) * inject_Z (Z.of_nat (length unseen) ^ (ri_step choice - ri_step best))))%Q false []))).
  Proof.
    destruct report_form as (H & tt & ms & HF & EH & Et & Vt & Ot & Pt & Em & R). fold report in R.
    pose proof HD as (N & V & M & L & It).
    destruct (all_rows hand H m unseen HF M L) as (l & d & El & Bd & Nl & Fl).
    destruct (choice_all hand H m unseen HF M L tt) as (choice & Ec & Dc & Sc); [rewrite Vt; apply face_count_pos|exact Ot|exact Pt|].
    assert (St : Z.of_nat d - 1 <= ri_step choice).
    { destruct (sa_step _ _ _ _ Sc) as (d' & B' & ->). pose proof (without_farther hand H m HF M L (face t) d d' face_count_pos Bd) as X.
      rewrite Dc, Vt in B'. specialize (X B'). lia. }
    exists H, tt, ms, l, d, choice. do 13 (split; [assumption|]). split.
    - intro C. apply Nl in C. subst l. rewrite R, El. reflexivity.
    - intros best rest Eb. rewrite El in R. cbn [bindr] in R. rewrite Eb in R.
      assert (Ib : In best l) by (eapply Permutation_in; [symmetry; apply sort_items_perm|]; rewrite Eb; now left).
      rewrite Forall_forall in Fl. destruct (Fl best Ib) as [Sb Cb].
      unfold first_group in R at 1. cbn [bindr] in R. rewrite Ec in R. cbn [bindr] in R.
      assert (Eg : take_key (key_of best) (best :: rest) = best :: take_key (key_of best) rest).
      { cbn [take_key]. now rewrite (proj2 (key_eqb_iff _ _) eq_refl). }
      rewrite Eg in R. change (py_nth (best :: take_key (key_of best) rest) 0) with (Ok best) in R. cbn [bindr] in R. split.
      + intro Z. rewrite R, wrong_rate_zero; [reflexivity|lia|exact Z].
      + intro Z. exists (best :: take_key (key_of best) rest). split; [unfold first_group; now rewrite Eg|].
        rewrite R, wrong_rate_ok; [reflexivity|lia|exact Z|]. eapply positive_unseen; [exact Cb|exact Z].
  Qed.
End Report.
