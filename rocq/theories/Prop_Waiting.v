(** C17-C24: distance from winning and useful tiles. Final statements. *)
From Verif Require Import Base Tile TileSet Spec_Tile TileSetFacts Win Spec_Win WinFacts WinProofs Waiting Spec_Waiting WaitingFacts WaitingPM WaitingBrute WaitingHeur WaitingHeurTop WaitingSize Spec_Hand WaitingTop.
From Coq Require Import List ZArith Lia Bool.
Import ListNotations.
Open Scope Z_scope.

(** 13 tiles: 11123m 40p 678s 555z with a red five of circles and two zero entries. *)
Definition ex13 : tset :=
  [(Plain 1 Cm, 3); (Plain 2 Cm, 1); (Plain 3 Cm, 1); (Plain 4 Cp, 1); (Aka Cp, 1); (Plain 6 Cp, 0);
   (Plain 6 Cs, 1); (Plain 7 Cs, 1); (Plain 8 Cs, 1); (Plain 5 Cz, 3); (Plain 3 Cz, 0)].
Lemma ex13_ok : hand_ok ex13 /\ four_max ex13 /\ usual_size (Standard 1 4) ex13.
Proof.
  split; [split; [repeat constructor; cbn; intuition congruence|repeat constructor; cbn; lia]|].
  split; [|repeat split; vm_compute; congruence].
  assert (Q : forallb (fun k => face_count ex13 k <=? 4) KINDS = true) by (vm_compute; reflexivity).
  assert (H : hand_ok ex13) by (split; [repeat constructor; cbn; intuition congruence|repeat constructor; cbn; lia]).
  intros k. destruct (Z_le_gt_dec (face_count ex13 k) 0) as [L|L]; [lia|].
  rewrite <- hand_ok_fc in L by auto. destruct (getk_nonzero_in ex13 k) as (x & V & I); [lia|].
  destruct (hand_ok_good _ H) as (_ & Lk & _). unfold legal_keys in Lk. rewrite Forall_forall in Lk.
  rewrite forallb_forall in Q. specialize (Q k). apply Z.leb_le, Q. apply KINDS_legal. rewrite <- V. apply Lk.
  apply in_map_iff. eexists. split; [|exact I]. reflexivity.
Qed.

(** C17. The loop stops exactly at the least number of added tiles. *)
Theorem C17_brute_minimum : forall s hand v, hand_ok hand -> four_max hand ->
  (returns (fun fuel => brute_step fuel (pattern_of s) hand true) v <->
   exists n, distance true s (face_count hand) n /\ v + 1 = Z.of_nat n).
Proof.
  intros s hand v H F. rewrite brute_step_iff by auto.
  split; intros (n & A & B); exists n; (split; [try assumption; lia | try assumption; lia]).
Qed.
Example C17_example : returns (fun f => brute_step f (NormalTypeWin 1 4) ex13 true) 0 /\
  distance true (Standard 1 4) (face_count ex13) 1.
Proof.
  destruct ex13_ok as (H & F & S).
  assert (Q : h_step (pattern_of (Standard 1 4)) ex13 true = Ok 0) by (vm_compute; reflexivity).
  apply h_step_iff in Q; auto. destruct Q as (n & E & D & _). replace n with 1%nat in D by lia.
  split; auto. apply (C17_brute_minimum (Standard 1 4)); auto. exists 1%nat. split; [auto|reflexivity].
Qed.

(** C18. Both values of the flag. *)
Theorem C18_pattern_match_minimum : forall s hand ig v, hand_ok hand -> (ig = true -> four_max hand) ->
  (returns (fun fuel => pm_step fuel (pattern_of s) hand ig) v <->
   exists n, distance ig s (face_count hand) n /\ v + 1 = Z.of_nat n).
Proof.
  intros s hand ig v H F. rewrite pm_step_iff by auto.
  split; intros (n & A & B); exists n; (split; [try assumption; lia | try assumption; lia]).
Qed.
(** Four tiles 1m: without the limit one more 1m completes 111m 11m, with it two tiles are needed. *)
Definition ex_1111 : tset := [(Plain 1 Cm, 4)].
Example C18_example : hand_ok ex_1111 /\
  pm_step 5 (NormalTypeWin 1 1) ex_1111 false = Ok 0 /\ pm_step 5 (NormalTypeWin 1 1) ex_1111 true = Ok 1 /\
  pm_step 5 (NormalTypeWin 2 0) ex_1111 true = Ok (-1) /\ pm_step 5 (UniquePairs 2 []) ex_1111 true = Ok 1.
Proof.
  split; [split; [repeat constructor; cbn; intuition congruence|repeat constructor; cbn; lia]|].
  repeat split; vm_compute; reflexivity.
Qed.

(** C19. The staged search with a mutable bound. *)
Theorem C19_heuristic_minimum : forall s hand ig, hand_ok hand -> (ig = true -> four_max hand) -> usual_size s hand ->
  exists n, h_step (pattern_of s) hand ig = Ok (Z.of_nat n - 1) /\ distance ig s (face_count hand) n.
Proof. exact h_step_min. Qed.
(** For hands of any size: a value is returned exactly when the distance does not exceed
    the number of tiles held. *)
Theorem C19_heuristic_any_size : forall s hand ig v, hand_ok hand -> (ig = true -> four_max hand) ->
  (h_step (pattern_of s) hand ig = Ok v <->
   exists n, v = Z.of_nat n - 1 /\ distance ig s (face_count hand) n /\ Z.of_nat n <= hand_size hand).
Proof. exact h_step_iff. Qed.
Theorem C19_usual_sizes : forall m hand, 0 <= m <= 33 ->
  (hand_size hand = 3 * m + 1 \/ hand_size hand = 3 * m + 2 -> usual_size (Standard 1 m) hand) /\
  (hand_size hand = 13 \/ hand_size hand = 14 -> usual_size (DistinctPairs 7) hand).
Proof. intros m hand Hm. unfold usual_size. cbn [sane_shape shape_tiles]. split; intros; lia. Qed.
Example C19_example : hand_ok ex13 /\ four_max ex13 /\ usual_size (Standard 1 4) ex13 /\
  h_step (NormalTypeWin 1 4) ex13 true = Ok 0 /\ h_step (UniquePairs 7 []) ex13 true = Ok 4.
Proof.
  destruct ex13_ok as (H & F & S). split; [auto|split; [auto|split; [auto|]]].
  split; vm_compute; reflexivity.
Qed.

(** C20. *)
Theorem C20_useful_brute : forall s hand n, hand_ok hand -> four_max hand -> distance true s (face_count hand) n ->
  exists ts, returns (fun fuel => brute_useful fuel (pattern_of s) hand true) ts /\ NoDup (faces ts) /\
    forall k, In k (faces ts) <-> advances true s (face_count hand) k.
Proof. exact brute_useful_spec. Qed.
Theorem C20_useful_pattern_match : forall s hand ig n, hand_ok hand -> (ig = true -> four_max hand) ->
  distance ig s (face_count hand) (S n) ->
  exists ts, returns (fun fuel => pm_useful fuel (pattern_of s) hand ig) ts /\ NoDup (faces ts) /\
    forall k, In k (faces ts) <-> advances ig s (face_count hand) k.
Proof.
  intros s hand ig n H F D. destruct (pm_both_spec s hand ig n H F D) as (ts & [f0 R] & N & K).
  exists ts. split; [|split; auto]. exists f0. intros fuel Hf. unfold pm_useful. now rewrite (R fuel Hf).
Qed.
Theorem C20_useful_heuristic : forall s hand, hand_ok hand -> four_max hand -> usual_size s hand ->
  exists ts, h_useful (pattern_of s) hand true = Ok ts /\ NoDup (faces ts) /\
    forall k, In k (faces ts) <-> advances true s (face_count hand) k.
Proof.
  intros s hand H F S. destruct (h_both_spec s hand H F S) as (n & ts & D & E & N & K).
  exists ts. split; [unfold h_useful; now rewrite E|]. split; auto.
Qed.
Example C20_example : hand_ok ex13 /\ four_max ex13 /\ usual_size (Standard 1 4) ex13 /\
  h_useful (NormalTypeWin 1 4) ex13 true = Ok [Plain 3 Cp; Plain 6 Cp] /\
  distance true (Standard 1 4) (face_count ex13) 1.
Proof.
  destruct ex13_ok as (H & F & S). split; [auto|split; [auto|split; [auto|]]].
  split; [vm_compute; reflexivity|apply C17_example].
Qed.

(** C21. The full claim, for the default flag. *)
Definition C21_full : Prop := forall s hand, hand_ok hand -> four_max hand -> usual_size s hand ->
  exists v a b c,
    returns (fun fuel => brute_both fuel (pattern_of s) hand true) (v, a) /\
    returns (fun fuel => pm_both fuel (pattern_of s) hand true) (v, b) /\
    h_both (pattern_of s) hand true = Ok (v, c) /\
    (forall k, In k (faces a) <-> In k (faces b)) /\ (forall k, In k (faces b) <-> In k (faces c)).
(** It holds for every hand that does not already win ... *)
Theorem C21_agree_partial : forall s hand, hand_ok hand -> four_max hand -> usual_size s hand ->
  ~ wins s (face_count hand) ->
  exists v a b c,
    returns (fun fuel => brute_both fuel (pattern_of s) hand true) (v, a) /\
    returns (fun fuel => pm_both fuel (pattern_of s) hand true) (v, b) /\
    h_both (pattern_of s) hand true = Ok (v, c) /\
    (forall k, In k (faces a) <-> In k (faces b)) /\ (forall k, In k (faces b) <-> In k (faces c)).
Proof.
  intros s hand H F S W. destruct (h_both_spec s hand H F S) as (n & c & D & E & _ & K).
  destruct n as [|n].
  { exfalso. apply W. destruct D as [(add & L & _ & _ & Wn) _]. destruct add; [|discriminate].
    destruct Wn as (us & A & B). exists us. split; auto. intros k. specialize (B k). unfold plus in B.
    change (count_kind k []) with 0 in B. lia. }
  destruct (brute_both_spec s hand _ H F D) as (a & Ra & _ & Ka).
  destruct (pm_both_spec s hand true n H ltac:(auto) D) as (b & Rb & _ & Kb).
  replace (Z.of_nat (Datatypes.S n) - 1) with (Z.of_nat n) in * by lia.
  exists (Z.of_nat n), a, b, c. split; [auto|split; [auto|split; [auto|split]]].
  - intros k. now rewrite Ka, Kb.
  - intros k. now rewrite Kb, K.
Qed.
(** ... the step alone agrees on every hand ... *)
Theorem C21_steps_agree : forall s hand, hand_ok hand -> four_max hand -> usual_size s hand ->
  exists v, returns (fun fuel => brute_step fuel (pattern_of s) hand true) v /\
    returns (fun fuel => pm_step fuel (pattern_of s) hand true) v /\ h_step (pattern_of s) hand true = Ok v.
Proof.
  intros s hand H F S. destruct (h_step_min s hand true H ltac:(auto) S) as (n & E & D).
  exists (Z.of_nat n - 1). split; [|split; [|auto]].
  - apply brute_step_iff; eauto.
  - apply pm_step_iff; eauto.
Qed.
(** ... but on every complete hand the first and the last answer -1 with no useful tile and
    PatternMatchWaiting answers something else (or nothing). *)
Theorem C21_refuted : forall s hand, hand_ok hand -> four_max hand -> usual_size s hand ->
  wins s (face_count hand) ->
  returns (fun fuel => brute_both fuel (pattern_of s) hand true) (-1, []) /\
  h_both (pattern_of s) hand true = Ok (-1, []) /\
  forall v ts, returns (fun fuel => pm_both fuel (pattern_of s) hand true) (v, ts) -> 0 <= v /\ ts <> [].
Proof.
  intros s hand H F S W. assert (Z0 : distance true s (face_count hand) 0).
  { split; [|intros; lia]. exists []. split; [auto|split; [auto|split]].
    - intros _ k. unfold plus, count_kind. cbn [sumZ]. specialize (F k). lia.
    - destruct W as (us & A & B). exists us. split; auto. intros k. specialize (B k). unfold plus.
      change (count_kind k []) with 0. lia. }
  assert (NA : forall k, ~ advances true s (face_count hand) k).
  { intros k (_ & _ & m & D & _). pose proof (distance_unique _ _ _ _ _ D Z0). lia. }
  assert (Nil : forall ts : list tile, (forall k, In k (faces ts) <-> advances true s (face_count hand) k) -> ts = []).
  { intros [|t r] K; auto. exfalso. apply (NA (view t)), K. left. auto. }
  split; [|split].
  - destruct (brute_both_spec s hand _ H F Z0) as (a & Ra & _ & Ka). now rewrite (Nil a Ka) in Ra.
  - destruct (h_both_spec s hand H F S) as (n & c & D & E & _ & K).
    rewrite (distance_unique _ _ _ _ _ D Z0) in E. now rewrite (Nil c K) in E.
  - intros v ts [f0 R]. eapply pm_both_complete_hand; eauto.
Qed.
Definition ex_11 : tset := [(Plain 1 Cm, 2)].
Lemma ex_11_ok : hand_ok ex_11 /\ four_max ex_11 /\ usual_size (Standard 1 0) ex_11 /\ wins (Standard 1 0) (face_count ex_11).
Proof.
  split; [split; [repeat constructor; cbn; intuition congruence|repeat constructor; cbn; lia]|].
  split; [intros k; unfold face_count, ex_11; cbn [sumZ fst snd]; destruct (same_kind _ _); lia|].
  split; [repeat split; vm_compute; congruence|].
  exists [UPair (Cm, 1)]. split.
  - split; [repeat constructor; cbn; lia|split; reflexivity].
  - intros k. unfold uses, count_kind, face_count, ex_11. cbn [flat_map unit_kinds app sumZ fst snd view].
    destruct (same_kind _ _); lia.
Qed.
Theorem C21_full_refuted : ~ C21_full.
Proof.
  intros C. destruct ex_11_ok as (H & F & S & W). destruct (C _ _ H F S) as (v & a & b & c & _ & R & E & _).
  destruct (C21_refuted _ _ H F S W) as (_ & E' & P). rewrite E in E'. inversion E'; subst v.
  destruct (P _ _ R). lia.
Qed.
Example C21_example_partial : hand_ok ex13 /\ four_max ex13 /\ usual_size (Standard 1 4) ex13 /\
  ~ wins (Standard 1 4) (face_count ex13) /\ h_both (NormalTypeWin 1 4) ex13 true = Ok (0, [Plain 3 Cp; Plain 6 Cp]).
Proof.
  destruct ex13_ok as (H & F & S). split; [auto|split; [auto|split; [auto|split]]].
  - intros W. destruct (C21_refuted _ _ H F S W) as (_ & E & _). vm_compute in E. discriminate.
  - vm_compute; reflexivity.
Qed.

(** C22. *)
Theorem C22_batch : forall s hand, hand_ok hand -> four_max hand -> usual_size s hand ->
  exists n rows, distance true s (face_count hand) n /\
    h_batch (pattern_of s) hand true = Ok rows /\
    NoDup (map (fun r => view (fst (fst r))) rows) /\
    (forall k, In k (map (fun r => view (fst (fst r))) rows) <-> keeps_distance true s (face_count hand) k) /\
    (forall t step useful, In (t, step, useful) rows -> step = Z.of_nat n - 1 /\
       forall j, In j (faces useful) <-> advances true s (without (face_count hand) (view t)) j).
Proof. exact h_batch_spec. Qed.
Definition ex5 : tset := [(Plain 1 Cm, 2); (Plain 4 Cp, 1); (Aka Cp, 1); (Plain 3 Cz, 1)].
Example C22_example : hand_ok ex5 /\ four_max ex5 /\ usual_size (Standard 1 1) ex5 /\
  h_batch (NormalTypeWin 1 1) ex5 true =
  Ok [(Plain 3 Cz, 0, [Plain 3 Cp; Plain 6 Cp])].
Proof.
  assert (H : hand_ok ex5) by (split; [repeat constructor; cbn; intuition congruence|repeat constructor; cbn; lia]).
  split; [auto|]. split.
  - assert (Q : forallb (fun k => face_count ex5 k <=? 4) KINDS = true) by (vm_compute; reflexivity).
    intros k. destruct (Z_le_gt_dec (face_count ex5 k) 0) as [L|L]; [lia|].
    rewrite <- hand_ok_fc in L by auto. destruct (getk_nonzero_in ex5 k) as (x & V & I); [lia|].
    destruct (hand_ok_good _ H) as (_ & Lk & _). unfold legal_keys in Lk. rewrite Forall_forall in Lk.
    rewrite forallb_forall in Q. specialize (Q k). apply Z.leb_le, Q. apply KINDS_legal. rewrite <- V. apply Lk.
    apply in_map_iff. eexists. split; [|exact I]. reflexivity.
  - split; [repeat split; vm_compute; congruence|vm_compute; reflexivity].
Qed.

(** C23. The full claim. *)
Definition C23_full : Prop := forall s hand ig, hand_ok hand -> four_max hand -> usual_size s hand ->
  (exists v, returns (fun fuel => brute_step fuel (pattern_of s) hand ig) v) /\
  (exists v, returns (fun fuel => pm_step fuel (pattern_of s) hand ig) v) /\
  (exists v, h_step (pattern_of s) hand ig = Ok v).
(** BruteForceWaiting with [ignore_4counts=False] never returns on a hand that does not win. *)
Theorem C23_refuted : forall s hand, hand_ok hand -> ~ wins s (face_count hand) ->
  diverges (fun fuel => brute_step fuel (pattern_of s) hand false).
Proof.
  intros s hand H W fuel. apply brute_step_diverges.
  destruct (match_ (pattern_of s) hand) eqn:E; auto. exfalso. apply W.
  apply match_iff in E; [|now apply hand_ok_good]. destruct E as (us & A & B). exists us.
  split; [now apply sh_forms|]. intros k. rewrite <- hand_ok_fc by auto. apply B.
Qed.
Theorem C23_full_refuted : ~ C23_full.
Proof.
  intros C. destruct ex13_ok as (H & F & S). destruct (C _ _ false H F S) as ((v & f0 & R) & _).
  assert (W : ~ wins (Standard 1 4) (face_count ex13)) by apply C21_example_partial.
  pose proof (C23_refuted _ _ H W f0) as D. cbv beta in D. rewrite R in D by lia. discriminate.
Qed.
(** Everything else returns. The step of the first two needs no bound on the hand. *)
Theorem C23_returns_partial : forall s hand, sane_shape s -> hand_ok hand ->
  (four_max hand -> exists v, returns (fun fuel => brute_step fuel (pattern_of s) hand true) v) /\
  (forall ig, (ig = true -> four_max hand) -> exists v, returns (fun fuel => pm_step fuel (pattern_of s) hand ig) v) /\
  (forall ig, (ig = true -> four_max hand) -> usual_size s hand -> exists v, h_step (pattern_of s) hand ig = Ok v).
Proof.
  intros s hand Sn H.
  assert (Dx : forall ig, (ig = true -> four_max hand) -> exists n, distance ig s (face_count hand) n).
  { intros ig F. assert (O : okl ig hand) by (split; auto).
    destruct (distance_exists ig s (getk hand) (okl_okh _ _ O)) as (n & D); [destruct s; cbn in *; lia|destruct s; cbn in *; lia|].
    exists n. now apply dist_fc. }
  split; [|split].
  - intros F. destruct (Dx true ltac:(auto)) as (n & D). exists (Z.of_nat n - 1). apply brute_step_iff; eauto.
  - intros ig F. destruct (Dx ig F) as (n & D). exists (Z.of_nat n - 1). apply pm_step_iff; eauto.
  - intros ig F S. destruct (h_step_min s hand ig H F S) as (n & E & _). eauto.
Qed.
(** HeuristicPatternMatchWaiting raises ValueError on a hand smaller than its distance. *)
Example C23_small_hand : h_step (NormalTypeWin 1 4) [(Plain 1 Cm, 1)] true = Err ValueError.
Proof. vm_compute. reflexivity. Qed.

(** C24. Drawing a tile. *)
Theorem C24_draw_distance : forall lim s hand t n, hand_ok hand -> (lim = true -> four_max hand) ->
  legal_kind (view t) -> (lim = true -> face_count hand (view t) < 4) ->
  distance lim s (face_count hand) n ->
  exists n', distance lim s (face_count (ts_add hand (of_tiles [t]))) n' /\
    (n = n' \/ n = S n') /\ (n = S n' <-> advances lim s (face_count hand) (view t)).
Proof. exact distance_add. Qed.
Theorem C24_draw_pattern_match : forall s hand ig t v, hand_ok hand -> (ig = true -> four_max hand) ->
  legal_kind (view t) -> (ig = true -> face_count hand (view t) < 4) ->
  returns (fun fuel => pm_step fuel (pattern_of s) hand ig) v ->
  exists v', returns (fun fuel => pm_step fuel (pattern_of s) (ts_add hand (of_tiles [t])) ig) v' /\
    (v' = v \/ v' = v - 1) /\ (v' = v - 1 <-> advances ig s (face_count hand) (view t)).
Proof.
  intros s hand ig t v H F L C R. apply pm_step_iff in R; auto. destruct R as (n & -> & D).
  destruct (distance_add ig s hand t n H F L C D) as (n' & D' & A & B). destruct (add_tile_fc hand t H L) as [H' E].
  exists (Z.of_nat n' - 1). split.
  - apply pm_step_iff; eauto. intros Hl k. rewrite E, plus_one.
    destruct (kind_eqb (view t) k) eqn:Q; [apply kind_eqb_eq in Q; subst k; specialize (C Hl); lia|specialize (F Hl k); lia].
  - split; [lia|]. rewrite <- B. lia.
Qed.
Theorem C24_draw_brute : forall s hand t v, hand_ok hand -> four_max hand ->
  legal_kind (view t) -> face_count hand (view t) < 4 ->
  returns (fun fuel => brute_step fuel (pattern_of s) hand true) v ->
  exists v', returns (fun fuel => brute_step fuel (pattern_of s) (ts_add hand (of_tiles [t])) true) v' /\
    (v' = v \/ v' = v - 1) /\ (v' = v - 1 <-> advances true s (face_count hand) (view t)).
Proof.
  intros s hand t v H F L C R. apply brute_step_iff in R; auto. destruct R as (n & -> & D).
  destruct (distance_add true s hand t n H ltac:(auto) L ltac:(auto) D) as (n' & D' & A & B). destruct (add_tile_fc hand t H L) as [H' E].
  exists (Z.of_nat n' - 1). split.
  - apply brute_step_iff; eauto. intros k. rewrite E, plus_one.
    destruct (kind_eqb (view t) k) eqn:Q; [apply kind_eqb_eq in Q; subst k; lia|specialize (F k); lia].
  - split; [lia|]. rewrite <- B. lia.
Qed.
Theorem C24_draw_heuristic : forall s hand ig t v, hand_ok hand -> (ig = true -> four_max hand) ->
  legal_kind (view t) -> (ig = true -> face_count hand (view t) < 4) ->
  h_step (pattern_of s) hand ig = Ok v ->
  exists v', h_step (pattern_of s) (ts_add hand (of_tiles [t])) ig = Ok v' /\
    (v' = v \/ v' = v - 1) /\ (v' = v - 1 <-> advances ig s (face_count hand) (view t)).
Proof.
  intros s hand ig t v H F L C R. apply h_step_iff in R; auto. destruct R as (n & -> & D & Hs).
  destruct (distance_add ig s hand t n H F L C D) as (n' & D' & A & B). destruct (add_tile_fc hand t H L) as [H' E].
  exists (Z.of_nat n' - 1). split.
  - apply h_step_iff; auto.
    + intros Hl k. rewrite E, plus_one.
      destruct (kind_eqb (view t) k) eqn:Q; [apply kind_eqb_eq in Q; subst k; specialize (C Hl); lia|specialize (F Hl k); lia].
    + exists n'. split; [auto|split; [auto|]]. rewrite hand_size_add by auto. lia.
  - split; [lia|]. rewrite <- B. lia.
Qed.

(** Discarding a tile. *)
Lemma remove_four : forall hand t, hand_ok hand -> 0 < face_count hand (view t) -> four_max hand ->
  four_max (ts_sub hand (of_tiles [t])).
Proof.
  intros hand t H P F k. destruct (remove_tile_fc hand t H P) as [_ E]. rewrite E. unfold without.
  specialize (F k). destruct (same_kind _ _); lia.
Qed.
Theorem C24_discard_pattern_match : forall s hand ig t v, hand_ok hand -> (ig = true -> four_max hand) ->
  0 < face_count hand (view t) ->
  returns (fun fuel => pm_step fuel (pattern_of s) hand ig) v ->
  exists v', returns (fun fuel => pm_step fuel (pattern_of s) (ts_sub hand (of_tiles [t])) ig) v' /\ (v' = v \/ v' = v + 1).
Proof.
  intros s hand ig t v H F P R. apply pm_step_iff in R; auto. destruct R as (n & -> & D).
  destruct (distance_remove ig s hand t n H F P D) as (n' & D' & A). destruct (remove_tile_fc hand t H P) as [H' E].
  exists (Z.of_nat n' - 1). split; [|lia]. apply pm_step_iff; eauto using remove_four.
Qed.
Theorem C24_discard_brute : forall s hand t v, hand_ok hand -> four_max hand ->
  0 < face_count hand (view t) ->
  returns (fun fuel => brute_step fuel (pattern_of s) hand true) v ->
  exists v', returns (fun fuel => brute_step fuel (pattern_of s) (ts_sub hand (of_tiles [t])) true) v' /\ (v' = v \/ v' = v + 1).
Proof.
  intros s hand t v H F P R. apply brute_step_iff in R; auto. destruct R as (n & -> & D).
  destruct (distance_remove true s hand t n H ltac:(auto) P D) as (n' & D' & A). destruct (remove_tile_fc hand t H P) as [H' E].
  exists (Z.of_nat n' - 1). split; [|lia]. apply brute_step_iff; eauto using remove_four.
Qed.
Theorem C24_discard_heuristic : forall s hand ig t, hand_ok hand -> (ig = true -> four_max hand) ->
  0 < face_count hand (view t) -> usual_size s (ts_sub hand (of_tiles [t])) ->
  exists v v', h_step (pattern_of s) hand ig = Ok v /\
    h_step (pattern_of s) (ts_sub hand (of_tiles [t])) ig = Ok v' /\ (v' = v \/ v' = v + 1).
Proof.
  intros s hand ig t H F P S. destruct (remove_tile_fc hand t H P) as [H' E].
  destruct (h_step_min s _ ig H' ltac:(auto using remove_four) S) as (n' & E' & D').
  destruct (h_step_min s hand ig H F) as (n & En & D).
  { destruct S as (S1 & S2 & S3). rewrite hand_size_remove in * by auto. split; [auto|lia]. }
  destruct (distance_remove ig s hand t n H F P D) as (m & Dm & A). rewrite (distance_unique _ _ _ _ _ Dm D') in A.
  exists (Z.of_nat n - 1), (Z.of_nat n' - 1). split; [auto|split; [auto|lia]].
Qed.
Example C24_example : h_step (NormalTypeWin 1 4) ex13 true = Ok 0 /\
  h_step (NormalTypeWin 1 4) (ts_add ex13 (of_tiles [Plain 3 Cp])) true = Ok (-1) /\
  h_step (NormalTypeWin 1 4) (ts_add ex13 (of_tiles [Plain 3 Cz])) true = Ok 0 /\
  h_step (NormalTypeWin 1 4) (ts_sub ex13 (of_tiles [Plain 4 Cp])) true = Ok 1 /\
  h_step (NormalTypeWin 1 4) (ts_sub (ts_add ex13 (of_tiles [Plain 3 Cz])) (of_tiles [Plain 3 Cz])) true = Ok 0.
Proof. repeat split; vm_compute; reflexivity. Qed.

Print Assumptions C17_brute_minimum.
Print Assumptions C18_pattern_match_minimum.
Print Assumptions C19_heuristic_minimum.
Print Assumptions C20_useful_brute.
Print Assumptions C20_useful_pattern_match.
Print Assumptions C20_useful_heuristic.
Print Assumptions C21_agree_partial.
Print Assumptions C21_refuted.
Print Assumptions C22_batch.
Print Assumptions C23_refuted.
Print Assumptions C23_returns_partial.
Print Assumptions C24_draw_pattern_match.
Print Assumptions C24_discard_heuristic.
