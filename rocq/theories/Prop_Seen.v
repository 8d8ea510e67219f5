(** C125: what has been seen of the other tiles changes only the counts of a report; C126: the order
    of the hand matters only for the red fives. *)
From Coq Require Import String.
From Verif Require Import Base Category Tile TileSet Spec_Tile TileSetFacts Win Spec_Win WinFacts WinProofs Waiting Spec_Waiting WaitingFacts WaitingTop.
From Verif Require Import Parse Text Tenhou TenhouProofs Spec_Meld MeldProofs Prop_Meld Event State Spec_Log StateProofs Checker Spec_Checker CheckerProofs CheckerHand CheckerRows CheckerReport RedKeys CheckerGame Prop_Checker Prop_CheckerWitness.
From Coq Require Import List ZArith QArith Lia Bool Permutation.
Import ListNotations.
Open Scope list_scope.
Open Scope Z_scope.

(** ** Specification. *)
(** Two rows say the same about the same discard, the first with no more unseen tiles. *)
Definition same_row (x y : shown) : Prop :=
  sh_discard x = sh_discard y /\ sh_step x = sh_step y /\ sh_useful x = sh_useful y /\ sh_count x <= sh_count y.

(** ** Proofs. *)
Section Seen.
  Variables u1 u2 : list inv.
  Hypothesis U : forall t, In (ITile t) u1 -> In (ITile t) u2.
  Definition alike (x y : item) : Prop := ri_discard x = ri_discard y /\ ri_step x = ri_step y /\ ri_useful x = ri_useful y.
  Definition alike_le (x y : item) : Prop := alike x y /\ ri_count x <= ri_count y.
  Lemma mem_le n : inv_mem n u1 = true -> inv_mem n u2 = true.
  Proof.
    unfold inv_mem. rewrite !existsb_exists. intros (x & X & E). apply inv_eqb_iff in E. subst x. exists (ITile n). split; [now apply U|now apply inv_eqb_iff].
  Qed.
  Lemma filter_le l : (length (filter (fun n => inv_mem n u1) l) <= length (filter (fun n => inv_mem n u2) l))%nat.
  Proof.
    induction l as [|n l IH]; [reflexivity|]. cbn [filter]. pose proof (mem_le n) as M. destruct (inv_mem n u1); [rewrite M by reflexivity; cbn [length]; lia|].
    destruct (inv_mem n u2); cbn [length]; lia.
  Qed.
  Lemma count_le l a b : useful_count u1 l = Ok a -> useful_count u2 l = Ok b -> a <= b.
  Proof.
    unfold useful_count. revert a b. induction l as [|t l IH]; intros a b; cbn [mapM bindr].
    - intros A B. apply Ok_inj in A. apply Ok_inj in B. subst. lia.
    - unfold copies at 1 3. destruct (tile_to_tenhou_range t) as [r|]; [|discriminate]. cbn [bindr].
      destruct (mapM (copies u1) l) as [l1|]; [|discriminate]. destruct (mapM (copies u2) l) as [l2|]; [|discriminate]. cbn [bindr] in *.
      intros A B. apply Ok_inj in A. apply Ok_inj in B. specialize (IH _ _ eq_refl eq_refl). pose proof (filter_le (set_of r)). subst a b. cbn [sumZ]. lia.
  Qed.
  Lemma convert_alike t us s x y : convert_to_reasoning u1 t us s = Ok x -> convert_to_reasoning u2 t us s = Ok y -> alike_le x y.
  Proof.
    unfold convert_to_reasoning. destruct (useful_count u1 us) as [a|] eqn:A; [|discriminate]. destruct (useful_count u2 us) as [b|] eqn:B; [|discriminate]. cbn [bindr].
    intros X Y. apply Ok_inj in X. apply Ok_inj in Y. subst. split; [repeat split|]. cbn [ri_count]. eapply count_le; eassumption.
  Qed.
  Lemma reduce_alike a a' b b' : alike a a' -> alike b b' -> alike (reduce_useful a b) (reduce_useful a' b').
  Proof.
    intros (A1 & A2 & A3) (B1 & B2 & B3). unfold reduce_useful. rewrite A2, B2. destruct (ri_step b' <? ri_step a'); [now repeat split|].
    destruct (ri_step a' =? ri_step b'); [|now repeat split]. repeat split; cbn [ri_discard ri_step ri_useful]; congruence.
  Qed.
  Lemma merge_alike l l' x y : Forall2 alike l l' -> reasoning_merge l u1 = Ok x -> reasoning_merge l' u2 = Ok y -> alike_le x y.
  Proof.
    intros F. unfold reasoning_merge. destruct F as [|a a' l l' A F]; [discriminate|].
    assert (M : map ri_step (a :: l) = map ri_step (a' :: l')).
    { cbn [map]. f_equal; [apply A|]. clear - F. induction F as [|b b' l l' B F IH]; [reflexivity|]. cbn [map]. f_equal; [apply B|exact IH]. }
    rewrite M. destruct (min_list _) as [s|]; [|discriminate]. cbn [bindr].
    assert (G : alike (fold_left reduce_useful l a) (fold_left reduce_useful l' a')).
    { clear M. revert a a' A. induction F as [|b b' l l' B F IH]; intros a a' A; [exact A|]. cbn [fold_left]. apply IH. now apply reduce_alike. }
    destruct G as (_ & _ & G). rewrite <- G. set (us := ri_useful _) in *.
    destruct (useful_count u1 us) as [m|] eqn:Em; [|discriminate]. destruct (useful_count u2 us) as [n|] eqn:En; [|discriminate]. cbn [bindr].
    intros X Y. apply Ok_inj in X. apply Ok_inj in Y. subst x y. split; [|cbn [ri_count]; eapply count_le; eassumption].
    repeat split. cbn [ri_discard]. apply A.
  Qed.
  Lemma one_alike H w x y : one_win_reasoning H u1 w = Ok x -> one_win_reasoning H u2 w = Ok y -> Forall2 alike x y.
  Proof.
    unfold one_win_reasoning. destruct (h_batch w (re_sort H) true) as [raw|]; [|discriminate]. cbn [bindr]. revert x y.
    induction raw as [|r raw IH]; intros x y; cbn [mapM bindr].
    - intros X Y. apply Ok_inj in X. apply Ok_inj in Y. subst. constructor.
    - destruct (convert_to_reasoning u1 _ _ _) as [a|] eqn:A; [|discriminate]. destruct (convert_to_reasoning u2 _ _ _) as [b|] eqn:B; [|discriminate]. cbn [bindr].
      destruct (mapM _ raw) as [l|] eqn:L; [|discriminate]. destruct (mapM (fun r => convert_to_reasoning u2 _ _ _) raw) as [l'|]; [|discriminate]. cbn [bindr].
      intros X Y. apply Ok_inj in X. apply Ok_inj in Y. subst. constructor; [apply (convert_alike _ _ _ _ _ A B)|]. now apply IH.
  Qed.
  Lemma mapM_both {A B} (f g : A -> res B) (R : B -> B -> Prop) (l : list A) x y : (forall a b c, f a = Ok b -> g a = Ok c -> R b c) ->
    mapM f l = Ok x -> mapM g l = Ok y -> Forall2 R x y.
  Proof.
    intros F X Y. apply mapM_Forall2 in X. apply mapM_Forall2 in Y. revert y Y. induction X as [|a b l x E X IH]; intros y Y; inversion Y; subst; constructor; eauto.
  Qed.
  Lemma zip_alike (ll ll' : list (list item)) : Forall2 (Forall2 alike) ll ll' -> Forall2 (Forall2 alike) (zip_star ll) (zip_star ll').
  Proof.
    destruct 1 as [|a a' ll ll' A F]; [constructor|]. cbn [zip_star]. revert ll ll' F. induction A as [|x x' a a' Ax A IH]; intros ll ll' F; cbn [zip_with_rest]; [constructor|].
    replace (forallb (fun l : list item => match l with [] => false | _ => true end) ll') with (forallb (fun l : list item => match l with [] => false | _ => true end) ll)
      by (clear - F; induction F as [|b b' ll ll' B F IH]; [reflexivity|]; cbn [forallb]; rewrite IH; destruct B; reflexivity).
    destruct (forallb _ ll); [|constructor]. constructor.
    - constructor; [exact Ax|]. clear - F. induction F as [|b b' ll ll' B F IH]; [constructor|]. cbn [flat_map]. apply Forall2_app; [|exact IH]. destruct B; constructor; [assumption|constructor].
    - apply IH. clear - F. induction F as [|b b' ll ll' B F IH]; [constructor|]. cbn [map]. constructor; [|exact IH]. destruct B; [constructor|assumption].
  Qed.
  (** [merged_rows] before sorting. *)
  Definition unsorted H u wins : res (list item) := do rr <- mapM (one_win_reasoning H u) wins; mapM (fun l => reasoning_merge l u) (zip_star rr).
  Lemma merged_alike H wins x y : unsorted H u1 wins = Ok x -> unsorted H u2 wins = Ok y -> Forall2 alike_le x y.
  Proof.
    unfold unsorted. destruct (mapM (one_win_reasoning H u1) wins) as [r1|] eqn:E1; [|discriminate]. destruct (mapM (one_win_reasoning H u2) wins) as [r2|] eqn:E2; [|discriminate]. cbn [bindr].
    intros Ea Eb. pose proof (zip_alike _ _ (mapM_both _ _ _ _ _ _ (one_alike H) E1 E2)) as F. apply mapM_Forall2 in Ea. apply mapM_Forall2 in Eb. clear - F Ea Eb U.
    revert x y Ea Eb. induction F as [|l l' z z' L F IH]; intros x y Ea Eb; inversion Ea; inversion Eb; subst; constructor; [|auto]. eapply merge_alike; eassumption.
  Qed.
  Lemma choice_alike H t wins x y : choice_row H u1 t wins = Ok x -> choice_row H u2 t wins = Ok y -> alike_le x y.
  Proof.
    unfold choice_row. destruct (mapM (reasoning_discards H u1 t) wins) as [r1|] eqn:E1; [|discriminate]. destruct (mapM (reasoning_discards H u2 t) wins) as [r2|] eqn:E2; [|discriminate]. cbn [bindr].
    apply merge_alike. refine (mapM_both _ _ _ _ _ _ _ E1 E2). intros w a b. unfold reasoning_discards. destruct (h_both _ _ _); [|discriminate]. cbn [bindr]. intros A B. now apply (convert_alike _ _ _ _ _ A B).
  Qed.
End Seen.
Lemma norm_alike x y : alike_le x y -> same_row (norm x) (norm y).
Proof. intros ((A & B & C) & D). unfold same_row, norm. cbn [sh_discard sh_step sh_useful sh_count]. rewrite A, B, C. auto. Qed.

Lemma forall2_perm {A B} (R : A -> B -> Prop) (y y' : list B) : Permutation y y' -> forall x, Forall2 R x y -> exists x', Permutation x x' /\ Forall2 R x' y'.
Proof.
  induction 1 as [|b y y' P IH|b c y|y1 y2 y3 P1 IH1 P2 IH2]; intros x F.
  - inversion F; subst. exists []. auto.
  - inversion F as [|a ? x0 ? Ra F']; subst. destruct (IH _ F') as (x' & Q & G). exists (a :: x'). split; [now constructor|now constructor].
  - inversion F as [|a1 ? x0 ? A1 F1]; subst. inversion F1 as [|a2 ? x1 ? A2 F2]; subst. exists (a2 :: a1 :: x1). split; [constructor|now repeat constructor].
  - destruct (IH1 _ F) as (x1 & Q1 & F1). destruct (IH2 _ F1) as (x2 & Q2 & F2). exists x2. split; [now transitivity x1|exact F2].
Qed.
Lemma alike_eq x y : alike_le x y -> alike_le y x -> x = y.
Proof. intros ((A & B & C) & D) (_ & D'). destruct x as [x1 x2 x3 x4], y as [y1 y2 y3 y4]. cbn [ri_discard ri_step ri_useful ri_count] in *. f_equal; congruence || lia. Qed.
Lemma alikes_eq a b : Forall2 alike_le a b -> Forall2 alike_le b a -> a = b.
Proof. intros F. induction F as [|x y a b A F IH]; intro G; [reflexivity|]. inversion G; subst. f_equal; [now apply alike_eq|auto]. Qed.
Lemma hidden_le hand inv1 inv2 : (forall t, In (ITile t) inv1 -> In (ITile t) inv2) -> forall t, In (ITile t) (inv_minus inv1 hand) -> In (ITile t) (inv_minus inv2 hand).
Proof. intros I0 t T. apply (proj1 (hidden_iff hand inv1 t)) in T. apply (hidden_iff hand inv2 t). destruct T as [T1 T2]. split; [now apply I0|exact T2]. Qed.

Lemma merged_unsorted H u wins x : merged_rows H u wins = Ok x -> exists a, unsorted H u wins = Ok a /\ x = sort_items a.
Proof.
  unfold merged_rows, unsorted. destruct (mapM _ wins) as [rr|]; [|discriminate]. cbn [bindr]. destruct (mapM _ (zip_star rr)) as [a|]; [|discriminate]. cbn [bindr].
  intro E. apply Ok_inj in E. eauto.
Qed.
(** What a report is made of. *)
Lemma report_parts e p hand players inv melds r : reported e p hand players inv melds = Ok r ->
  exists H t g best c ms, hand_tiles hand = Ok H /\ discard_tile_index p e = Ok t /\
    exists tt m, tile_from_tenhou t = Ok tt /\ merged_rows H (inv_minus inv hand) (win_types (meld_count melds)) = Ok m /\ first_group m = Ok g /\
      choice_row (re_sort H) (inv_minus inv hand) tt (win_types (meld_count melds)) = Ok c /\ py_nth g 0 = Ok best /\
      wrong_rate (Z.of_nat (length (inv_minus inv hand))) best c = Ok (rr_wrong_rate r) /\ meld_texts melds = Ok ms /\
      r = mkRound (map tile_str (tiles (re_sort H))) ms (norm c) (map norm g) (map norm m) (rr_wrong_rate r) false [].
Proof.
  unfold reported, discard_reasoning. cbn [hand_value invisible_value meld_value opt_minus bindr]. fold (meld_texts melds).
  destruct (hand_tiles hand) as [H|]; [|discriminate]. cbn [bindr]. destruct (merged_rows H _ _) as [m|] eqn:M; [|discriminate]. cbn [bindr].
  destruct (first_group m) as [g|] eqn:G; [|discriminate]. cbn [bindr]. destruct (discard_tile_index p e) as [t|]; [|discriminate]. cbn [bindr].
  destruct (tile_from_tenhou t) as [tt|] eqn:T; [|discriminate]. cbn [bindr]. destruct (choice_row _ _ _ _) as [c|] eqn:C; [|discriminate]. cbn [bindr].
  destruct (py_nth g 0) as [best|] eqn:B; [|discriminate]. cbn [bindr]. destruct (wrong_rate _ _ _) as [w|] eqn:W; [|discriminate]. cbn [bindr].
  destruct (meld_texts melds) as [ms|]; [|discriminate]. cbn [bindr]. intro R. apply Ok_inj in R. subst r. cbn [rr_wrong_rate].
  exists H, t, g, best, c, ms. do 2 (split; [reflexivity|]). exists tt, m. repeat (split; [assumption || reflexivity|]). reflexivity.
Qed.

(** ** C125. *)
(** The same call when more tiles are unseen: the same rows, with counts at least as large. *)
Theorem C125_seen : forall e p hand players1 players2 inv1 inv2 melds r1 r2,
  (forall t, In (ITile t) inv1 -> In (ITile t) inv2) ->
  reported e p hand players1 inv1 melds = Ok r1 -> reported e p hand players2 inv2 melds = Ok r2 ->
  rr_hand r1 = rr_hand r2 /\ rr_melds r1 = rr_melds r2 /\ same_row (rr_choice r1) (rr_choice r2) /\
  exists rows, Permutation (rr_merged r1) rows /\ Forall2 same_row rows (rr_merged r2).
Proof.
  intros e p hand players1 players2 inv1 inv2 melds r1 r2 I0 R1 R2. pose proof (hidden_le hand _ _ I0) as U.
  destruct (report_parts _ _ _ _ _ _ _ R1) as (H & t & g1 & b1 & c1 & ms & EH & Et & tt & m1 & Ett & M1 & _ & C1 & _ & _ & Ems & Q1).
  destruct (report_parts _ _ _ _ _ _ _ R2) as (H' & t' & g2 & b2 & c2 & ms' & EH' & Et' & tt' & m2 & Ett' & M2 & _ & C2 & _ & _ & Ems' & Q2).
  rewrite EH in EH'. apply Ok_inj in EH'. subst H'. rewrite Et in Et'. apply Ok_inj in Et'. subst t'. rewrite Ett in Ett'. apply Ok_inj in Ett'. subst tt'. rewrite Ems in Ems'. apply Ok_inj in Ems'. subst ms'.
  rewrite Q1, Q2. clear Q1 Q2 R1 R2. cbn [rr_hand rr_melds rr_choice rr_merged].
  split; [reflexivity|]. split; [reflexivity|]. split; [apply norm_alike; eapply choice_alike; eassumption|].
  destruct (merged_unsorted _ _ _ _ M1) as (a & Ea & ->). destruct (merged_unsorted _ _ _ _ M2) as (b & Eb & ->). pose proof (merged_alike _ _ U _ _ _ _ Ea Eb) as F.
  assert (F' : Forall2 same_row (map norm a) (map norm b)) by (clear - F; induction F; constructor; [now apply norm_alike|assumption]).
  destruct (forall2_perm _ _ _ (Permutation_map norm (sort_items_perm b)) _ F') as (rows & P & G). exists rows. split; [|exact G].
  transitivity (map norm a); [apply Permutation_map; symmetry; apply sort_items_perm|exact P].
Qed.

(** The set of unseen tiles is all that matters, not how it is listed; for the wrong rate also their number. *)
Theorem C125_same : forall e p hand players1 players2 inv1 inv2 melds r1 r2,
  (forall t, In (ITile t) inv1 <-> In (ITile t) inv2) ->
  reported e p hand players1 inv1 melds = Ok r1 -> reported e p hand players2 inv2 melds = Ok r2 ->
  rr_choice r1 = rr_choice r2 /\ rr_expected r1 = rr_expected r2 /\ rr_merged r1 = rr_merged r2 /\
  (Permutation inv1 inv2 -> r1 = r2).
Proof.
  intros e p hand players1 players2 inv1 inv2 melds r1 r2 I0 R1 R2. pose proof (hidden_le hand _ _ (fun t => proj1 (I0 t))) as U. pose proof (hidden_le hand _ _ (fun t => proj2 (I0 t))) as U'.
  destruct (report_parts _ _ _ _ _ _ _ R1) as (H & t & g1 & b1 & c1 & ms & EH & Et & tt & m1 & Ett & M1 & G1 & C1 & B1 & W1 & Ems & Q1).
  destruct (report_parts _ _ _ _ _ _ _ R2) as (H' & t' & g2 & b2 & c2 & ms' & EH' & Et' & tt' & m2 & Ett' & M2 & G2 & C2 & B2 & W2 & Ems' & Q2).
  rewrite EH in EH'. apply Ok_inj in EH'. subst H'. rewrite Et in Et'. apply Ok_inj in Et'. subst t'. rewrite Ett in Ett'. apply Ok_inj in Ett'. subst tt'. rewrite Ems in Ems'. apply Ok_inj in Ems'. subst ms'.
  assert (Ec : c1 = c2) by (apply alike_eq; [exact (choice_alike _ _ U _ _ _ _ _ C1 C2)|exact (choice_alike _ _ U' _ _ _ _ _ C2 C1)]). subst c2.
  assert (Em : m1 = m2).
  { destruct (merged_unsorted _ _ _ _ M1) as (a & Ea & ->). destruct (merged_unsorted _ _ _ _ M2) as (b & Eb & ->). f_equal. apply alikes_eq; [exact (merged_alike _ _ U _ _ _ _ Ea Eb)|exact (merged_alike _ _ U' _ _ _ _ Eb Ea)]. }
  subst m2. rewrite G1 in G2. apply Ok_inj in G2. subst g2. rewrite B1 in B2. apply Ok_inj in B2. subst b2.
  split; [rewrite Q1, Q2; reflexivity|]. split; [rewrite Q1, Q2; reflexivity|]. split; [rewrite Q1, Q2; reflexivity|].
  intro P. assert (L : length (inv_minus inv1 hand) = length (inv_minus inv2 hand)).
  { unfold inv_minus. clear - P. induction P; cbn [filter]; try congruence; repeat match goal with |- context [if ?c then _ else _] => destruct c end; cbn [length]; congruence. }
  rewrite L, W2 in W1. apply Ok_inj in W1. rewrite Q1, Q2, W1. reflexivity.
Qed.

(** ** C126: the order of the hand. *)
(** [u] is the first tile of its face in the hand. *)
Definition leads (hand : list Z) (u : Z) : Prop := exists before after, hand = before ++ u :: after /\ Forall (fun v => face v <> face u) before.

Lemma sorted_same : forall s s', sorted s -> sorted s' -> (forall e, In e s <-> In e s') -> s = s'.
Proof.
  unfold sorted. induction s as [|e s IH]; intros [|e' s'] A B E.
  - reflexivity.
  - destruct (proj2 (E e') (or_introl eq_refl)).
  - destruct (proj1 (E e) (or_introl eq_refl)).
  - cbn [kinds_of map] in A, B. inversion A as [|? ? A1 A2]; inversion B as [|? ? B1 B2]; subst.
    assert (Q : e = e').
    { destruct (proj1 (E e) (or_introl eq_refl)) as [Q|Q]; [now symmetry|]. destruct (proj2 (E e') (or_introl eq_refl)) as [R|R]; [exact R|]. exfalso.
      rewrite Forall_forall in A2, B2. apply (kind_lt_irrefl (kview e)). apply kind_lt_trans with (kview e'); [apply A2|apply B2]; now apply in_map. }
    subst e'. f_equal. apply IH; [exact A1|exact B1|]. intro x. split; intro X.
    + destruct (proj1 (E x) (or_intror X)) as [Q|Q]; [|exact Q]. subst x. exfalso. rewrite Forall_forall in A2. apply (kind_lt_irrefl (kview e)). apply A2. now apply in_map.
    + destruct (proj2 (E x) (or_intror X)) as [Q|Q]; [|exact Q]. subst x. exfalso. rewrite Forall_forall in B2. apply (kind_lt_irrefl (kview e)). apply B2. now apply in_map.
Qed.
Lemma entry_iff s x n : wf s -> (In (x, n) s <-> In x (map fst s) /\ getk s (view x) = n).
Proof.
  intro W. split.
  - intro I0. split; [apply in_map_iff; now exists (x, n)|now apply getk_in].
  - intros [I0 G]. apply in_map_iff in I0. destruct I0 as ([y m] & Q & I0). cbn [fst] in Q. subst y. rewrite (getk_in _ _ _ W I0) in G. now subst m.
Qed.
Lemma same_sorted s s' : wf s -> wf s' -> (forall x, In x (map fst s) <-> In x (map fst s')) -> (forall k, getk s k = getk s' k) -> re_sort s = re_sort s'.
Proof.
  intros W W' K G. apply sorted_same; [now apply re_sort_sorted|now apply re_sort_sorted|]. intros [x n].
  assert (P : forall s, In (x, n) (re_sort s) <-> In (x, n) s) by (intro; split; apply Permutation_in; [|symmetry]; apply re_sort_perm).
  rewrite !P, !entry_iff, K, G by assumption. reflexivity.
Qed.
Definition sorted_rows (H : tset) (u : list inv) (win : pattern) : res (list item) :=
  do rows <- h_batch win H true; mapM (fun r => convert_to_reasoning u (fst (fst r)) (snd r) (snd (fst r))) rows.
Lemma merged_sorted H H' u wins : re_sort H = re_sort H' -> merged_rows H u wins = merged_rows H' u wins.
Proof.
  intro E. unfold merged_rows. change (one_win_reasoning H u) with (sorted_rows (re_sort H) u). change (one_win_reasoning H' u) with (sorted_rows (re_sort H') u). now rewrite E.
Qed.
Lemma minus_perm inv hand hand' : Permutation hand hand' -> inv_minus inv hand = inv_minus inv hand'.
Proof.
  intro P. unfold inv_minus. apply filter_ext. intro x. f_equal. induction P; cbn [existsb]; try congruence. destruct (inv_eqb x (ITile x0)), (inv_eqb x (ITile y)); reflexivity.
Qed.
Lemma lead_key hand l x : Forall valid_tile hand -> mapM tile_from_tenhou hand = Ok l -> (In (Aka x) (map fst (of_tiles l)) <-> exists u, leads hand u /\ red_number u /\ face u = (x, 5)).
Proof.
  intros V E. rewrite of_tiles_keys_first. pose proof (mapM_Forall2 _ _ _ E) as F. split.
  - intros (a & b & -> & N). apply Forall2_app_inv_r in F. destruct F as (ha & hb & Fa & Fb & ->). inversion Fb as [|u ? hb' ? Eu Fb']; subst.
    apply Forall_app in V. destruct V as [Va Vb]. inversion Vb as [|? ? Vu _]; subst. destruct (C05_tile_of_number u Vu) as (tu & Etu & _ & Vt & R). rewrite Eu in Etu. apply Ok_inj in Etu. subst tu.
    cbn [view] in Vt. exists u. split; [|split; [apply R; eauto|now symmetry]]. exists ha, hb'. split; [reflexivity|]. clear - Fa N Va Vt.
    induction Fa as [|v y ha a Ev Fa IH]; [constructor|]. inversion N; inversion Va; subst. constructor; [|auto].
    destruct (C05_tile_of_number v) as (y' & Ey & _ & Vy & _); [assumption|]. rewrite Ev in Ey. apply Ok_inj in Ey. subst y'. rewrite <- Vy, <- Vt. assumption.
  - intros (u & (ha & hb & -> & N) & R & Fu). apply Forall2_app_inv_l in F. destruct F as (a & b & Fa & Fb & ->). inversion Fb as [|? tu ? b' Eu Fb']; subst.
    apply Forall_app in V. destruct V as [Va Vb]. inversion Vb as [|? ? Vu _]; subst. destruct (C05_tile_of_number u Vu) as (tu' & Etu & _ & Vt & R'). rewrite Eu in Etu. apply Ok_inj in Etu. subst tu'.
    apply R' in R. destruct R as [c ->]. cbn [view] in Vt. rewrite Fu in Vt. assert (c = x) by congruence. subst c. exists a, b'. split; [reflexivity|]. clear - Fa N Va Fu Vt.
    induction Fa as [|v y ha a Ev Fa IH]; [constructor|]. inversion N; inversion Va; subst. constructor; [|auto].
    destruct (C05_tile_of_number v) as (y' & Ey & _ & Vy & _); [assumption|]. rewrite Ev in Ey. apply Ok_inj in Ey. subst y'. rewrite Vy. cbn [view]. congruence.
Qed.
Lemma mapM_perm hand hand' l : Permutation hand hand' -> mapM tile_from_tenhou hand = Ok l -> exists l', mapM tile_from_tenhou hand' = Ok l' /\ Permutation l l'.
Proof.
  intro P. revert l. induction P as [|u h h' P IH|u v h|h1 h2 h3 P1 IH1 P2 IH2]; intros l E.
  - exists l. split; [exact E|reflexivity].
  - cbn [mapM] in *. destruct (tile_from_tenhou u) as [t|]; [|discriminate]. cbn [bindr] in *. destruct (mapM tile_from_tenhou h) as [r|]; [|discriminate]. cbn [bindr] in E. apply Ok_inj in E. subst l.
    destruct (IH r eq_refl) as (r' & -> & Q). cbn [bindr]. exists (t :: r'). split; [reflexivity|now constructor].
  - cbn [mapM] in *. destruct (tile_from_tenhou v) as [t|]; [|discriminate]. cbn [bindr] in *. destruct (tile_from_tenhou u) as [t'|]; [|discriminate]. cbn [bindr] in *.
    destruct (mapM tile_from_tenhou h) as [r|]; [|discriminate]. cbn [bindr] in *. apply Ok_inj in E. subst l. eexists. split; [reflexivity|constructor].
  - destruct (IH1 _ E) as (l2 & E2 & Q2). destruct (IH2 _ E2) as (l3 & E3 & Q3). exists l3. split; [exact E3|now transitivity l2].
Qed.
Lemma occ_perm k l l' : Permutation l l' -> occ k l = occ k l'.
Proof. unfold occ. induction 1; cbn [sumZ]; lia. Qed.

(** The same tiles in another order: the same result, if of the fives of each suit the red one comes
    first in both orders or in neither. *)
Theorem C126_order_partial : forall e p hand hand' players inv melds, Forall valid_tile hand -> Permutation hand hand' ->
  (forall u, red_number u -> (leads hand u <-> leads hand' u)) ->
  reported e p hand players inv melds = reported e p hand' players inv melds.
Proof.
  intros e p hand hand' players inv melds V P L. assert (V' : Forall valid_tile hand') by (eapply Permutation_Forall; eassumption).
  destruct (tiles_of_numbers hand V) as (l & El & _ & _ & Ob & _). destruct (mapM_perm _ _ _ P El) as (l' & El' & Pl).
  assert (S0 : re_sort (of_tiles l) = re_sort (of_tiles l')).
  { apply same_sorted; [apply wf_of_tiles|apply wf_of_tiles| |intro k; rewrite !getk_of_tiles; now apply occ_perm].
    assert (Ka : forall c, In (Aka c) (map fst (of_tiles l)) <-> In (Aka c) (map fst (of_tiles l'))).
    { intro c. rewrite (lead_key _ _ _ V El), (lead_key _ _ _ V' El'). split; intros (u & A & B & C); exists u; (split; [now apply (L u B)|auto]). }
    assert (Kp : forall l l', Permutation l l' -> (forall c, In (Aka c) (map fst (of_tiles l')) -> In (Aka c) (map fst (of_tiles l))) ->
      forall n c, In (Plain n c) (map fst (of_tiles l)) -> In (Plain n c) (map fst (of_tiles l'))).
    { clear. intros l l' P A n c I0. pose proof (proj1 (of_tiles_keys_first _ _) I0) as (a & b & E & _).
      destruct (of_tiles_has l' (Plain n c)) as (y & Y & Vy); [eapply Permutation_in; [exact P|]; rewrite E; apply in_or_app; right; now left|].
      destruct y as [m d|d]; cbn [view] in Vy; [injection Vy as -> ->; exact Y|]. exfalso. apply A in Y.
      assert (Q : Aka d = Plain n c) by (apply (wf_same (of_tiles l)); [apply wf_of_tiles|exact Y|exact I0|exact Vy]). discriminate. }
    intros [n c|c]; [|apply Ka]. split; apply Kp; [exact Pl|intro d; apply Ka|now symmetry|intro d; apply Ka]. }
  unfold reported, discard_reasoning. cbn [hand_value invisible_value meld_value opt_minus bindr]. unfold hand_tiles. rewrite El, El'. cbn [bindr].
  rewrite (minus_perm inv _ _ P), (merged_sorted _ _ _ _ S0), S0. reflexivity.
Qed.
(** In particular without red fives. *)
Theorem C126_order_plain : forall e p hand hand' players inv melds, Forall valid_tile hand -> no_red_five hand -> Permutation hand hand' ->
  reported e p hand players inv melds = reported e p hand' players inv melds.
Proof.
  intros e p hand hand' players inv melds V N P. apply C126_order_partial; [exact V|exact P|]. intros u R.
  split; intros (a & b & E & _); exfalso; apply (N u); try exact R; [|apply Permutation_in with hand'; [now symmetry|]]; rewrite E; apply in_or_app; right; now left.
Qed.
(** A pair of fives of which one is red: the order of the two decides the count. *)
Theorem C126_refuted : exists hand hand' r r', discards (drop 128) 0 hand two_pons 128 /\ Permutation hand hand' /\
  reported (drop 128) 0 hand 4 everything two_pons = Ok r /\ reported (drop 128) 0 hand' 4 everything two_pons = Ok r' /\
  sh_useful (rr_choice r) = [t_ "5p"; t_ "9p"] /\ sh_count (rr_choice r) = 4 /\ sh_useful (rr_choice r') = [t_ "0p"; t_ "9p"] /\ sh_count (rr_choice r') = 6.
Proof.
  exists [0; 4; 8; 53; 52; 68; 69; 128], [0; 4; 8; 52; 53; 68; 69; 128]. do 2 eexists. split; [apply discards_checked; vm_compute; reflexivity|].
  split; [do 3 apply perm_skip; apply perm_swap|]. split; [vm_compute; reflexivity|]. split; [vm_compute; reflexivity|]. cbn [rr_choice sh_useful sh_count]. repeat split.
Qed.

(** A wait for 5p and 9p with one and with four of the tiles unseen. *)
Example C125_case : exists r1 r2, (forall t, In (ITile t) (map ITile [1; 54]) -> In (ITile t) everything) /\
  reported (drop 128) 0 [0; 4; 8; 53; 52; 68; 69; 128] 4 (map ITile [1; 54]) two_pons = Ok r1 /\
  reported (drop 128) 0 [0; 4; 8; 53; 52; 68; 69; 128] 4 everything two_pons = Ok r2 /\
  sh_useful (rr_choice r1) = [t_ "5p"; t_ "9p"] /\ sh_count (rr_choice r1) = 1 /\ sh_count (rr_choice r2) = 4.
Proof.
  do 2 eexists. split; [|split; [vm_compute; reflexivity|split; [vm_compute; reflexivity|]]].
  - intros t T. apply in_map_iff in T. destruct T as (u & Q & T). injection Q as <-. apply in_map_iff. destruct T as [<-|[<-|[]]]; [exists 1%nat|exists 54%nat]; (split; [reflexivity|apply in_seq; lia]).
  - cbn [rr_choice sh_useful sh_count]. repeat split.
Qed.
(** Draws in another order, the red five still before the other. *)
Example C126_case : Forall valid_tile [0; 4; 8; 52; 53; 68; 69; 128] /\ Permutation [0; 4; 8; 52; 53; 68; 69; 128] [128; 52; 69; 68; 53; 8; 4; 0] /\
  (forall u, red_number u -> (leads [0; 4; 8; 52; 53; 68; 69; 128] u <-> leads [128; 52; 69; 68; 53; 8; 4; 0] u)).
Proof.
  split; [repeat constructor; unfold valid_tile; lia|]. split.
  - change [128; 52; 69; 68; 53; 8; 4; 0] with ([128; 52; 69; 68; 53] ++ [8; 4; 0]).
    apply NoDup_Permutation; [repeat constructor; cbn [In]; lia|cbn [app]; repeat constructor; cbn [In]; lia|]. intro x. cbn [app In]. tauto.
  - intros u [->|[->| ->]].
    + split; intros (a & b & E & _); exfalso; (assert (I0 : In 16 (a ++ 16 :: b)) by (apply in_or_app; right; now left)); rewrite <- E in I0; cbn [In] in I0; lia.
    + split; intros _; [exists [128], [69; 68; 53; 8; 4; 0]|exists [0; 4; 8], [53; 68; 69; 128]]; (split; [reflexivity|]); repeat constructor; discriminate.
    + split; intros (a & b & E & _); exfalso; (assert (I0 : In 88 (a ++ 88 :: b)) by (apply in_or_app; right; now left)); rewrite <- E in I0; cbn [In] in I0; lia.
Qed.
Print Assumptions C125_seen.
Print Assumptions C125_same.
Print Assumptions C126_order_partial.
Print Assumptions C126_order_plain.
Print Assumptions C126_refuted.
