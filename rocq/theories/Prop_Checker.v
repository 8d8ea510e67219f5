(** C52-C55, C63-C66: the report on a player's discards. *)
From Coq Require Import String.
From Verif Require Import Base Category Tile TileSet Spec_Tile TileSetFacts Win Spec_Win WinFacts WinProofs Waiting Spec_Waiting WaitingFacts WaitingPM WaitingBrute WaitingHeur WaitingHeurTop WaitingSize Spec_Hand WaitingTop.
From Verif Require Import Parse Text Tenhou TenhouProofs Spec_Meld MeldProofs Prop_Meld Event State Spec_Log StateProofs Prop_State Checker Spec_Checker CheckerProofs CheckerHand CheckerRows CheckerReport CheckerGame.
From Coq Require Import List ZArith QArith Lia Bool Permutation.
Import ListNotations.
Open Scope list_scope.
Open Scope Z_scope.

(** The call of the report for one discard. *)
Definition reported (e : event) (p : Z) (hand : list Z) (players : Z) (invisible : list inv) (melds : list meld) : res round :=
  discard_reasoning e (SHand p hand) (SInvisible players (Some invisible)) p (SMeld p melds).

Lemma table_melds_eq melds : table_melds melds = meld_count melds.
Proof. unfold table_melds, meld_count. do 2 f_equal. apply filter_ext. intro x. unfold is_kita. now destruct (m_class x). Qed.
Lemma hidden_iff hand i t : In (ITile t) (inv_minus i hand) <-> hidden hand i t.
Proof.
  unfold inv_minus, hidden. rewrite filter_In, negb_true_iff. split; intros [A B]; (split; [exact A|]).
  - intro X. assert (Q : existsb (fun t0 => inv_eqb (ITile t) (ITile t0)) hand = true); [|congruence]. apply existsb_exists. exists t. split; [exact X|]. now apply inv_eqb_iff.
  - apply not_true_iff_false. intro X. apply existsb_exists in X. destruct X as (x & X & Q). apply inv_eqb_iff in Q. injection Q as <-. contradiction.
Qed.
Lemma minus_nodup hand i : NoDup i -> NoDup (inv_minus i hand).
Proof. apply NoDup_filter. Qed.
Lemma counts_ext (P Q : Z -> Prop) ks n : (forall t, P t <-> Q t) -> counts_unseen P ks n -> counts_unseen Q ks n.
Proof. intros E (l & A & B & C). exists l. split; [exact A|]. split; [|exact C]. intro t. now rewrite B, E. Qed.

(** ** C52: the expected rows are the rows with the least (step, -count). *)
Definition before_row (x y : shown) : Prop := sh_step x < sh_step y \/ (sh_step x = sh_step y /\ sh_count y < sh_count x).
Definition same_row_key (x y : shown) : Prop := sh_step x = sh_step y /\ sh_count x = sh_count y.
Theorem C52_expected : forall e hs is p ms r, discard_reasoning e hs is p ms = Ok r ->
  exists x rest, In x (rr_expected r) /\ rr_merged r = rr_expected r ++ rest /\
    Forall (same_row_key x) (rr_expected r) /\ Forall (before_row x) rest.
Proof.
  intros e hs is p ms r E. unfold discard_reasoning in E.
  destruct (opt_minus (invisible_value is) (hand_value hs)) as [inv|]; [|discriminate]. cbn [bindr] in E.
  destruct (hand_tiles (hand_value hs)) as [H|]; [|discriminate]. cbn [bindr] in E.
  destruct (merged_rows H inv (win_types (meld_count (meld_value ms)))) as [merged|] eqn:Em; [|discriminate]. cbn [bindr] in E.
  destruct (first_group merged) as [g|] eqn:Eg; [|discriminate]. cbn [bindr] in E.
  destruct (discard_tile_index p e); [|discriminate]. cbn [bindr] in E. destruct (tile_from_tenhou _); [|discriminate]. cbn [bindr] in E.
  destruct (choice_row _ _ _ _); [|discriminate]. cbn [bindr] in E. destruct (py_nth g 0); [|discriminate]. cbn [bindr] in E.
  destruct (wrong_rate _ _ _); [|discriminate]. cbn [bindr] in E. destruct (mapM _ _); [|discriminate]. cbn [bindr] in E. apply Ok_inj in E. subst r.
  cbn [rr_expected rr_merged].
  assert (Sk : sorted_keys merged).
  { unfold merged_rows in Em. destruct (mapM _ _); [|discriminate]. cbn [bindr] in Em. destruct (mapM _ _); [|discriminate]. cbn [bindr] in Em. apply Ok_inj in Em. subst merged. apply sort_items_sorted. }
  destruct (first_group_split merged g Sk Eg) as (x & g' & rest & -> & -> & A & B).
  exists (norm x), (map norm rest). split; [now left|]. split; [now rewrite map_app|]. split; apply Forall_map.
  - eapply Forall_impl; [|exact A]. intros y Q. unfold key_of in Q. injection Q as Q1 Q2. split; cbn [norm sh_step sh_count]; lia.
  - eapply Forall_impl; [|exact B]. intros y Q. unfold key_lt, key_of in Q. cbn [fst snd] in Q. unfold before_row. cbn [norm sh_step sh_count]. lia.
Qed.

(** With a meld on the table there is exactly one row for each discard that keeps the distance,
    and each row is right. The count of a row is right if no red five of the hand is useful (see C55). *)
Theorem C52_open_partial : forall e p hand players invisible melds t r, discards e p hand melds t -> NoDup invisible ->
  table_melds melds <> 0 -> reported e p hand players invisible melds = Ok r ->
  let s := Standard 1 (4 - table_melds melds) in
  exists ks, NoDup ks /\ (forall k, In k ks <-> keeps_distance true s (hand_counts hand) k) /\
    Forall2 (fun k row => right_row [s] hand k (sh_discard row) (sh_step row) (sh_useful row) /\
              (reds_useless hand (advances true s (without (hand_counts hand) k)) -> right_count [s] hand (hidden hand invisible) k (sh_count row))) ks (rr_merged r).
Proof.
  intros e p hand players invisible melds t r (HP & HD & HW & HM) Ni N0 E. rewrite table_melds_eq in *. intro s. unfold reported in E.
  destruct (report_form e hand players p invisible melds t HD HP HW HM) as (H & tt & mt & HF & EH & _ & _ & _ & _ & _ & R). rewrite R in E.
  pose proof HD as (_ & _ & M & L & _).
  destruct (open_rows hand H (meld_count melds) (inv_minus invisible hand) HF M L N0) as (n & rows & Rr & Em). rewrite Em in E. cbn [bindr] in E.
  destruct (first_group (sort_items rows)); [|discriminate]. cbn [bindr] in E. destruct (choice_row _ _ _ _); [|discriminate]. cbn [bindr] in E.
  destruct (py_nth _ 0); [|discriminate]. cbn [bindr] in E. destruct (wrong_rate _ _ _); [|discriminate]. cbn [bindr] in E. apply Ok_inj in E. subst r. cbn [rr_merged].
  pose proof (sort_items_perm rows) as Pm. destruct Rr as (_ & _ & Nd & K & Sy & Ob).
  exists (map (fun x => view (ri_discard x)) (sort_items rows)). split; [|split].
  - eapply Permutation_NoDup; [|exact Nd]. now apply Permutation_map.
  - intro k. unfold s. rewrite <- K. split; intro X; (eapply Permutation_in; [apply Permutation_map|exact X]); [symmetry|]; exact Pm.
  - assert (Sy' : Forall (says s hand (inv_minus invisible hand) n) (sort_items rows)) by (eapply Permutation_Forall; eauto).
    assert (Ob' : Forall (fun x => object (ri_discard x)) (sort_items rows)) by (eapply Permutation_Forall; eauto).
    clear - Sy' Ob' Ni. induction (sort_items rows) as [|x l IH]; cbn [map]; constructor.
    + inversion Sy' as [|? ? A _]; inversion Ob' as [|? ? B _]; subst. apply says_one in A. split.
      * now apply (norm_right _ _ (inv_minus invisible hand)).
      * intro nr. destruct (norm_count _ _ _ _ (minus_nodup hand invisible Ni) (useless_one _ _ _ nr) A) as (ks & C & D). exists ks. split; [exact C|].
        eapply counts_ext; [|exact D]. apply hidden_iff.
    + inversion Sy'; inversion Ob'; subst. auto.
Qed.

(** With nothing on the table, the rows are right if the standard shape is strictly nearer than seven
    pairs (rows may be missing, C52_refuted shows what happens otherwise). *)
Theorem C52_closed_partial : forall e p hand players invisible melds t r n1 n2, discards e p hand melds t -> NoDup invisible ->
  table_melds melds = 0 -> reported e p hand players invisible melds = Ok r ->
  distance true (Standard 1 4) (hand_counts hand) n1 -> distance true (DistinctPairs 7) (hand_counts hand) n2 -> (n1 < n2)%nat ->
  exists ks, NoDup ks /\ (forall k, In k ks -> keeps_distance true (Standard 1 4) (hand_counts hand) k) /\
    Forall2 (fun k row => right_row [Standard 1 4] hand k (sh_discard row) (sh_step row) (sh_useful row) /\
              (reds_useless hand (advances true (Standard 1 4) (without (hand_counts hand) k)) -> right_count [Standard 1 4] hand (hidden hand invisible) k (sh_count row))) ks (rr_merged r).
Proof.
  intros e p hand players invisible melds t r n1 n2 (HP & HD & HW & HM) Ni E0 E D1 D2 Lt.
  rewrite table_melds_eq in *. unfold reported in E.
  destruct (report_form e hand players p invisible melds t HD HP HW HM) as (H & tt & mt & HF & EH & _ & _ & _ & _ & _ & R). rewrite R in E.
  pose proof HD as (_ & _ & M & L & _).
  destruct (closed_rows hand H (meld_count melds) (inv_minus invisible hand) HF M L E0) as (m1 & rows1 & m2 & rows2 & l & R1 & R2 & F & Em). rewrite Em in E. cbn [bindr] in E.
  destruct (first_group (sort_items l)); [|discriminate]. cbn [bindr] in E. destruct (choice_row _ _ _ _); [|discriminate]. cbn [bindr] in E.
  destruct (py_nth _ 0); [|discriminate]. cbn [bindr] in E. destruct (wrong_rate _ _ _); [|discriminate]. cbn [bindr] in E. apply Ok_inj in E. subst r. cbn [rr_merged].
  destruct R1 as (D1' & _ & Nd & K & Sy1 & Ob), R2 as (D2' & _ & _ & _ & Sy2 & _).
  assert (m1 = n1) by (eapply distance_unique; eassumption). assert (m2 = n2) by (eapply distance_unique; eassumption). subst m1 m2. clear D1 D2 D1' D2' Em R HW HM.
  assert (Pre : exists rest, rows1 = l ++ rest).
  { clear - F Sy1 Sy2 Lt. revert rows2 l F Sy2. induction Sy1 as [|x rows1 A1 B1 IH]; intros [|y rows2] l F Sy2; cbn [combine] in F; inversion F as [|? z ? l' M1 M2]; subst; try (now exists []); try (eexists; reflexivity).
    inversion Sy2 as [|? ? C1 C2]; subst. destruct (IH _ _ M2 C2) as [rest ->]. exists rest. cbn [app]. f_equal.
    cbn [fst snd] in M1. destruct (merge_two (inv_minus invisible hand) x y) as (c & Ec & Em). rewrite Em in M1. apply Ok_inj in M1. subst z.
    unfold merged_useful in *. rewrite (sy_step _ _ _ _ _ A1), (sy_step _ _ _ _ _ C1) in *.
    destruct (Z.ltb_spec (Z.of_nat n2 - 1) (Z.of_nat n1 - 1)); [lia|]. destruct (Z.eqb_spec (Z.of_nat n1 - 1) (Z.of_nat n2 - 1)); [lia|].
    rewrite (sy_count _ _ _ _ _ A1) in Ec. apply Ok_inj in Ec. subst c. rewrite Z.min_l by lia. rewrite <- (sy_step _ _ _ _ _ A1). now destruct x. }
  destruct Pre as [rest ->]. clear F. pose proof (sort_items_perm l) as Pm.
  exists (map (fun x => view (ri_discard x)) (sort_items l)). rewrite map_app in Nd, K. split; [|split].
  - eapply Permutation_NoDup; [apply Permutation_map; exact Pm|]. clear - Nd. induction (map (fun x => view (ri_discard x)) l) as [|k ks IH]; [constructor|].
    cbn [app] in Nd. inversion Nd; subst. constructor; [|auto]. intro X. apply H1. apply in_or_app. now left.
  - intros k X. apply K. apply in_or_app. left. eapply Permutation_in; [apply Permutation_map; symmetry; exact Pm|exact X].
  - apply Forall_app in Sy1, Ob.
    assert (Sy' : Forall (says (Standard 1 4) hand (inv_minus invisible hand) n1) (sort_items l)) by (eapply Permutation_Forall; [exact Pm|apply Sy1]).
    assert (Ob' : Forall (fun x => object (ri_discard x)) (sort_items l)) by (eapply Permutation_Forall; [exact Pm|apply Ob]).
    clear - Sy' Ob' Ni. induction (sort_items l) as [|x r IH]; cbn [map]; constructor.
    + inversion Sy' as [|? ? A _]; inversion Ob' as [|? ? B _]; subst. apply says_one in A. split.
      * now apply (norm_right _ _ (inv_minus invisible hand)).
      * intro nr. destruct (norm_count _ _ _ _ (minus_nodup hand invisible Ni) (useless_one _ _ _ nr) A) as (ks & C & D). exists ks. split; [exact C|].
        eapply counts_ext; [|exact D]. apply hidden_iff.
    + inversion Sy'; inversion Ob'; subst. auto.
Qed.

(** ** C63: the row about the tile that was discarded. *)
Theorem C63_choice : forall e p hand players invisible melds t r, discards e p hand melds t -> NoDup invisible ->
  reported e p hand players invisible melds = Ok r ->
  right_row (shapes_for (table_melds melds)) hand (face t) (sh_discard (rr_choice r)) (sh_step (rr_choice r)) (sh_useful (rr_choice r)) /\
  (reds_useless hand (best_advances (shapes_for (table_melds melds)) (without (hand_counts hand) (face t))) -> right_count (shapes_for (table_melds melds)) hand (hidden hand invisible) (face t) (sh_count (rr_choice r))).
Proof.
  intros e p hand players invisible melds t r (HP & HD & HW & HM) Ni E. rewrite table_melds_eq in *. unfold reported in E.
  destruct (report_outcome e hand players p invisible melds t HD HP HW HM) as (H & tt & ms & l & d & c & HF & _ & _ & Vt & Ot & _ & _ & _ & Nl & _ & Dc & Sc & _ & R1 & R2).
  unfold report in *. assert (Q : rr_choice r = norm c).
  { destruct (sort_items l) as [|b rest] eqn:El.
    - assert (l = []). { apply Permutation_nil. rewrite <- El. symmetry. apply sort_items_perm. } rewrite (R1 (proj1 Nl H0)) in E. discriminate.
    - destruct (R2 b rest eq_refl) as [Z0 Z1]. destruct (Z.eq_dec (ri_count b) 0) as [Z|Z]; [rewrite (Z0 Z) in E; discriminate|].
      destruct (Z1 Z) as (g & _ & Er). rewrite Er in E. apply Ok_inj in E. now subst r. }
  rewrite Q. rewrite <- Vt, <- Dc. split.
  - apply (norm_right _ _ (inv_minus invisible hand)); [exact Sc|now rewrite Dc].
  - intro nr. destruct (norm_count _ _ _ _ (minus_nodup hand invisible Ni) nr Sc) as (ks & C & D). exists ks. split; [exact C|].
    eapply counts_ext; [|exact D]. apply hidden_iff.
Qed.

(** ** C54: when the report is produced. *)
Theorem C54_outcomes : forall e p hand players invisible melds t, discards e p hand melds t ->
  (complete hand (table_melds melds) <-> reported e p hand players invisible melds = Err StopIteration) /\
  (~ complete hand (table_melds melds) -> (exists r, reported e p hand players invisible melds = Ok r) \/
     reported e p hand players invisible melds = Err ZeroDivisionError).
Proof.
  intros e p hand players invisible melds t (HP & HD & HW & HM). rewrite table_melds_eq in *. unfold reported.
  destruct (report_outcome e hand players p invisible melds t HD HP HW HM) as (H & tt & ms & l & d & c & _ & _ & _ & _ & _ & _ & _ & _ & Nl & _ & _ & _ & _ & R1 & R2).
  unfold report in *. assert (G : l <> [] -> (exists r, discard_reasoning e (SHand p hand) (SInvisible players (Some invisible)) p (SMeld p melds) = Ok r) \/
     discard_reasoning e (SHand p hand) (SInvisible players (Some invisible)) p (SMeld p melds) = Err ZeroDivisionError).
  { intro Nn. destruct (sort_items l) as [|b rest] eqn:El.
    - exfalso. apply Nn. apply Permutation_nil. rewrite <- El. symmetry. apply sort_items_perm.
    - destruct (R2 b rest eq_refl) as [Z0 Z1]. destruct (Z.eq_dec (ri_count b) 0) as [Z|Z]; [now right; apply Z0|]. left.
      destruct (Z1 Z) as (g & _ & Er). eauto. }
  split; [split; [exact R1|]|].
  - intro E. apply Nl. destruct l as [|x l]; [reflexivity|]. destruct G as [(r & X)|X]; [discriminate|rewrite X in E; discriminate|rewrite X in E; discriminate].
  - intro N. apply G. intros ->. apply N. now apply Nl.
Qed.

(** a row's count is positive exactly when some hidden tile advances the hand *)
Lemma right_count_pos ss hand unseen k n : right_count ss hand unseen k n ->
  (n <> 0 <-> exists j u, best_advances ss (without (hand_counts hand) k) j /\ unseen u /\ valid_tile u /\ face u = j).
Proof.
  intros (ks & A & l & B & C & <-). split.
  - intro N. destruct l as [|u l]; [now cbn in N|]. destruct (proj1 (C u) (or_introl eq_refl)) as (P & V & F). exists (face u), u. split; [now apply A|auto].
  - intros (j & u & X & P & V & <-). assert (Q : In u l) by (apply C; split; [exact P|split; [exact V|now apply A]]). destruct l; [destruct Q|cbn [length]; lia].
Qed.

(** With a meld on the table, no red five of the hand being useful: the report is produced exactly if after some discard
    that keeps the distance a tile the player cannot see advances the hand. *)
Theorem C54_open_partial : forall e p hand players invisible melds t, discards e p hand melds t -> NoDup invisible ->
  table_melds melds <> 0 -> reds_idle (shapes_for (table_melds melds)) hand ->
  let s := Standard 1 (4 - table_melds melds) in
  ((exists r, reported e p hand players invisible melds = Ok r) <->
   exists k j u, keeps_distance true s (hand_counts hand) k /\ advances true s (without (hand_counts hand) k) j /\
     hidden hand invisible u /\ valid_tile u /\ face u = j).
Proof.
  intros e p hand players invisible melds t (HP & HD & HW & HM) Ni N0 nr. rewrite table_melds_eq in *. intro s. unfold reported.
  destruct (report_outcome e hand players p invisible melds t HD HP HW HM) as (H & tt & ms & l & d & c & HF & _ & _ & _ & _ & _ & Em & _ & Nl & Fl & _ & _ & _ & R1 & R2).
  pose proof HD as (_ & _ & M & L & _).
  destruct (open_rows hand H (meld_count melds) (inv_minus invisible hand) HF M L N0) as (n & rows & Rr & Em').
  rewrite Em in Em'. apply Ok_inj in Em'. destruct Rr as (_ & _ & _ & K & Sy & _).
  assert (RC : forall x, In x rows -> keeps_distance true s (hand_counts hand) (view (ri_discard x)) /\
    (ri_count x <> 0 <-> exists j u, advances true s (without (hand_counts hand) (view (ri_discard x))) j /\ hidden hand invisible u /\ valid_tile u /\ face u = j)).
  { intros x X. rewrite Forall_forall in Sy. specialize (Sy x X). assert (Kx : keeps_distance true s (hand_counts hand) (view (ri_discard x))) by (apply K; now apply (in_map (fun x => view (ri_discard x)))).
    split; [exact Kx|]. pose proof (norm_count _ _ _ _ (minus_nodup hand invisible Ni) (useless_one _ _ _ (nr s _ (or_introl eq_refl) Kx)) (says_one _ _ _ _ _ Sy)) as C. rewrite (right_count_pos _ _ _ _ _ C).
    split; intros (j & u & A & B & V & F); exists j, u.
    - destruct A as (s' & n' & [<-|[]] & _ & _ & A). split; [exact A|]. split; [now apply hidden_iff|auto].
    - split; [|split; [now apply hidden_iff|auto]]. exists s, n. split; [now left|]. pose proof (sy_distance _ _ _ _ _ Sy) as D. split; [now apply best_one|auto]. }
  assert (Perm : forall x, In x (sort_items l) <-> In x rows).
  { intro x. rewrite <- Em'. split; intro X; [eapply Permutation_in; [symmetry; apply sort_items_perm|exact X]|eapply Permutation_in; [apply sort_items_perm|exact X]]. }
  unfold report in *. split.
  - intros (r & E). destruct (sort_items l) as [|b rest] eqn:El.
    + assert (l = []) by (apply Permutation_nil; rewrite <- El; symmetry; apply sort_items_perm). rewrite (R1 (proj1 Nl H0)) in E. discriminate.
    + destruct (R2 b rest eq_refl) as [Z0 _]. destruct (Z.eq_dec (ri_count b) 0) as [Z|Z]; [rewrite (Z0 Z) in E; discriminate|].
      destruct (RC b) as [A B]; [apply Perm; now left|]. apply B in Z. destruct Z as (j & u & Z). exists (view (ri_discard b)), j, u. tauto.
  - intros (k & j & u & Kk & Aj & Hu & Vu & Fu). apply K in Kk. apply in_map_iff in Kk. destruct Kk as (x & <- & X).
    assert (Cx : ri_count x <> 0) by (destruct (RC x X) as [_ Q]; apply Q; exists j, u; auto). apply Perm in X.
    pose proof (sort_items_sorted l) as Sk. destruct (sort_items l) as [|b rest] eqn:El; [destruct X|].
    assert (Cb : ri_count b <> 0).
    { destruct X as [<-|X]; [exact Cx|]. inversion Sk as [|? ? F _]; subst. rewrite Forall_forall in F. specialize (F x X).
      rewrite Forall_forall in Fl. assert (Il : forall y, In y (b :: rest) -> In y l) by (intros y Y; eapply Permutation_in; [symmetry; apply sort_items_perm|]; rewrite El; exact Y).
      destruct (Fl b (Il b (or_introl eq_refl))) as [Sb Ub], (Fl x (Il x (or_intror X))) as [Sx Ux].
      destruct (useful_count_ok (inv_minus invisible hand) (ri_useful x)) as (cx & Ex & Px). rewrite Ux in Ex. apply Ok_inj in Ex. subst cx.
      unfold key_le, key_of in F. cbn [fst snd] in F. lia. }
    destruct (R2 b rest eq_refl) as [_ Z1]. destruct (Z1 Cb) as (g & _ & Er). eauto.
Qed.

(** With nothing on the table and no useful red five: if after every discard that keeps the distance to a shape some
    hidden tile advances the hand towards it, the report is produced exactly for incomplete hands. *)
Lemma face_legal v : valid_tile v -> legal_kind (face v).
Proof.
  intro V. destruct (C05_tile_of_number v V) as (t & _ & Lt & <- & _). destruct t as [n c|c]; [exact Lt|]. cbn in *. destruct c; cbn; try lia; congruence.
Qed.
Lemma useful_count_pos inv u v n : NoDup inv -> Forall plain_tile u -> useful_count inv u = Ok n ->
  In (face v) (map view u) -> In (ITile v) inv -> valid_tile v -> 0 < n.
Proof.
  intros Ni. revert n. induction u as [|x u IH]; intros n P E F I V; [destruct F|]. inversion P as [|? ? P1 P2]; subst.
  rewrite useful_count_cons in E. destruct (copies_ok inv x) as (a & Ea & Pa). destruct (useful_count_ok inv u) as (b & Eb & Pb). rewrite Ea, Eb in E. cbn [bindr] in E. apply Ok_inj in E. subst n.
  destruct F as [F|F]; [|specialize (IH b P2 Eb F I V); lia].
  destruct (copies_plain inv x a Ni P1) as (l & _ & Il & Q); [rewrite F; now apply face_legal|exact Ea|].
  assert (X : In v l) by (apply Il; auto). destruct l; [destruct X|]. cbn [length] in Q. lia.
Qed.
Theorem C54_closed_partial : forall e p hand players invisible melds t, discards e p hand melds t -> NoDup invisible ->
  table_melds melds = 0 -> reds_idle (shapes_for 0) hand ->
  (forall s k, In s (shapes_for 0) -> keeps_distance true s (hand_counts hand) k ->
     exists u, advances true s (without (hand_counts hand) k) (face u) /\ hidden hand invisible u /\ valid_tile u) ->
  ((exists r, reported e p hand players invisible melds = Ok r) <-> ~ complete hand 0).
Proof.
  intros e p hand players invisible melds t T Ni E0 nr Live.
  pose proof (C54_outcomes e p hand players invisible melds t T) as [O1 O2]. rewrite E0 in *. split.
  - intros (r & E) C. apply O1 in C. rewrite C in E. discriminate.
  - intro NC. destruct (O2 NC) as [X|X]; [exact X|exfalso].
    destruct T as (HP & HD & HW & HM). rewrite table_melds_eq in *. unfold reported in *.
    destruct (report_outcome e hand players p invisible melds t HD HP HW HM) as (H & tt & ms & l & d & c & HF & _ & _ & _ & _ & _ & Em & _ & Nl & Fl & _ & _ & _ & R1 & R2).
    pose proof HD as (_ & _ & M & L & _).
    destruct (closed_rows hand H (meld_count melds) (inv_minus invisible hand) HF M L E0) as (n1 & rows1 & n2 & rows2 & l' & S1 & S2 & F & Em').
    rewrite Em in Em'. apply Ok_inj in Em'. unfold report in *.
    destruct (sort_items l) as [|b rest] eqn:El.
    { assert (l = []) by (apply Permutation_nil; rewrite <- El; symmetry; apply sort_items_perm). rewrite (R1 (proj1 Nl H0)) in X. discriminate. }
    destruct (R2 b rest eq_refl) as [_ Z1]. destruct (Z.eq_dec (ri_count b) 0) as [Z|Z]; [|destruct (Z1 Z) as (g & _ & Er); rewrite Er in X; discriminate].
    assert (Ib : In b l'). { eapply Permutation_in; [symmetry; apply sort_items_perm|]. rewrite Em'. now left. }
    assert (exists x y, In x rows1 /\ In y rows2 /\ reasoning_merge [x; y] (inv_minus invisible hand) = Ok b) as (x & y & Ix & Iy & Mb).
    { clear - F Ib. remember (combine rows1 rows2) as cr eqn:Ec. assert (Sub : forall xy, In xy cr -> In (fst xy) rows1 /\ In (snd xy) rows2).
      { intros [x y] I. subst cr. split; [eapply in_combine_l|eapply in_combine_r]; exact I. } clear Ec.
      induction F as [|xy z cr l' A B IH]; [destruct Ib|]. destruct Ib as [->|Ib].
      - exists (fst xy), (snd xy). destruct (Sub xy (or_introl eq_refl)). auto.
      - apply IH; [exact Ib|]. intros q Q. apply Sub. now right. }
    destruct S1 as (_ & _ & _ & K1 & Y1 & _), S2 as (_ & _ & _ & K2 & Y2 & _). rewrite Forall_forall in Y1, Y2. specialize (Y1 x Ix). specialize (Y2 y Iy).
    assert (Kx : keeps_distance true (Standard 1 4) (hand_counts hand) (view (ri_discard x))) by (apply K1; now apply (in_map (fun x => view (ri_discard x)))).
    assert (Ky : keeps_distance true (DistinctPairs 7) (hand_counts hand) (view (ri_discard y))) by (apply K2; now apply (in_map (fun x => view (ri_discard x)))).
    pose proof (held_plain _ _ _ (sy_held _ _ _ _ _ Y1) (sy_useful _ _ _ _ _ Y1) (nr _ _ (or_introl eq_refl) Kx)) as P1.
    pose proof (held_plain _ _ _ (sy_held _ _ _ _ _ Y2) (sy_useful _ _ _ _ _ Y2) (nr _ _ (or_intror (or_introl eq_refl)) Ky)) as P2.
    destruct (Live _ _ (or_introl eq_refl) Kx) as (u1 & A1 & B1 & V1). destruct (Live _ _ (or_intror (or_introl eq_refl)) Ky) as (u2 & A2 & B2 & V2).
    apply (sy_useful _ _ _ _ _ Y1) in A1. apply (sy_useful _ _ _ _ _ Y2) in A2. apply hidden_iff in B1, B2.
    destruct (merge_two (inv_minus invisible hand) x y) as (cc & Ec & Eb). rewrite Eb in Mb. apply Ok_inj in Mb. subst b. cbn [ri_count] in Z. subst cc.
    pose proof (minus_nodup hand invisible Ni) as Ni'.
    unfold merged_useful in Ec. destruct (ri_step y <? ri_step x); [pose proof (useful_count_pos _ _ _ _ Ni' P2 Ec A2 B2 V2); lia|].
    destruct (ri_step x =? ri_step y); [|pose proof (useful_count_pos _ _ _ _ Ni' P1 Ec A1 B1 V1); lia].
    assert (Au : In (face u1) (map view (set_update (ri_useful x) (ri_useful y)))) by (apply set_update_in; now right).
    pose proof (useful_count_pos _ _ _ _ Ni' (set_update_P plain_tile _ _ P2 P1) Ec Au B1 V1). lia.
Qed.

(** ** C64: the wrong rate. *)
Definition hidden_count (hand : list Z) (invisible : list inv) : Z :=
  Z.of_nat (length (filter (fun x => negb (existsb (fun t => inv_eqb x (ITile t)) hand)) invisible)).
Theorem C64_formula : forall e p hand players invisible melds t r, discards e p hand melds t ->
  reported e p hand players invisible melds = Ok r ->
  exists best, In best (rr_expected r) /\ 0 < sh_count best /\ sh_step best <= sh_step (rr_choice r) /\
    rr_wrong_rate r == 1 - inject_Z (sh_count (rr_choice r)) /
      inject_Z (sh_count best * hidden_count hand invisible ^ (sh_step (rr_choice r) - sh_step best)).
Proof.
  intros e p hand players invisible melds t r (HP & HD & HW & HM) E. rewrite table_melds_eq in *. unfold reported in E.
  destruct (report_outcome e hand players p invisible melds t HD HP HW HM) as (H & tt & ms & l & d & c & _ & _ & _ & _ & _ & _ & _ & _ & Nl & Fl & _ & _ & St & R1 & R2).
  unfold report in *. destruct (sort_items l) as [|b rest] eqn:El.
  { assert (l = []) by (apply Permutation_nil; rewrite <- El; symmetry; apply sort_items_perm). rewrite (R1 (proj1 Nl H0)) in E. discriminate. }
  assert (Ib : In b l) by (eapply Permutation_in; [symmetry; apply sort_items_perm|]; rewrite El; now left).
  rewrite Forall_forall in Fl. destruct (Fl b Ib) as [Sb Ub].
  destruct (R2 b rest eq_refl) as [Z0 Z1]. destruct (Z.eq_dec (ri_count b) 0) as [Z|Z]; [rewrite (Z0 Z) in E; discriminate|].
  destruct (Z1 Z) as (g & Eg & Er). rewrite Er in E. apply Ok_inj in E. subst r. cbn [rr_expected rr_choice rr_wrong_rate].
  destruct (useful_count_ok (inv_minus invisible hand) (ri_useful b)) as (cb & Ecb & Pcb). rewrite Ub in Ecb. apply Ok_inj in Ecb. subst cb.
  exists (norm b). cbn [norm sh_count sh_step]. split.
  - apply in_map_iff. exists b. split; [reflexivity|]. unfold first_group in Eg. apply Ok_inj in Eg. subst g. cbn [take_key]. rewrite (proj2 (key_eqb_iff _ _) eq_refl). now left.
  - split; [lia|]. split; [lia|]. rewrite inject_Z_mult. reflexivity.
Qed.

Lemma counts_unique P ks ks' n n' : (forall j : kind, In j ks <-> In j ks') -> counts_unseen P ks n -> counts_unseen P ks' n' -> n = n'.
Proof.
  intros E (l & A & B & <-) (l' & A' & B' & <-). f_equal. apply Permutation_length. apply NoDup_Permutation; [exact A|exact A'|].
  intro t. rewrite B, B', E. reflexivity.
Qed.
Lemma counts_le ks n i hand : counts_unseen (hidden hand i) ks n -> n <= hidden_count hand i.
Proof.
  intros (l & A & B & <-). unfold hidden_count. change (filter _ i) with (inv_minus i hand). apply inj_le. rewrite <- (map_length ITile). apply NoDup_incl_length.
  - apply FinFun.Injective_map_NoDup; [|exact A]. intros x y Q. now injection Q.
  - intros x X. apply in_map_iff in X. destruct X as (t & <- & T). apply hidden_iff. apply B in T. apply T.
Qed.
Lemma Qdiv_bounds a b : 0 <= a <= b -> 0 < b -> (0 <= 1 - inject_Z a / inject_Z b /\ 1 - inject_Z a / inject_Z b <= 1)%Q.
Proof.
  intros A B. assert (Pb : (0 < inject_Z b)%Q) by (unfold Qlt; cbn; lia).
  assert (U : (inject_Z a / inject_Z b <= 1)%Q). { apply Qle_shift_div_r; [exact Pb|]. rewrite Qmult_1_l, <- Zle_Qle. lia. }
  assert (L : (0 <= inject_Z a / inject_Z b)%Q). { apply Qle_shift_div_l; [exact Pb|]. rewrite Qmult_0_l. unfold Qle. cbn. lia. }
  split.
  - apply (Qplus_le_l _ _ (inject_Z a / inject_Z b)). ring_simplify. exact U.
  - apply (Qplus_le_l _ _ (inject_Z a / inject_Z b)). ring_simplify. rewrite <- (Qplus_0_l 1) at 1. apply Qplus_le_l. exact L.
Qed.
(** With a meld on the table and no useful red five the rate is between 0 and 1. *)
Theorem C64_open_partial : forall e p hand players invisible melds t r, discards e p hand melds t -> NoDup invisible ->
  table_melds melds <> 0 -> reds_idle (shapes_for (table_melds melds)) hand ->
  reds_useless hand (advances true (Standard 1 (4 - table_melds melds)) (without (hand_counts hand) (face t))) ->
  reported e p hand players invisible melds = Ok r ->
  (0 <= rr_wrong_rate r <= 1)%Q.
Proof.
  intros e p hand players invisible melds t r T Ni N0 nr nc E.
  destruct (C64_formula _ _ _ _ _ _ _ _ T E) as (b & Ib & Pb & Sb & Eq). destruct (C63_choice _ _ _ _ _ _ _ _ T Ni E) as [RR RC].
  destruct (C52_open_partial _ _ _ _ _ _ _ _ T Ni N0 E) as (ks & Nk & Kk & F).
  destruct (C52_expected _ _ _ _ _ _ E) as (x & rest & Ix & Em & Fe & Fr).
  set (s := Standard 1 (4 - table_melds melds)) in *.
  assert (Es : shapes_for (table_melds melds) = [s]) by (unfold shapes_for; destruct (Z.eqb_spec (table_melds melds) 0); [contradiction|reflexivity]).
  rewrite Es in *. specialize (RC (useless_one _ _ _ nc)). set (c := rr_choice r) in *. set (U := hidden_count hand invisible) in *.
  destruct RC as (kc & Ac & Cc). assert (Lc : 0 <= sh_count c) by (destruct Cc as (? & _ & _ & <-); lia).
  assert (Lu : sh_count c <= U) by (eapply counts_le; exact Cc).
  assert (Fb : same_row_key x b) by (rewrite Forall_forall in Fe; now apply Fe).
  assert (Pu : 0 < U).
  { rewrite Em in F. apply Forall2_app_inv_r in F. destruct F as (k1 & k2 & F1 & _ & Ek). apply in_split in Ib. destruct Ib as (b1 & b2 & Eb). rewrite Eb in F1.
    apply Forall2_app_inv_r in F1. destruct F1 as (k3 & k4 & _ & F2 & Ek1). inversion F2 as [|k ? ? ? [_ C] _]; subst. assert (Kb : In k ((k3 ++ k :: l) ++ k2)) by (apply in_or_app; left; apply in_or_app; right; now left).
    destruct (C (nr s k (or_introl eq_refl) (proj1 (Kk k) Kb))) as (kb & _ & Cb). apply counts_le in Cb. fold U in Cb. lia. }
  assert (Bound : 0 <= sh_count c <= sh_count b * U ^ (sh_step c - sh_step b)).
  { split; [exact Lc|]. destruct (Z.eq_dec (sh_step c) (sh_step b)) as [Q|Q].
    - replace (sh_step c - sh_step b) with 0 by lia. rewrite Z.pow_0_r, Z.mul_1_r.
      destruct RR as (_ & (n & Bn & Sn) & _).
      assert (Ik : In (face t) ks).
      { apply Kk. split; [destruct T as (_ & HD & _); now apply (face_count_pos hand melds t); rewrite <- table_melds_eq|].
        (* the distance of the hand is that of the expected row *)
        rewrite Em in F. apply Forall2_app_inv_r in F. destruct F as (k1 & k2 & F1 & _ & Ek). apply in_split in Ib. destruct Ib as (b1 & b2 & Eb). rewrite Eb in F1.
        apply Forall2_app_inv_r in F1. destruct F1 as (k3 & k4 & _ & F2 & Ek1). inversion F2 as [|k ? ? ? [(_ & (nb & Bb & Sb') & _) _] _]; subst.
        assert (In k ((k3 ++ k :: l) ++ k2)) as Ikk by (apply in_or_app; left; apply in_or_app; right; now left).
        apply Kk in Ikk. destruct Ikk as (_ & nh & D1 & D2). destruct Bn as [(s' & [<-|[]] & Dn) _]. destruct Bb as [(s' & [<-|[]] & Db) _].
        assert (nh = nb) by (eapply distance_unique; eassumption). assert (n = nb) by lia. subst. exists nb. auto. }
      apply in_split in Ik. destruct Ik as (k1 & k2 & ->). apply Forall2_app_inv_l in F. destruct F as (m1 & m2 & _ & F2 & Emm). inversion F2 as [|? row ? ? [_ C] _]; subst.
      destruct (C nc) as (kr & Ar & Cr). assert (sh_count row = sh_count c).
      { eapply counts_unique; [|exact Cr|exact Cc]. intro j. rewrite Ar, Ac. reflexivity. }
      destruct Fb as [Fb1 Fb2]. assert (In row (rr_expected r ++ rest)) as Ir by (rewrite <- Em, Emm; apply in_or_app; right; now left).
      apply in_app_or in Ir. rewrite Forall_forall in Fe, Fr. destruct Ir as [Ir|Ir]; [destruct (Fe row Ir); lia|].
      destruct (Fr row Ir) as [X|X]; [|lia]. exfalso.
      inversion F2 as [|? ? ? ? [(_ & (nr' & Br & Sr) & _) _] _]; subst. rewrite (best_unique _ _ _ _ Br Bn) in Sr. lia.
    - assert (U ^ 1 <= U ^ (sh_step c - sh_step b)) by (apply Z.pow_le_mono_r; lia). rewrite Z.pow_1_r in *. nia. }
  rewrite Eq. apply Qdiv_bounds; [exact Bound|]. pose proof (Z.pow_pos_nonneg U (sh_step c - sh_step b)). nia.
Qed.
(** The rate is zero for a choice as good as the expected rows. *)
Theorem C64_zero : forall e p hand players invisible melds t r x, discards e p hand melds t ->
  reported e p hand players invisible melds = Ok r -> In x (rr_expected r) ->
  sh_step x = sh_step (rr_choice r) -> sh_count x = sh_count (rr_choice r) -> rr_wrong_rate r == 0.
Proof.
  intros e p hand players invisible melds t r x T E Ix S1 C1. destruct (C64_formula _ _ _ _ _ _ _ _ T E) as (b & Ib & Pb & Sb & Eq).
  destruct (C52_expected _ _ _ _ _ _ E) as (y & rest & Iy & Em & Fe & Fr). rewrite Forall_forall in Fe. destruct (Fe x Ix), (Fe b Ib).
  rewrite Eq. replace (sh_step (rr_choice r) - sh_step b) with 0 by lia. rewrite Z.pow_0_r, Z.mul_1_r. replace (sh_count (rr_choice r)) with (sh_count b) by lia.
  field. unfold Qeq. cbn. lia.
Qed.

(** ** C53: one row for each discard. *)
Definition discards_tile (p : Z) (e : event) : bool := match is_discard p e with Ok b => b | Err _ => false end.
Lemma is_discard_total p e : seat p -> is_discard p e = Ok (discards_tile p e).
Proof. intro P. unfold discards_tile, is_discard, discard_match. now rewrite nth_discard. Qed.
Lemma discard_not_richii p e : seat p -> discards_tile p e = true -> is_richii e = false.
Proof.
  intros P D. unfold discards_tile, is_discard, discard_match in D. rewrite nth_discard in D by exact P. cbn [bindr] in D.
  unfold is_richii, has_tag. destruct (tag e) as [|c l]; [reflexivity|]. cbn [regex_prefix] in D. destruct (Z.eqb_spec c (discard_letter p)) as [->|]; [|discriminate].
  unfold discard_letter, seat in *. change (t_ "REACH") with [82; 69; 65; 67; 72]. cbn [text_eqb]. destruct (Z.eqb_spec (68 + p) 82); [lia|reflexivity].
Qed.
Lemma discards_tile_action p a e : seat p -> legal_action a -> writes a e ->
  discards_tile p e = match a with Discard q _ => q =? p | _ => false end.
Proof.
  intros P L W. unfold discards_tile, is_discard. rewrite (discard_match_eq p a e P L W). cbn [bindr].
  destruct a as [| |q t| | |]; try reflexivity. destruct (q =? p); reflexivity.
Qed.
Lemma points_eq p acts es : seat p -> log acts es -> forall pre, points (discards_tile p) pre es = discard_points p pre acts es.
Proof.
  intros P [L W]. induction W as [|a e acts es W1 W2 IH]; intro pre; [reflexivity|]. inversion L as [|? ? L1 L2]; subst. cbn [points discard_points].
  rewrite (discards_tile_action p a e P L1 W1), (IH L2). f_equal. now destruct a.
Qed.
Lemma turns_alternate p acts es : seat p -> log acts es -> takes_turns p acts -> alternates (discards_tile p) es.
Proof.
  intros P [L W]. induction W as [|a e acts es W1 W2 IH]; intro TT; [constructor|]. inversion L as [|? ? L1 L2]; subst.
  destruct W2 as [|a' e' acts es W3 W4]; [constructor|]. constructor.
  - rewrite (discards_tile_action p a e P L1 W1). destruct a as [| |q t| | |]; try discriminate. intro Q. apply Z.eqb_eq in Q. subst q.
    inversion L2 as [|? ? L3 L4]; subst. rewrite (discards_tile_action p a' e' P L3 W3). destruct a' as [| |q' t'| | |]; try reflexivity.
    destruct (Z.eqb_spec q' p) as [->|]; [|reflexivity]. exfalso. apply (TT [] acts t t'). reflexivity.
  - apply IH; [exact L2|]. intros before after t t' Q. apply (TT (a :: before) after t t'). now rewrite Q.
Qed.

Theorem C53_one_row_per_discard : forall p players acts es rows, seat p -> log acts es -> takes_turns p acts ->
  (game_reason_list es p players = Ok rows <->
   (exists hs is ms, passed_events (SHand p []) es = Ok hs /\ passed_events (SInvisible players (initial_invisible players)) es = Ok is /\
      passed_events (SMeld p []) es = Ok ms) /\
   Forall2 (fun pt row => exists hs is ms r,
      passed_events (SHand p []) (fst pt) = Ok hs /\ passed_events (SInvisible players (initial_invisible players)) (fst pt) = Ok is /\
      passed_events (SMeld p []) (fst pt) = Ok ms /\ discard_reasoning (snd pt) hs is p ms = Ok r /\
      row = flagged r (rr_somebody_richii row) /\ (rr_somebody_richii row = true <-> somebody_declared_riichi (fst pt)))
     (discard_points p [] acts es) rows).
Proof.
  intros p players acts es rows P LG TT. unfold game_reason_list.
  rewrite (game_iff p (fresh_states p players) (discards_tile p) (fun e => is_discard_total p e P) (fun e => discard_not_richii p e P) (fresh_constructed p players) es rows (turns_alternate p acts es P LG TT)).
  rewrite (points_eq p acts es P LG). 
  assert (PS : forall l s, pass_states (fresh_states p players) l = Ok s <->
    passed_events (SHand p []) l = Ok (st_hand s) /\ passed_events (SInvisible players (initial_invisible players)) l = Ok (st_invisible s) /\ passed_events (SMeld p []) l = Ok (st_meld s)).
  { intros l s. unfold pass_states, fresh_states. cbn [st_hand st_invisible st_meld]. split.
    - destruct (passed_events (SHand p []) l); [|discriminate]. cbn [bindr]. destruct (passed_events (SInvisible players (initial_invisible players)) l); [|discriminate]. cbn [bindr].
      destruct (passed_events (SMeld p []) l); [|discriminate]. cbn [bindr]. intro E. apply Ok_inj in E. subst s. auto.
    - intros (-> & -> & ->). cbn [bindr]. now destruct s. }
  assert (RI : forall l, existsb is_richii l = true <-> somebody_declared_riichi l).
  { intro l. rewrite existsb_exists. unfold somebody_declared_riichi, is_richii, has_tag. split; intros (x & A & B); exists x; (split; [exact A|]); now apply text_eqb_iff. }
  split; intros [A B]; split.
  - destruct A as (s & A). apply PS in A. exists (st_hand s), (st_invisible s), (st_meld s). exact A.
  - clear A. induction B as [|pt row pts rows (s & r & X1 & X2 & X3) B IH]; constructor; [|exact IH]. apply PS in X1. exists (st_hand s), (st_invisible s), (st_meld s), r.
    destruct X1 as (Y1 & Y2 & Y3). do 4 (split; [assumption|]). subst row. cbn [flagged rr_somebody_richii]. split; [reflexivity|apply RI].
  - destruct A as (hs & is & ms & A). exists (mkStates hs is ms). now apply PS.
  - clear A. induction B as [|pt row pts rows (hs & is & ms & r & Y1 & Y2 & Y3 & X2 & X3 & X4) B IH]; constructor; [|exact IH].
    exists (mkStates hs is ms), r. split; [now apply PS|]. split; [exact X2|]. rewrite X3. f_equal.
    destruct (rr_somebody_richii row); destruct (existsb is_richii (fst pt)) eqn:Er; try reflexivity.
    + symmetry. apply not_false_iff_true. intro. rewrite <- Er in *. assert (true = true) as X by reflexivity. apply X4, RI in X. congruence.
    + exfalso. apply RI, X4 in Er. discriminate.
Qed.
(** In particular there are as many rows as the player made discards. *)
Theorem C53_count : forall p players acts es rows, seat p -> log acts es -> takes_turns p acts ->
  game_reason_list es p players = Ok rows -> length rows = length (discards_of p acts).
Proof.
  intros p players acts es rows P LG TT E. apply (C53_one_row_per_discard p players acts es rows P LG TT) in E. destruct E as [_ F].
  assert (Q : length (discard_points p [] acts es) = length rows) by (clear - F; induction F; cbn [length]; congruence).
  rewrite <- Q. clear - LG. destruct LG as [_ W]. generalize (@nil event). induction W as [|a e acts es W1 W2 IH]; intro pre; [reflexivity|].
  cbn [discard_points]. unfold discards_of in *. cbn [flat_map]. rewrite !app_length, IH. f_equal. destruct a as [| |q t| | |]; try reflexivity. now destruct (q =? p).
Qed.

(** ** C55: counting the useful tiles. *)
Theorem C55_convert_partial : forall invisible t useful step x, NoDup invisible -> NoDup (map view useful) ->
  Forall (fun u => legal_kind (view u)) useful -> Forall plain_tile useful ->
  convert_to_reasoning invisible t useful step = Ok x ->
  counts_unseen (fun u => In (ITile u) invisible) (map view useful) (ri_count x).
Proof.
  intros i t u st x Ni Nu L P E. unfold convert_to_reasoning in E. destruct (useful_count i u) as [c|] eqn:Ec; [|discriminate]. cbn [bindr] in E.
  apply Ok_inj in E. subst x. now apply useful_plain.
Qed.
Theorem C55_merge_partial : forall invisible l x, NoDup invisible ->
  Forall (fun y => NoDup (map view (ri_useful y)) /\ Forall (fun u => legal_kind (view u)) (ri_useful y) /\ Forall plain_tile (ri_useful y)) l ->
  reasoning_merge l invisible = Ok x ->
  counts_unseen (fun u => In (ITile u) invisible) (map view (ri_useful x)) (ri_count x).
Proof.
  intros i l x Ni F E. unfold reasoning_merge in E. destruct l as [|y l]; [discriminate|]. destruct (min_list _) as [st|]; [|discriminate]. cbn [bindr] in E.
  destruct (useful_count i _) as [c|] eqn:Ec; [|discriminate]. cbn [bindr] in E. apply Ok_inj in E. subst x. cbn [ri_useful ri_count].
  assert (G : forall l y, Forall (fun y => NoDup (map view (ri_useful y)) /\ Forall (fun u => legal_kind (view u)) (ri_useful y) /\ Forall plain_tile (ri_useful y)) (y :: l) ->
     let z := fold_left reduce_useful l y in NoDup (map view (ri_useful z)) /\ Forall (fun u => legal_kind (view u)) (ri_useful z) /\ Forall plain_tile (ri_useful z)).
  { clear. induction l as [|w l IH]; intros y F; [now inversion F|]. cbn [fold_left]. apply IH. inversion F as [|? ? (A1 & A2 & A3) F']; subst. inversion F' as [|? ? (B1 & B2 & B3) F'']; subst.
    constructor; [|exact F'']. unfold reduce_useful. destruct (ri_step w <? ri_step y); [auto|]. destruct (ri_step y =? ri_step w); [|auto]. cbn [ri_useful].
    split; [now apply set_update_nodup|]. split; apply set_update_P; assumption. }
  destruct (G l y F) as (A & B & C). now apply useful_plain.
Qed.
(** For a red five among the useful tiles the count is wrong: a red 5p counts the unseen 9m tiles, a red
    5m counts nothing. *)
Theorem C55_refuted : exists invisible t useful x, NoDup invisible /\ NoDup (map view useful) /\ Forall (fun u => legal_kind (view u)) useful /\
  convert_to_reasoning invisible t useful 0 = Ok x /\
  forall n, counts_unseen (fun u => In (ITile u) invisible) (map view useful) n -> n <> ri_count x.
Proof.
  exists [ITile 32; ITile 33; ITile 53], (Plain 1 Cz), [Aka Cp]. eexists. split.
  { apply NoDup_cons_iff. split; [cbn; intuition discriminate|]. apply NoDup_cons_iff. split; [cbn; intuition discriminate|]. apply NoDup_cons_iff. split; [intros []|constructor]. }
  split; [constructor; [intros []|constructor]|]. split; [constructor; [cbn; lia|constructor]|]. split; [vm_compute; reflexivity|].
  intros n (l & N & I & <-). cbn [ri_count]. destruct l as [|a [|b l]]; cbn [length]; try lia.
  exfalso. inversion N as [|? ? N1 N2]; subst. apply N1.
  assert (X : forall u, In u (a :: b :: l) -> u = 53).
  { intros u U. apply I in U. destruct U as (U & _ & V). cbn in V. destruct V as [V|[]]. destruct U as [U|[U|[U|[]]]]; injection U as <-; [discriminate V|discriminate V|reflexivity]. }
  rewrite (X a (or_introl eq_refl)), (X b (or_intror (or_introl eq_refl))). now left.
Qed.

(** ** C67: the tables for the single patterns, to which the page refers, are never provided. *)
Theorem C67_tables_refuted : forall e hs is p ms r, discard_reasoning e hs is p ms = Ok r -> rr_extra r = [].
Proof.
  intros e hs is p ms r E. unfold discard_reasoning in E.
  destruct (opt_minus _ _); [|discriminate]. cbn [bindr] in E. destruct (hand_tiles _); [|discriminate]. cbn [bindr] in E.
  destruct (merged_rows _ _ _); [|discriminate]. cbn [bindr] in E. destruct (first_group _); [|discriminate]. cbn [bindr] in E.
  destruct (discard_tile_index p e); [|discriminate]. cbn [bindr] in E. destruct (tile_from_tenhou _); [|discriminate]. cbn [bindr] in E.
  destruct (choice_row _ _ _ _); [|discriminate]. cbn [bindr] in E. destruct (py_nth _ 0); [|discriminate]. cbn [bindr] in E.
  destruct (wrong_rate _ _ _); [|discriminate]. cbn [bindr] in E. destruct (mapM _ _); [|discriminate]. cbn [bindr] in E. apply Ok_inj in E. subst r. reflexivity.
Qed.

Print Assumptions C52_expected.
Print Assumptions C52_open_partial.
Print Assumptions C52_closed_partial.
Print Assumptions C63_choice.
Print Assumptions C54_outcomes.
Print Assumptions C54_open_partial.
Print Assumptions C54_closed_partial.
Print Assumptions C64_formula.
Print Assumptions C64_open_partial.
Print Assumptions C64_zero.
Print Assumptions C53_one_row_per_discard.
Print Assumptions C53_count.
Print Assumptions C55_convert_partial.
Print Assumptions C55_merge_partial.
Print Assumptions C55_refuted.
