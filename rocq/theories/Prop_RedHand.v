(** C55, C52: red fives of the hand. A row names a red five among its useful tiles only if the hand
    holds it; a hand with a red five that is of no use is counted right. *)
From Coq Require Import String.
From Verif Require Import TileSet Waiting TileSetFacts.
From Verif Require Import Base Tile Spec_Tile Spec_Win Spec_Waiting Parse Text Tenhou TenhouProofs Spec_Meld MeldProofs Prop_Meld Event State Spec_Log StateProofs Prop_State Checker Spec_Checker.
From Verif Require Import WinFacts WinProofs WaitingBrute WaitingTop CheckerProofs CheckerHand CheckerRows CheckerReport RedKeys CheckerGame Prop_Checker CheckerTexts Prop_CheckerWitness Spec_Mixed Prop_Mixed.
From Coq Require Import List ZArith QArith Lia Bool Permutation.
Import ListNotations.
Open Scope list_scope.
Open Scope Z_scope.

Lemma text_red t c : legal_kind (view t) -> tile_str t = face_text (c, 0) -> t = Aka c.
Proof.
  intros L Q. unfold face_text, tile_str in Q. cbn [fst snd] in Q. apply app_inj_tail in Q. destruct Q as [R Q].
  assert (E : tcolor t = c) by (destruct (tcolor t), c; cbn in Q; congruence || discriminate).
  destruct t as [n d|d]; cbn [tcolor tnumber view] in *; subst d; [exfalso|reflexivity]. unfold legal_kind in L. cbn [fst snd] in L.
  destruct (str_int_nonneg n) as (_ & _ & V); [destruct c; lia|]. rewrite R in V. assert (n = 0) by (now rewrite <- V). destruct c; lia.
Qed.
Lemma text_plain t c : legal_kind (view t) -> tile_str t = face_text (c, 5) -> t = Plain 5 c.
Proof.
  intros L Q. unfold face_text, tile_str in Q. cbn [fst snd] in Q. apply app_inj_tail in Q. destruct Q as [R Q].
  assert (E : tcolor t = c) by (destruct (tcolor t), c; cbn in Q; congruence || discriminate).
  destruct t as [n d|d]; cbn [tcolor tnumber view] in *; subst d; [|discriminate]. unfold legal_kind in L. cbn [fst snd] in L.
  destruct (str_int_nonneg n) as (_ & _ & V); [destruct c; lia|]. rewrite R in V. f_equal. now rewrite <- V.
Qed.
Lemma norm_text x s : NoDup (map view (ri_useful x)) -> In s (sh_useful (norm x)) -> exists t, In t (ri_useful x) /\ tile_str t = s.
Proof.
  intros N I0. cbn [norm sh_useful] in I0. destruct (sorted_tiles_spec _ N) as [_ S0]. apply in_map_iff in I0. destruct I0 as (t & Q & T). apply S0 in T. eauto.
Qed.
Lemma norm_held hand x c : Forall (held hand) (ri_useful x) -> NoDup (map view (ri_useful x)) -> Forall (fun t => legal_kind (view t)) (ri_useful x) ->
  In (face_text (c, 0)) (sh_useful (norm x)) -> exists u, In u hand /\ red_number u /\ face u = (c, 5).
Proof.
  intros F N L I0. destruct (norm_text _ _ N I0) as (t & T & Q). rewrite Forall_forall in F, L. rewrite (text_red t c (L t T) Q) in T. apply (F _ T).
Qed.
(** What all rows of the report have in common. *)
Definition row_fact (hand : list Z) (x : item) : Prop :=
  Forall (held hand) (ri_useful x) /\ NoDup (map view (ri_useful x)) /\ Forall (fun t => legal_kind (view t)) (ri_useful x).
Lemma report_rows e p hand players invisible melds t r : discards e p hand melds t -> reported e p hand players invisible melds = Ok r ->
  exists H tt l c, hand_facts hand H /\ hand_tiles hand = Ok H /\ tile_from_tenhou t = Ok tt /\ view tt = face t /\
    Forall (row_fact hand) l /\ Forall (useful_are (sure H)) l /\ row_fact hand c /\
    useful_are (sure (ts_sub (re_sort H) (of_tiles [tt]))) c /\ useful_are (left_over (ts_sub (re_sort H) (of_tiles [tt]))) c /\
    rr_choice r = norm c /\ rr_merged r = map norm l /\ incl (rr_expected r) (map norm l).
Proof.
  intros (HP & HD & HW & HM) E. rewrite table_melds_eq in *. unfold reported in E.
  destruct (report_form e hand players p invisible melds t HD HP HW HM) as (H & tt & mt & HF & EH & Et & Vt & Ot & Pt & _ & R). rewrite R in E.
  pose proof HD as (_ & _ & M & L & _).
  assert (X : exists l, Forall (row_fact hand) l /\ merged_rows H (inv_minus invisible hand) (map pattern_of (shapes_for (meld_count melds))) = Ok (sort_items l)).
  { destruct (Z.eq_dec (meld_count melds) 0) as [E0|N0].
    - destruct (closed_rows hand H (meld_count melds) (inv_minus invisible hand) HF M L E0) as (m1 & rows1 & m2 & rows2 & l & R1 & R2 & F & Em).
      exists l. split; [|exact Em]. destruct R1 as (_ & _ & _ & _ & Sy1 & Ob1), R2 as (_ & _ & _ & _ & Sy2 & _). clear - F Sy1 Sy2 Ob1.
      revert rows2 l F Sy2. induction Sy1 as [|x rows1 A1 B1 IH]; intros [|y rows2] l F Sy2; cbn [combine] in F; inversion F as [|? z ? l' M1 M2]; subst; constructor.
      + inversion Sy2; inversion Ob1; subst. cbn [fst snd] in M1. pose proof (says_mixed _ _ _ _ _ _ _ A1 H1 H5 M1) as Mx. unfold row_fact.
        split; [apply Mx|]. split; [apply Mx|]. apply Forall_forall. intros u U.
        destruct (proj1 (mx_useful _ _ _ _ _ _ Mx (view u)) (in_map view _ _ U)) as [(_ & Q)|(_ & Q)]; apply Q.
      + inversion Sy2; inversion Ob1; subst. eapply IH; eassumption.
    - destruct (open_rows hand H (meld_count melds) (inv_minus invisible hand) HF M L N0) as (n & rows & Rr & Em). exists rows. split; [|exact Em].
      destruct Rr as (_ & _ & _ & _ & Sy & _). eapply Forall_impl; [|exact Sy]. intros y A. unfold row_fact. split; [apply A|]. split; [apply A|].
      apply says_one in A. eapply legal_of_useful. exact A. }
  destruct X as (l & Fl & Em). rewrite Em in E. cbn [bindr] in E.
  destruct (first_group (sort_items l)) as [g|] eqn:Eg; [|discriminate]. cbn [bindr] in E. destruct (choice_row _ _ _ _) as [ch|] eqn:Ec; [|discriminate]. cbn [bindr] in E.
  destruct (py_nth _ 0); [|discriminate]. cbn [bindr] in E. destruct (wrong_rate _ _ _); [|discriminate]. cbn [bindr] in E. apply Ok_inj in E. subst r. cbn [rr_merged rr_choice rr_expected].
  assert (W : wf H) by apply (hand_ok_good _ (hf_ok _ _ HF)).
  exists H, tt, (sort_items l), ch. do 4 (split; [assumption|]). split; [eapply Permutation_Forall; [apply sort_items_perm|exact Fl]|].
  split; [eapply merged_are; [|exact Em]; intros w rows; now apply one_win_sure|]. split; [|split; [|split; [|split; [reflexivity|split; [reflexivity|]]]]].
  - destruct (choice_all hand H (meld_count melds) (inv_minus invisible hand) HF M L tt) as (choice & Ec' & Dc & Sc); [rewrite Vt; eapply face_count_pos; eassumption|exact Ot|exact Pt|].
    rewrite Ec' in Ec. apply Ok_inj in Ec. subst ch. split; [apply Sc|]. split; [apply Sc|]. eapply legal_of_useful. exact Sc.
  - eapply choice_are; [|exact Ec]. intros w y. apply discards_sure. now apply wf_re_sort.
  - eapply choice_are; [|exact Ec]. intros w y. apply discards_left.
  - intros y Y. apply in_map_iff in Y. destruct Y as (z & <- & Y). apply in_map.
    destruct (first_group_split _ _ (sort_items_sorted l) Eg) as (z' & g' & rest & _ & Q & _). rewrite Q. apply in_or_app. now left.
Qed.

(** The texts 0m, 0p, 0s stand among the useful tiles of a row, also of the one about the choice,
    only if the hand holds that red five. *)
Theorem C55_red_held : forall e p hand players invisible melds t r x c, discards e p hand melds t ->
  reported e p hand players invisible melds = Ok r -> In x (rr_choice r :: rr_expected r ++ rr_merged r) ->
  In (face_text (c, 0)) (sh_useful x) -> exists u, In u hand /\ red_number u /\ face u = (c, 5).
Proof.
  intros e p hand players invisible melds t r x c T E I0.
  destruct (report_rows _ _ _ _ _ _ _ _ T E) as (H & tt & l & ch & _ & _ & _ & _ & F & _ & Fc & _ & _ & Ec & Em & Ee).
  assert (G : exists y, x = norm y /\ row_fact hand y).
  { destruct I0 as [<-|I0]; [exists ch; split; [exact Ec|exact Fc]|]. assert (I1 : In x (map norm l)) by (apply in_app_or in I0; destruct I0 as [I0|I0]; [now apply Ee|now rewrite <- Em]).
    apply in_map_iff in I1. destruct I1 as (y & <- & Y). exists y. split; [reflexivity|]. rewrite Forall_forall in F. now apply F. }
  destruct G as (y & -> & A & B & C). now apply norm_held.
Qed.

Lemma held_once : forall hand u, In u hand -> 1 <= hand_counts hand (face u).
Proof.
  intros hand u. unfold hand_counts, count_kind. induction hand as [|x l IH]; intros [].
  - subst x. cbn [map sumZ]. rewrite same_kind_eqb, (proj2 (kind_eqb_eq _ _) eq_refl).
    assert (0 <= sumZ (fun x => if same_kind x (face u) then 1 else 0) (map face l)); [|lia]. apply sumZ_nonneg. intro y. destruct (same_kind y (face u)); lia.
  - cbn [map sumZ]. specialize (IH H). destruct (same_kind (face x) (face u)); lia.
Qed.
Lemma key_left H o t : wf H -> wf o -> In t (map fst H) -> (In t (map fst (ts_sub H o)) <-> 0 < getk H (view t) - getk o (view t)).
Proof.
  intros W Wo T. pose proof (wf_sub_into H o W) as Ws. pose proof (sub_into_has o H t T) as T'. rewrite <- getk_sub_into by exact Wo.
  assert (G : forall n, In (t, n) (sub_into H o) -> getk (sub_into H o) (view t) = n) by (intros n; now apply getk_in).
  unfold ts_sub, keep_positive. split.
  - intro X. apply in_map_iff in X. destruct X as ([t' n] & Q & X). cbn [fst] in Q. subst t'. apply filter_In in X. destruct X as [X Y]. cbn [snd] in Y. rewrite (G n X). now apply Z.ltb_lt.
  - intro P. apply in_map_iff in T'. destruct T' as ([t' n] & Q & X). cbn [fst] in Q. subst t'. rewrite (G n X) in P. apply in_map_iff. exists (t, n). split; [reflexivity|]. apply filter_In. split; [exact X|]. now apply Z.ltb_lt.
Qed.

(** Of the fives of a suit the first in the list of the hand decides: if it is the red one, a row with
    this five among its useful tiles shows it as 0, otherwise as 5. The row about the choice shows it
    as 5 also if the five is discarded and there is no other. *)
Theorem C55_red_shown : forall e p hand players invisible melds t r c before u after, discards e p hand melds t ->
  reported e p hand players invisible melds = Ok r ->
  hand = before ++ u :: after -> face u = (c, 5) -> c <> Cz -> Forall (fun v => face v <> (c, 5)) before ->
  (forall x, In x (rr_expected r ++ rr_merged r) ->
     (In (face_text (c, 0)) (sh_useful x) -> red_number u) /\ (In (face_text (c, 5)) (sh_useful x) -> ~ red_number u)) /\
  (In (face_text (c, 0)) (sh_useful (rr_choice r)) -> red_number u /\ ~ (face t = (c, 5) /\ hand_counts hand (c, 5) = 1)) /\
  (In (face_text (c, 5)) (sh_useful (rr_choice r)) -> ~ red_number u \/ (face t = (c, 5) /\ hand_counts hand (c, 5) = 1)).
Proof.
  intros e p hand players invisible melds t r c before u after T E Eh Fu Nz Fb.
  destruct (report_rows _ _ _ _ _ _ _ _ T E) as (H & tt & l & ch & HF & EH & Et & Vt & F & S0 & (Fc1 & Fc2 & Fc3) & Sc & Lc & Ec & Em & Ee).
  assert (W : wf H) by apply (hand_ok_good _ (hf_ok _ _ HF)).
  assert (Vu : valid_tile u). { destruct T as (_ & (_ & V & _) & _). rewrite Eh in V. apply Forall_app in V. destruct V as [_ V]. now inversion V. }
  destruct (C05_tile_of_number u Vu) as (tu & Etu & Ltu & Vtu & Ru).
  assert (K : In tu (map fst H)).
  { unfold hand_tiles in EH. destruct (mapM tile_from_tenhou hand) as [lt|] eqn:El; [|discriminate]. cbn [bindr] in EH. apply Ok_inj in EH. subst H. apply of_tiles_keys_first.
    pose proof (mapM_Forall2 _ _ _ El) as F2. rewrite Eh in F2. apply Forall2_app_inv_l in F2. destruct F2 as (a & b' & Fa & Fb' & ->). inversion Fb' as [|? tu' ? b Q _]; subst.
    rewrite Etu in Q. apply Ok_inj in Q. subst tu'. exists a, b. split; [reflexivity|]. rewrite Vtu, Fu. assert (Va : Forall valid_tile before).
    { destruct T as (_ & (_ & V & _) & _). apply Forall_app in V. apply V. }
    clear - Fa Fb Va. induction Fa as [|i y before a A B IH]; [constructor|]. inversion Fb; inversion Va; subst. constructor; [|auto].
    destruct (C05_tile_of_number i) as (y' & Ey & _ & Vy & _); [assumption|]. rewrite Ey in A. apply Ok_inj in A. subst y'. now rewrite Vy. }
  assert (Vk : view tu = (c, 5)) by (now rewrite Vtu).
  assert (Red : tu = Aka c -> red_number u) by (intros ->; apply Ru; eauto).
  assert (Pla : tu = Plain 5 c -> ~ red_number u) by (intros -> R; apply Ru in R; destruct R; discriminate).
  assert (W' : wf (re_sort H)) by now apply wf_re_sort.
  assert (W1 : wf (of_tiles [tt])) by apply wf_of_tiles.
  assert (K' : In tu (map fst (re_sort H))) by (eapply Permutation_in; [apply Permutation_map; symmetry; apply re_sort_perm|exact K]).
  assert (G : getk (re_sort H) (c, 5) = hand_counts hand (c, 5)).
  { rewrite getk_re_sort by exact W. rewrite (hand_ok_fc _ (hf_ok _ _ HF)). apply (hf_count _ _ HF). }
  assert (Gt : getk (of_tiles [tt]) (c, 5) = if kind_eqb (face t) (c, 5) then 1 else 0).
  { rewrite getk_of_tiles. unfold occ. cbn [sumZ]. rewrite Vt. destruct (kind_eqb (face t) (c, 5)); lia. }
  pose proof (key_left _ _ tu W' W1 K') as KL. rewrite Vk, G, Gt in KL.
  unfold useful_are in Sc, Lc. rewrite Forall_forall in Sc, Lc, Fc3.
  split; [|split].
  - intros x I0. assert (I1 : In x (map norm l)) by (apply in_app_or in I0; destruct I0 as [I0|I0]; [now apply Ee|now rewrite <- Em]).
    apply in_map_iff in I1. destruct I1 as (y & <- & Y). rewrite Forall_forall in F, S0. destruct (F y Y) as (_ & N & L). specialize (S0 y Y). unfold useful_are in S0. rewrite Forall_forall in L, S0.
    split; intro I1; destruct (norm_text _ _ N I1) as (z & Z & Q).
    + apply text_red in Q; [|now apply L]. subst z. apply Red. now apply (S0 _ Z).
    + apply text_plain in Q; [|now apply L]. subst z. apply Pla. now apply (S0 _ Z).
  - rewrite Ec. intro I1. destruct (norm_text _ _ Fc2 I1) as (z & Z & Q). apply text_red in Q; [|now apply Fc3]. subst z.
    destruct (Lc _ Z) as [X|X]; [destruct X as (? & ? & X); discriminate|].
    assert (P : 0 < hand_counts hand (c, 5) - (if kind_eqb (face t) (c, 5) then 1 else 0)).
    { rewrite <- G, <- Gt. apply in_map_iff in X. destruct X as ([y n] & Q & X). cbn [fst] in Q. subst y.
      pose proof (getk_in _ _ _ (wf_ts_sub _ _ W') X) as Gn. rewrite getk_ts_sub in Gn by assumption. cbn [view] in Gn.
      unfold ts_sub, keep_positive in X. apply filter_In in X. destruct X as [_ X]. cbn [snd] in X. apply Z.ltb_lt in X. change (0 + 5) with 5 in Gn.
      lia. }
    split; [apply Red; apply (Sc _ Z); [now apply KL|exact Vk]|]. intros (Ft & C1). rewrite (proj2 (kind_eqb_eq _ _) Ft) in P. lia.
  - rewrite Ec. intro I1. destruct (norm_text _ _ Fc2 I1) as (z & Z & Q). apply text_plain in Q; [|now apply Fc3]. subst z.
    destruct (Z_lt_le_dec 0 (hand_counts hand (c, 5) - (if kind_eqb (face t) (c, 5) then 1 else 0))) as [P|P].
    + left. apply Pla. apply (Sc _ Z); [now apply KL|exact Vk].
    + right. assert (C1 : 1 <= hand_counts hand (c, 5)) by (rewrite <- Fu; apply held_once; rewrite Eh; apply in_or_app; right; now left).
      destruct (kind_eqb (face t) (c, 5)) eqn:Ek; [|lia]. apply kind_eqb_eq in Ek. split; [exact Ek|lia].
Qed.
(** A wait on 5p with a red 5p alone, with a red 5p after a plain one, and after the only five, a red
    one, has been discarded. *)
Example C55_shown_case :
  (discards (drop 128) 0 [0; 4; 8; 36; 40; 44; 52; 128] two_pons 128 /\
   exists r, reported (drop 128) 0 [0; 4; 8; 36; 40; 44; 52; 128] 4 everything two_pons = Ok r /\ sh_useful (rr_choice r) = [t_ "0p"]) /\
  (discards (drop 128) 0 [0; 4; 8; 53; 52; 68; 69; 128] two_pons 128 /\
   exists r, reported (drop 128) 0 [0; 4; 8; 53; 52; 68; 69; 128] 4 everything two_pons = Ok r /\ sh_useful (rr_choice r) = [t_ "5p"; t_ "9p"]) /\
  (discards (drop 52) 0 [0; 4; 12; 44; 48; 52; 104; 105] two_pons 52 /\
   exists r, reported (drop 52) 0 [0; 4; 12; 44; 48; 52; 104; 105] 4 everything two_pons = Ok r /\ sh_useful (rr_choice r) = [t_ "3m"; t_ "2p"; t_ "5p"]).
Proof.
  repeat match goal with |- _ /\ _ => split end; try (apply discards_checked; vm_compute; reflexivity); eexists; (split; [vm_compute; reflexivity|]); cbn [rr_choice sh_useful]; reflexivity.
Qed.

(** *** A red five that is of no use. *)
Definition idle_b (hand : list Z) (s : shape) : bool :=
  match hand_tiles hand with
  | Ok H => match one_win_reasoning H [] (pattern_of s) with
            | Ok rows => forallb (fun x => forallb (fun u => negb (negb (no_redb [u]) && existsb (kind_eqb (face u)) (map view (ri_useful x)))) hand) rows
            | Err _ => false
            end
  | Err _ => false
  end.
Lemma idle_is hand m : NoDup hand -> Forall valid_tile hand -> 0 <= m <= 4 -> Z.of_nat (length hand) = 14 - 3 * m ->
  forallb (idle_b hand) (shapes_for m) = true -> reds_idle (shapes_for m) hand.
Proof.
  intros N V M L E s k Is K u Iu R A. rewrite forallb_forall in E. specialize (E s Is). destruct (hand_tiles_facts hand N V) as (H & EH & HF). unfold idle_b in E. rewrite EH in E.
  destruct (one_win_rows s hand H [] HF) as (n & rows & _ & Er & _ & Kr & Sy & _).
  { now apply (shapes_size hand m _ _ HF). }
  rewrite Er in E. apply Kr, in_map_iff in K. destruct K as (x & <- & Ix). rewrite forallb_forall in E. specialize (E x Ix). rewrite forallb_forall in E. specialize (E u Iu).
  rewrite Forall_forall in Sy. apply (sy_useful _ _ _ _ _ (Sy x Ix)) in A. apply negb_true_iff, andb_false_iff in E. destruct E as [E|E].
  - apply negb_false_iff in E. apply (no_redb_ok _ E u); [now left|exact R].
  - apply not_true_iff_false in E. apply E. apply existsb_exists. exists (face u). split; [exact A|]. now apply TileSetFacts.kind_eqb_eq.
Qed.
(** 1m, 4m, a red 5m, 6m, 2p3p4p, 6p beside two pons: the red five is in a run, no discard that keeps
    the distance makes a 5m useful, and the report has its rows and counts. *)
Definition red_run : list Z := [0; 12; 16; 20; 40; 44; 48; 57].
Example C52_red_case : discards (drop 57) 0 red_run two_pons 57 /\ ~ no_red_five red_run /\ table_melds two_pons = 2 /\ reds_idle (shapes_for (table_melds two_pons)) red_run /\
  exists r, reported (drop 57) 0 red_run 4 everything two_pons = Ok r /\ map sh_useful (rr_merged r) = [[t_ "1m"]; [t_ "6p"]] /\ map sh_count (rr_merged r) = [3; 3].
Proof.
  assert (T : discards (drop 57) 0 red_run two_pons 57) by (apply discards_checked; vm_compute; reflexivity).
  split; [exact T|]. split; [intro N; apply (N 16); [now do 2 right; left|]; unfold red_number; lia|]. split; [reflexivity|]. split.
  - destruct T as (_ & (N & V & M & L & _) & _). apply idle_is; [exact N|exact V|exact M|exact L|]. vm_compute. reflexivity.
  - eexists. split; [vm_compute; reflexivity|]. cbn [rr_merged map sh_useful sh_count]. split; reflexivity.
Qed.
Print Assumptions C55_red_held.
Print Assumptions C55_red_shown.
