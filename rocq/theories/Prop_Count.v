(** Property C55, exactly, for the rows of a report: the number of each row is told by the texts of
    the useful tiles it shows and the tiles the player does not see. *)
From Coq Require Import String.
From Verif Require Import Base Category Tile TileSet Spec_Tile TileSetFacts Win Spec_Win WinFacts WinProofs Waiting Spec_Waiting WaitingFacts WaitingPM WaitingBrute WaitingHeur WaitingHeurTop WaitingSize Spec_Hand WaitingTop.
From Verif Require Import Parse Text Tenhou TenhouProofs Spec_Meld MeldProofs Prop_Meld Event State Spec_Log StateProofs Checker Spec_Checker CheckerProofs CheckerHand CheckerRows CheckerReport Prop_Checker Prop_CheckerWitness Spec_Mixed Prop_Mixed Prop_Red.
From Coq Require Import List ZArith Lia Bool Permutation.
Import ListNotations.
Open Scope list_scope.
Open Scope Z_scope.

(** Tiles that can be counted. *)
Definition countable (unseen : list inv) (x : item) : Prop :=
  Forall legal_tile (ri_useful x) /\ useful_count unseen (ri_useful x) = Ok (ri_count x).
Lemma legal_object t : object t -> legal_kind (view t) -> legal_tile t.
Proof. destruct t as [n c|c]; cbn; auto. Qed.
Lemma legal_all l : Forall object l -> (forall j, In j (map view l) -> legal_kind j) -> Forall legal_tile l.
Proof. intros O L. apply Forall_forall. intros t T. rewrite Forall_forall in O. apply legal_object; [now apply O|]. apply L. now apply in_map. Qed.
Lemma says_countable s hand unseen n x : says s hand unseen n x -> countable unseen x.
Proof. intros A. split; [|apply A]. apply legal_all; [apply A|]. intros j J. apply (sy_useful _ _ _ _ _ A) in J. apply J. Qed.
Lemma all_countable ss hand unseen x : says_all ss hand unseen x -> countable unseen x.
Proof. intros A. split; [|apply A]. apply legal_all; [apply A|]. intros j J. apply (sa_useful _ _ _ _ A) in J. destruct J as (s & n & _ & _ & _ & L & _). exact L. Qed.
Lemma mixes_countable hand unseen n1 n2 ks x : mixes hand unseen n1 n2 ks x -> countable unseen x.
Proof. intros A. split; [|apply A]. apply legal_all; [apply A|]. intros j J. apply (mx_useful _ _ _ _ _ _ A) in J. destruct J as [(_ & L)|(_ & L)]; apply L. Qed.

Lemma insert_tile_perm t l : Permutation (t :: l) (insert_tile t l).
Proof. induction l as [|x l IH]; cbn [insert_tile]; [reflexivity|]. destruct (tile_ltb t x); [reflexivity|]. rewrite perm_swap. now constructor. Qed.
Lemma sorted_tiles_perm l : Permutation l (sorted_tiles l).
Proof.
  unfold sorted_tiles. assert (G : forall l a, Permutation (a ++ l) (fold_left (fun a t => insert_tile t a) l a)).
  { clear. induction l as [|t l IH]; intro a; cbn [fold_left]; [now rewrite app_nil_r|]. rewrite <- IH, <- insert_tile_perm. symmetry. apply Permutation_middle. }
  apply (G l []).
Qed.
Lemma forall2_sum {A} (R : A -> Z -> Prop) u v : Permutation u v -> forall ns, Forall2 R u ns -> exists ms, Forall2 R v ms /\ sumZ (fun m => m) ns = sumZ (fun m => m) ms.
Proof.
  induction 1 as [|x u v Pm IH|x y u|u v w P1 IH1 P2 IH2]; intros ns X.
  - inversion X; subst. exists []. auto.
  - inversion X as [|? n ? ns' HA HB]; subst. destruct (IH _ HB) as (q & Q1 & Q2). exists (n :: q). split; [now constructor|]. cbn [sumZ]. lia.
  - inversion X as [|? n ? ns' HA HB]; subst. inversion HB as [|? n' ? ns'' HA' HB']; subst. exists (n' :: n :: ns''). split; [now repeat constructor|]. cbn [sumZ]. lia.
  - destruct (IH1 _ X) as (q & Q1 & Q2). destruct (IH2 _ Q1) as (q' & Q3 & Q4). exists q'. split; [exact Q3|lia].
Qed.
Lemma stands_tile t : legal_tile t -> stands_for (tile_str t) (counted_face t).
Proof.
  destruct t as [n c|c]; cbn [legal_tile]; intro L.
  - left. exists (c, n). auto.
  - right. destruct c; cbn [counted_face]; [left|right; left|right; right|contradiction]; (split; [vm_compute; reflexivity|reflexivity]).
Qed.
Lemma norm_counted unseen x : tiles_only unseen -> countable unseen x -> texts_counted (fun t => In (ITile t) unseen) (sh_useful (norm x)) (sh_count (norm x)).
Proof.
  intros T [L C]. destruct (useful_faces _ _ _ T L C) as (ns & F & E). cbn [norm sh_useful sh_count].
  destruct (forall2_sum _ _ _ (sorted_tiles_perm (ri_useful x)) _ F) as (ms & F' & Em).
  exists (map counted_face (sorted_tiles (ri_useful x))), ms.
  assert (L' : Forall legal_tile (sorted_tiles (ri_useful x))) by (eapply Permutation_Forall; [apply sorted_tiles_perm|exact L]).
  split; [|split; [|congruence]].
  - clear - L'. induction L'; cbn [map]; constructor; [now apply stands_tile|assumption].
  - clear - F'. induction F'; cbn [map]; constructor; assumption.
Qed.
Lemma texts_same (P Q : Z -> Prop) l n : (forall t, valid_tile t -> (P t <-> Q t)) -> texts_counted P l n -> texts_counted Q l n.
Proof.
  intros E (kss & ns & A & B & C). exists kss, ns. split; [exact A|]. split; [|exact C]. clear - E B. induction B as [|ks m kss ns (l & L1 & L2 & L3) B IH]; constructor; auto.
  exists l. split; [exact L1|]. split; [|exact L3]. intro t. rewrite L2. split; intros (X & V & F); (split; [now apply (E t V)|auto]).
Qed.
Lemma texts_ext (P Q : Z -> Prop) l n : (forall t, P t <-> Q t) -> texts_counted P l n -> texts_counted Q l n.
Proof. intro E. apply texts_same. auto. Qed.

(** Every row of the report, also the one about the choice. *)
Theorem C55_rows : forall e p hand players invisible melds t r, discards e p hand melds t -> tiles_only invisible ->
  reported e p hand players invisible melds = Ok r ->
  Forall (fun x => texts_counted (hidden hand invisible) (sh_useful x) (sh_count x)) (rr_choice r :: rr_expected r ++ rr_merged r).
Proof.
  intros e p hand players invisible melds t r (HP & HD & HW & HM) Ti E. rewrite table_melds_eq in *. unfold reported in E.
  destruct (report_form e hand players p invisible melds t HD HP HW HM) as (H & tt & mt & HF & EH & Et & Vt & Ot & Pt & _ & R). rewrite R in E.
  pose proof HD as (_ & _ & M & L & _).
  assert (Ti' : tiles_only (inv_minus invisible hand)).
  { intros u U. apply Ti. apply (proj1 (hidden_iff hand invisible u)) in U. apply U. }
  assert (X : exists l, Forall (countable (inv_minus invisible hand)) l /\ merged_rows H (inv_minus invisible hand) (map pattern_of (shapes_for (meld_count melds))) = Ok (sort_items l)).
  { destruct (Z.eq_dec (meld_count melds) 0) as [E0|N0].
    - destruct (closed_rows hand H (meld_count melds) (inv_minus invisible hand) HF M L E0) as (m1 & rows1 & m2 & rows2 & l & R1 & R2 & F & Em).
      exists l. split; [|exact Em]. destruct R1 as (_ & _ & _ & _ & Sy1 & Ob1), R2 as (_ & _ & _ & _ & Sy2 & _). clear - F Sy1 Sy2 Ob1.
      revert rows2 l F Sy2. induction Sy1 as [|x rows1 A1 B1 IH]; intros [|y rows2] l F Sy2; cbn [combine] in F; inversion F as [|? z ? l' M1 M2]; subst; constructor.
      + inversion Sy2; inversion Ob1; subst. cbn [fst snd] in M1. eapply mixes_countable. eapply says_mixed; eassumption.
      + inversion Sy2; inversion Ob1; subst. eapply IH; eassumption.
    - destruct (open_rows hand H (meld_count melds) (inv_minus invisible hand) HF M L N0) as (n & rows & Rr & Em). exists rows. split; [|exact Em].
      destruct Rr as (_ & _ & _ & _ & Sy & _). eapply Forall_impl; [|exact Sy]. intros x A. eapply says_countable. exact A. }
  destruct X as (l & Fl & Em). rewrite Em in E. cbn [bindr] in E.
  destruct (first_group (sort_items l)) as [g|] eqn:Eg; [|discriminate]. cbn [bindr] in E. destruct (choice_row _ _ _ _) as [c|] eqn:Ec; [|discriminate]. cbn [bindr] in E.
  destruct (py_nth _ 0); [|discriminate]. cbn [bindr] in E. destruct (wrong_rate _ _ _); [|discriminate]. cbn [bindr] in E. apply Ok_inj in E. subst r. cbn [rr_merged rr_choice rr_expected].
  assert (Fs : Forall (countable (inv_minus invisible hand)) (sort_items l)) by (eapply Permutation_Forall; [apply sort_items_perm|exact Fl]).
  assert (Gs : Forall (fun x => texts_counted (hidden hand invisible) (sh_useful x) (sh_count x)) (map norm (sort_items l))).
  { apply Forall_map. eapply Forall_impl; [|exact Fs]. intros x X. eapply texts_ext; [apply hidden_iff|]. now apply norm_counted. }
  constructor.
  - destruct (choice_all hand H (meld_count melds) (inv_minus invisible hand) HF M L tt) as (choice & Ec' & Dc & Sc); [rewrite Vt; eapply face_count_pos; eassumption|exact Ot|exact Pt|].
    rewrite Ec' in Ec. apply Ok_inj in Ec. subst c. eapply texts_ext; [apply hidden_iff|]. apply norm_counted; [exact Ti'|]. eapply all_countable. exact Sc.
  - apply Forall_app. split; [|exact Gs]. apply Forall_forall. intros x X. rewrite Forall_forall in Gs. apply Gs.
    apply in_map_iff in X. destruct X as (y & <- & Y). apply in_map.
    destruct (first_group_split _ _ (sort_items_sorted l) Eg) as (z & g' & rest & _ & Q & _). rewrite Q. apply in_or_app. now left.
Qed.

(** 1m2m3m 1p2p3p, a red 5p and a green dragon beside two pons: after the dragon is discarded the
    hand waits for 5p, of which three are unseen; the row says 4, the number of 9m. *)
Definition red_wait : list Z := [0; 4; 8; 36; 40; 44; 52; 128].
Example C55_rows_case : discards (drop 128) 0 red_wait two_pons 128 /\ tiles_only everything /\
  exists r, reported (drop 128) 0 red_wait 4 everything two_pons = Ok r /\ sh_useful (rr_choice r) = [t_ "0p"] /\ sh_count (rr_choice r) = 4.
Proof.
  split; [apply discards_checked; vm_compute; reflexivity|]. split.
  - intros u U. unfold everything in U. apply in_map_iff in U. destruct U as (n & Q & N). injection Q as <-. apply in_seq in N. unfold valid_tile. lia.
  - eexists. split; [vm_compute; reflexivity|]. split; reflexivity.
Qed.
Print Assumptions C55_rows.
