(** Facts for C115: the trackers of hand and hidden tiles hold no tile twice; the hand and the
    melds of a player who plays a deal by the rules. *)
From Coq Require Import String.
From Verif Require Import Base Tile Spec_Tile Spec_Win Spec_Waiting Parse Text Tenhou TenhouProofs Spec_Meld MeldProofs Prop_Meld Event State Spec_Log StateProofs Prop_State.
From Verif Require Import Spec_Checker Spec_Turns Spec_Play Prop_Hand.
From Coq Require Import List ZArith Lia Bool Permutation.
Import ListNotations.
Open Scope list_scope.
Open Scope Z_scope.

(** ** No tile twice. *)
Lemma hand_scan_nodup p h e h' n : NoDup h -> scan (SHand p h) e = Ok (SHand p h', n) -> NoDup h'.
Proof.
  intros N E. cbn [scan] in E. unfold hand_scan, wrap in E.
  destruct (is_game_init e).
  - destruct (attr e (t_ "hai" ++ str_int p)); [|discriminate]. cbn [bindr] in E. destruct (int_list _); [|discriminate]. cbn [bindr] in E.
    injection E as <- _. apply nodup_set_of.
  - destruct (is_draw p e) as [[]|]; cbn [bindr] in E; [| |discriminate].
    + destruct (draw_tile_index p e); [|discriminate]. cbn [bindr] in E. injection E as <- _. apply nodup_set_union; [exact N|].
      constructor; [intros []|constructor].
    + destruct (is_discard p e) as [[]|]; cbn [bindr] in E; [| |discriminate].
      * destruct (discard_tile_index p e); [|discriminate]. cbn [bindr] in E. injection E as <- _. now apply nodup_set_minus.
      * destruct (player_open_hand p e) as [[]|]; cbn [bindr] in E; [| |discriminate].
        -- destruct (meld_from e); [|discriminate]. cbn [bindr] in E. injection E as <- _. now apply nodup_set_minus.
        -- injection E as <- _. exact N.
Qed.
Lemma hand_scan_hand p h e s : scan (SHand p h) e = Ok s -> exists h', fst s = SHand p h'.
Proof.
  cbn [scan]. unfold wrap. destruct (hand_scan p h e) as [[h'|]|]; [| |discriminate]; cbn [bindr]; intro E; injection E as <-; cbn [fst]; eauto.
Qed.
Lemma hand_all_nodup p es : forall h hand, NoDup h -> scan_all (SHand p h) es = Ok (SHand p hand) -> NoDup hand.
Proof.
  induction es as [|e es IH]; intros h hand N E; cbn [scan_all] in E; [injection E as <-; exact N|].
  destruct (scan (SHand p h) e) as [[s n]|] eqn:Es; [|discriminate]. cbn [bindr fst] in E.
  destruct (hand_scan_hand _ _ _ _ Es) as (h' & Q). cbn [fst] in Q. subst s. eapply IH; [|exact E]. eapply hand_scan_nodup; eassumption.
Qed.
Lemma hand_nodup p es hand : passed_events (SHand p []) es = Ok (SHand p hand) -> NoDup hand.
Proof. rewrite passed_is_scan by exact I. apply hand_all_nodup. constructor. Qed.

Definition inv_nodup (o : option (list inv)) : Prop := forall s, o = Some s -> NoDup s.
Lemma opt_minus_nodup o l r : inv_nodup o -> opt_minus o l = Ok r -> NoDup r.
Proof. destruct o as [s|]; [|discriminate]. cbn [opt_minus]. intros N E. injection E as <-. apply NoDup_filter. now apply N. Qed.
Lemma invisible_scan_nodup n o e r : inv_nodup (initial_invisible n) -> inv_nodup o -> invisible_scan n o e = Ok (Some r) -> NoDup r.
Proof.
  intros N0 N E. unfold invisible_scan in E.
  assert (M : forall l, (do r <- opt_minus o l; Ok (Some r)) = Ok (Some r) -> NoDup r).
  { intros l Q. destruct (opt_minus o l) eqn:Eo; [|discriminate]. cbn [bindr] in Q. injection Q as <-. eapply opt_minus_nodup; [|exact Eo]; assumption. }
  assert (K : (if is_open_hand e then do m <- meld_from e; do r <- opt_minus o (m_self m); Ok (Some r)
    else if is_dora_indicator_event e then do d <- dora_scan [] e; do r <- opt_minus o (match d with Some l => l | None => [] end); Ok (Some r)
    else Ok None) = Ok (Some r) -> NoDup r).
  { destruct (is_open_hand e).
    - destruct (meld_from e); [|discriminate]. cbn [bindr]. apply M.
    - destruct (is_dora_indicator_event e); [|discriminate]. destruct (dora_scan [] e); [|discriminate]. cbn [bindr]. apply M. }
  destruct (is_game_init e).
  - destruct (dora_scan [] e); [|discriminate]. cbn [bindr] in E. destruct (opt_minus (initial_invisible n) _) eqn:Eo; [|discriminate].
    cbn [bindr] in E. injection E as <-. eapply opt_minus_nodup; [|exact Eo]; assumption.
  - destruct (discard_value e) as [t|]; [destruct (negb (t =? 0)); [eapply M; exact E|]|]; now apply K.
Qed.
Lemma invisible_all_nodup n es : inv_nodup (initial_invisible n) -> forall o s, inv_nodup o -> scan_all (SInvisible n o) es = Ok (SInvisible n (Some s)) -> NoDup s.
Proof.
  intro N0. induction es as [|e es IH]; intros o s N E; cbn [scan_all] in E.
  - injection E as ->. now apply N.
  - cbn [scan] in E. unfold wrap in E. destruct (invisible_scan n o e) as [[r|]|] eqn:Es; [| |discriminate]; cbn [bindr fst] in E; (eapply IH; [|exact E]); [|exact N].
    intros s' Q. injection Q as <-. eapply invisible_scan_nodup; eassumption.
Qed.
Fixpoint nodupb (l : list inv) : bool := match l with [] => true | x :: r => negb (existsb (inv_eqb x) r) && nodupb r end.
Lemma nodupb_ok l : nodupb l = true -> NoDup l.
Proof.
  induction l as [|x l IH]; intro E; constructor; cbn [nodupb] in E; apply andb_true_iff in E; destruct E as [A B]; [|now apply IH].
  intro X. apply negb_true_iff in A. assert (existsb (inv_eqb x) l = true); [|congruence]. apply existsb_exists. exists x. split; [exact X|].
  destruct x; cbn [inv_eqb]; rewrite ?Z.eqb_refl; reflexivity.
Qed.
Lemma initial_nodup n : n = 3 \/ n = 4 -> inv_nodup (initial_invisible n).
Proof.
  intros [-> | ->] s E; apply nodupb_ok.
  - assert (Q : match initial_invisible 3 with Some s => nodupb s | None => true end = true) by (vm_compute; reflexivity). rewrite E in Q. exact Q.
  - assert (Q : match initial_invisible 4 with Some s => nodupb s | None => true end = true) by (vm_compute; reflexivity). rewrite E in Q. exact Q.
Qed.
Lemma invisible_nodup n es s : n = 3 \/ n = 4 -> passed_events (SInvisible n (initial_invisible n)) es = Ok (SInvisible n (Some s)) -> NoDup s.
Proof.
  intros P. rewrite passed_is_scan; [|destruct P; subst; exact I]. apply invisible_all_nodup; now apply initial_nodup.
Qed.

(** ** The tiles a call lays down. *)
Lemma laid_list p v : legal_action (Call p v) -> exists l, NoDup l /\ (forall x, In x l <-> laid_down v x) /\
  length l = match call_kind v with CFlush | CTriplet => 2%nat | CAddedKan | CKita => 1%nat | _ => if source v =? 0 then 4%nat else 3%nat end.
Proof.
  intros L. destruct (decode_call p v L) as (m & Em & K & Sf & Nf & _). exists (m_self m). split; [exact Nf|]. split; [exact Sf|].
  pose proof (C26_well_formed_partial p v m Em) as W. cbv beta in W. destruct (call_kind v) eqn:Ek; rewrite K in W.
  - destruct W as ((_ & _ & W) & _); [intro Q; discriminate Q|]. unfold meld_shape in W. rewrite K in W. destruct W as (? & ? & ? & ? & ? & _ & _ & _ & _ & _ & _ & W & _). exact W.
  - destruct W as ((_ & _ & W) & _); [intro Q; discriminate Q|]. unfold meld_shape in W. rewrite K in W. apply W.
  - destruct W as ((_ & _ & W) & _); [intro Q; discriminate Q|]. unfold meld_shape in W. rewrite K in W. apply W.
  - assert (F : forall x, In x (four (high_byte v)) <-> x / 4 = high_byte v / 4).
    { intros x. unfold four. set (q := high_byte v / 4). cbn [In]. pose proof (Z.div_mod x 4). pose proof (Z.mod_pos_bound x 4). lia. }
    destruct (Z.eqb_spec (source v) 0) as [Z|Z].
    + apply Permutation_length with (l' := four (high_byte v)). apply NoDup_Permutation; [exact Nf|apply four_nodup|].
      intro x. rewrite Sf, F. unfold laid_down. rewrite Ek. tauto.
    + assert (In (high_byte v) (four (high_byte v))) as Ih by now apply F.
      pose proof (Permutation_length (minus_one _ _ (four_nodup (high_byte v)) Ih)) as Ln. change (length (four (high_byte v))) with 4%nat in Ln. cbn [length] in Ln.
      assert (length (m_self m) = length (set_minus (four (high_byte v)) [high_byte v])); [|congruence].
      apply Permutation_length. apply NoDup_Permutation; [exact Nf|apply nodup_set_minus, four_nodup|].
      intro x. rewrite Sf, in_set_minus, F. unfold laid_down. rewrite Ek. cbn [In]. intuition.
  - apply Permutation_length with (l' := [high_byte v]). apply NoDup_Permutation; [exact Nf|constructor; [intros []|constructor]|].
    intro x. rewrite Sf. unfold laid_down. rewrite Ek. cbn [In]. intuition.
  - exfalso. unfold call_kind in Ek. repeat match type of Ek with context [if ?b then _ else _] => destruct b end; discriminate.
Qed.

Lemma minus_length h l : NoDup h -> NoDup l -> incl l h -> (length (set_minus h l) + length l = length h)%nat.
Proof.
  intros A B C. rewrite <- app_length. apply Permutation_length. apply NoDup_Permutation.
  - apply nodup_app_intro; [now apply nodup_set_minus|exact B|]. intros x X. apply in_set_minus in X. tauto.
  - exact A.
  - intro x. rewrite in_app_iff, in_set_minus. destruct (in_dec Z.eq_dec x l) as [I|I]; [|tauto]. specialize (C x I). tauto.
Qed.

(** ** The hand of a player who plays by the rules. *)
Lemma calls_app p a b : calls_of p (a ++ b) = calls_of p a ++ calls_of p b.
Proof. unfold calls_of. apply flat_map_app. Qed.
Lemma made_other p acts a : (forall v, a <> Call p v) -> melds_made p (acts ++ [a]) = melds_made p acts.
Proof.
  intro N. unfold melds_made. rewrite calls_app. replace (calls_of p [a]) with (@nil Z); [now rewrite app_nil_r|].
  unfold calls_of. cbn [flat_map]. destruct a as [| | |q v| |]; try reflexivity. destruct (Z.eqb_spec q p) as [->|]; [|reflexivity]. exfalso. now apply (N v).
Qed.
Lemma made_call p acts v : melds_made p (acts ++ [Call p v]) = melds_made p acts + match call_kind v with CAddedKan | CKita => 0 | _ => 1 end.
Proof.
  unfold melds_made. rewrite calls_app. replace (calls_of p [Call p v]) with [v] by (unfold calls_of; cbn [flat_map]; now rewrite Z.eqb_refl).
  rewrite filter_app, app_length. cbn [filter]. destruct (call_kind v); cbn [length]; lia.
Qed.
Lemma others_keep p acts a t : by_others p a -> (in_hand p [] (acts ++ [a]) t <-> in_hand p [] acts t).
Proof.
  intro B. rewrite in_hand_snoc. unfold touches. destruct a as [d|q x|q x|q v|x|]; cbn [by_others puts takes] in *; intuition congruence.
Qed.

Lemma playing_hand p acts b : seat p -> playing p acts b -> Forall legal_action acts ->
  exists h, hand_at p acts h /\ Forall valid_tile h /\ Z.of_nat (length h) = (if b then 14 else 13) - 3 * melds_made p acts.
Proof.
  intros P H. induction H as [d N V L|acts b a H IH O|acts t H IH V NI|acts t H IH I0|acts v H IH K F|acts v H IH K S0 F|acts v H IH K S0 F|acts v H IH K F]; intro LA.
  - exists (d_hands d p). split; [split; [exact N|]|split; [exact V|]].
    + intro t. change [Deal d] with ([] ++ [Deal d]). rewrite in_hand_snoc. cbn [puts]. split; [auto|]. intros [X|[X Y]]; [exact X|].
      exfalso. destruct X as [(x & ? & y & X & _)|[[] _]]. destruct x; discriminate.
    + rewrite L. reflexivity.
  - apply Forall_app in LA. destruct LA as [LA _]. destruct (IH LA) as (h & (N & E) & V & L). exists h. split; [split; [exact N|]|split; [exact V|]].
    + intro t. rewrite others_keep by exact O. apply E.
    + rewrite made_other; [exact L|]. intros v ->. now apply O.
  - apply Forall_app in LA. destruct LA as [LA _]. destruct (IH LA) as (h & (N & E) & V' & L). exists (t :: h). split; [split|split].
    + constructor; [now rewrite E|exact N].
    + intro x. rewrite in_hand_snoc. cbn [In puts]. rewrite E. unfold touches. cbn [puts takes]. destruct (Z.eq_dec t x); intuition.
    + now constructor.
    + rewrite made_other by discriminate. cbn [length]. lia.
  - apply Forall_app in LA. destruct LA as [LA _]. destruct (IH LA) as (h & (N & E) & V' & L). exists (set_minus h [t]). split; [split|split].
    + now apply nodup_set_minus.
    + intro x. rewrite in_hand_snoc, in_set_minus, E. unfold touches. cbn [puts takes In]. intuition.
    + now apply set_minus_valid.
    + rewrite made_other by discriminate. apply E in I0. pose proof (minus_length h [t] N ltac:(constructor; [intros []|constructor]) ltac:(intros y [<-|[]]; exact I0)). cbn [length] in *. lia.
  - apply Forall_app in LA. destruct LA as [LA LC]. inversion LC as [|? ? L1 _]; subst. destruct (IH LA) as (h & (N & E) & V' & L).
    destruct (laid_list p v L1) as (l & Nl & El & Ll).
    pose proof (minus_length h l N Nl ltac:(intros y Y; apply E, F, El; exact Y)) as ML.
    exists (set_minus h l). split; [split|split].
    + now apply nodup_set_minus.
    + intro x. rewrite in_hand_snoc, in_set_minus, E, El. unfold touches. cbn [puts takes]. intuition.
    + now apply set_minus_valid.
    + rewrite made_call. destruct K as [K|K]; rewrite K in *; lia.
  - apply Forall_app in LA. destruct LA as [LA LC]. inversion LC as [|? ? L1 _]; subst. destruct (IH LA) as (h & (N & E) & V' & L).
    destruct (laid_list p v L1) as (l & Nl & El & Ll).
    pose proof (minus_length h l N Nl ltac:(intros y Y; apply E, F, El; exact Y)) as ML.
    exists (set_minus h l). split; [split|split].
    + now apply nodup_set_minus.
    + intro x. rewrite in_hand_snoc, in_set_minus, E, El. unfold touches. cbn [puts takes]. intuition.
    + now apply set_minus_valid.
    + rewrite made_call. rewrite K in *. rewrite (proj2 (Z.eqb_neq _ _) S0) in Ll. lia.
  - apply Forall_app in LA. destruct LA as [LA LC]. inversion LC as [|? ? L1 _]; subst. destruct (IH LA) as (h & (N & E) & V' & L).
    destruct (laid_list p v L1) as (l & Nl & El & Ll).
    pose proof (minus_length h l N Nl ltac:(intros y Y; apply E, F, El; exact Y)) as ML.
    exists (set_minus h l). split; [split|split].
    + now apply nodup_set_minus.
    + intro x. rewrite in_hand_snoc, in_set_minus, E, El. unfold touches. cbn [puts takes]. intuition.
    + now apply set_minus_valid.
    + rewrite made_call. rewrite K in *. rewrite S0 in Ll. cbn [Z.eqb] in Ll. lia.
  - apply Forall_app in LA. destruct LA as [LA LC]. inversion LC as [|? ? L1 _]; subst. destruct (IH LA) as (h & (N & E) & V' & L).
    destruct (laid_list p v L1) as (l & Nl & El & Ll).
    pose proof (minus_length h l N Nl ltac:(intros y Y; apply E, F, El; exact Y)) as ML.
    exists (set_minus h l). split; [split|split].
    + now apply nodup_set_minus.
    + intro x. rewrite in_hand_snoc, in_set_minus, E, El. unfold touches. cbn [puts takes]. intuition.
    + now apply set_minus_valid.
    + rewrite made_call. destruct K as [K|K]; rewrite K in *; lia.
Qed.
Lemma hand_at_same p acts h h' : hand_at p acts h -> hand_at p acts h' -> Permutation h h'.
Proof. intros [A B] [C D]. apply NoDup_Permutation; [exact A|exact C|]. intro x. now rewrite B, D. Qed.

(** ** The parts of such a deal. *)
Lemma snoc_cases {A} (l : list A) : l = [] \/ exists l' x, l = l' ++ [x].
Proof. induction l as [|x l' _] using rev_ind; eauto. Qed.
Lemma playing_ne p acts b : playing p acts b -> acts <> [].
Proof. destruct 1; try discriminate; now destruct acts. Qed.
Lemma playing_last p l t b : playing p (l ++ [Discard p t]) b -> b = false /\ playing p l true /\ in_hand p [] l t.
Proof.
  intro H. remember (l ++ [Discard p t]) as acts eqn:E.
  destruct H as [d N V L|acts b a H O|acts x H V NI|acts x H I0|acts v H K F|acts v H K S0 F|acts v H K S0 F|acts v H K F];
    try (apply app_inj_tail in E; destruct E as [<- E]); try discriminate E.
  - destruct l as [|? [|]]; discriminate.
  - subst a. exfalso. now apply O.
  - injection E as ->. auto.
Qed.
Lemma playing_init p l a b : playing p (l ++ [a]) b -> l <> [] -> exists b', playing p l b'.
Proof.
  intros H N. remember (l ++ [a]) as acts eqn:E.
  destruct H as [d ? ? ?|acts b a' H O|acts x H V NI|acts x H I0|acts v H K F|acts v H K S0 F|acts v H K S0 F|acts v H K F];
    try (apply app_inj_tail in E; destruct E as [<- _]; eauto).
  destruct l as [|? [|]]; [congruence|discriminate|discriminate].
Qed.
Lemma playing_prefix p l r : forall b, playing p (l ++ r) b -> l <> [] -> exists b', playing p l b'.
Proof.
  induction r as [|a r IH] using rev_ind; intros b H N.
  - rewrite app_nil_r in H. eauto.
  - rewrite app_assoc in H. destruct (playing_init _ _ _ _ H) as (b' & H'); [now destruct l|]. eauto.
Qed.
Lemma playing_point p before t after b : playing p (before ++ Discard p t :: after) b -> playing p before true /\ in_hand p [] before t.
Proof.
  intro H. change (Discard p t :: after) with ([Discard p t] ++ after) in H. rewrite app_assoc in H.
  apply playing_prefix in H; [|now destruct before]. destruct H as (b' & H). now apply playing_last in H.
Qed.
Lemma playing_turns p acts b : playing p acts b -> takes_turns p acts.
Proof.
  intros H before after t t' ->. change (Discard p t :: Discard p t' :: after) with ([Discard p t] ++ Discard p t' :: after) in H.
  rewrite app_assoc in H. apply playing_point in H. destruct H as [H _]. apply playing_last in H. destruct H; discriminate.
Qed.
Lemma playing_deals p acts b : playing p acts b -> exists d after, acts = Deal d :: after /\ no_deal after /\ d_hands d p <> [].
Proof.
  intro H. assert (S0 : forall acts a, ~ is_deal a -> (exists d after, acts = Deal d :: after /\ no_deal after /\ d_hands d p <> []) ->
    exists d after, acts ++ [a] = Deal d :: after /\ no_deal after /\ d_hands d p <> []).
  { intros x a D (d & after & -> & N & E). exists d, (after ++ [a]). split; [reflexivity|]. split; [|exact E]. apply Forall_app. split; [exact N|]. now constructor. }
  induction H as [d N V L|acts b a H IH O|acts t H IH V NI|acts t H IH I0|acts v H IH K F|acts v H IH K SS F|acts v H IH K SS F|acts v H IH K F];
    try (apply S0; [now intros []|exact IH]).
  - exists d, []. split; [reflexivity|]. split; [constructor|]. intro Q. rewrite Q in L. discriminate.
  - apply S0; [|exact IH]. destruct a; [now destruct O|now intros []..].
Qed.
Lemma playing_plays p acts b : playing p acts b -> plays p acts.
Proof.
  intro H. apply playing_deals in H. destruct H as (d & after & -> & N & E). intros d' [Q|Q]; [injection Q as <-; exact E|].
  exfalso. unfold no_deal in N. rewrite Forall_forall in N. now apply (N _ Q).
Qed.

(** ** The melds. *)
Lemma calls_valid p acts b v : seat p -> playing p acts b -> Forall legal_action acts -> In v (calls_of p acts) ->
  legal_action (Call p v) /\ forall x, laid_down v x -> valid_tile x.
Proof.
  intros P H LA I0. unfold calls_of in I0. apply in_flat_map in I0. destruct I0 as (a & Ia & Iv). destruct a as [| | |q w| |]; try now destruct Iv.
  destruct (Z.eqb_spec q p) as [->|]; [|now destruct Iv]. destruct Iv as [->|[]]. rewrite Forall_forall in LA. split; [now apply LA|]. rewrite <- Forall_forall in LA.
  apply in_split in Ia. destruct Ia as (x1 & x2 & E). subst acts. change (Call p v :: x2) with ([Call p v] ++ x2) in H. rewrite app_assoc in H.
  apply playing_prefix in H; [|now destruct x1]. destruct H as (b' & H).
  assert (Q : (exists b0, playing p x1 b0) /\ from_hand p v x1).
  { remember (x1 ++ [Call p v]) as acts eqn:E.
    destruct H as [d N V L|acts b' a H O|acts x H V NI|acts x H I0|acts w H K F|acts w H K S0 F|acts w H K S0 F|acts w H K F];
      try (apply app_inj_tail in E; destruct E as [<- E]); try discriminate E; try (injection E as ->; eauto).
    - destruct x1 as [|? [|]]; discriminate.
    - subst a. exfalso. now apply O. }
  destruct Q as ((b0 & Q) & F). apply Forall_app in LA. destruct LA as [LA _]. destruct (playing_hand p x1 b0 P Q LA) as (h & (_ & E) & V & _).
  intros x X. rewrite Forall_forall in V. apply V, E, F, X.
Qed.
Lemma decoded_valid p v m : legal_action (Call p v) -> (forall x, laid_down v x -> valid_tile x) -> decoded p v m -> Forall valid_tile (m_self m ++ m_borrowed m).
Proof.
  intros L V (K & A & _ & B & _). apply Forall_app. split; apply Forall_forall; intros x X; [now apply V, A|].
  apply B in X. destruct (decode_call p v L) as (m' & Em & K' & _ & _ & B' & _). pose proof (C26_well_formed_partial p v m' Em) as W. cbv beta in W.
  destruct W as ((_ & W & _) & _).
  { intro Q. rewrite K' in Q. exfalso. unfold taken in X. now rewrite Q in X. }
  unfold meld_tiles in W. apply Forall_app in W. destruct W as [_ W]. rewrite Forall_forall in W. now apply W, B'.
Qed.
Lemma becomes_valid m later m' : becomes m later m' -> Forall valid_tile (m_self m ++ m_borrowed m) ->
  Forall (fun x => Forall valid_tile (m_self x ++ m_borrowed x)) later ->
  Forall valid_tile (m_self m' ++ m_borrowed m') /\ (m_class m' = CKita <-> m_class m = CKita).
Proof.
  induction 1 as [m|m a later m' N B IH|m a later k F G]; intros V L.
  - split; [exact V|reflexivity].
  - inversion L; subst. now apply IH.
  - inversion L as [|? ? La _]; subst. destruct G as (G1 & G2 & G3 & _), F as (F1 & _). split; [|rewrite G1, F1; split; discriminate].
    apply Forall_app in V. destruct V as [V1 V2]. apply Forall_app in La. destruct La as [La _]. apply Forall_app. split; [|now rewrite G3].
    rewrite Forall_forall in *. intros x X. apply G2 in X. destruct X; auto.
Qed.
Lemma table_valid p vs ds ms : Forall2 (decoded p) vs ds -> Forall (fun x => Forall valid_tile (m_self x ++ m_borrowed x)) ds ->
  Spec_Log.table_melds ds ms -> Forall (fun x => Forall valid_tile (m_self x ++ m_borrowed x)) ms /\
  Spec_Checker.table_melds ms = Z.of_nat (length (filter (fun v => match call_kind v with CAddedKan | CKita => false | _ => true end) vs)).
Proof.
  intros D V T. revert vs D. induction T as [|a later r K T IH|m later m' r K B T IH]; intros vs D.
  - inversion D; subst. split; [constructor|reflexivity].
  - inversion D as [|v ? vs' ? Dv D']; subst. inversion V as [|? ? Va V']; subst. destruct (IH V' vs' D') as [A E]. split; [exact A|].
    rewrite E. cbn [filter]. destruct Dv as (Q & _). rewrite <- Q, K. reflexivity.
  - inversion D as [|v ? vs' ? Dv D']; subst. inversion V as [|? ? Va V']; subst. destruct (IH V' vs' D') as [A E].
    destruct (becomes_valid m later m' B Va V') as [W Kt]. split; [now constructor|].
    unfold Spec_Checker.table_melds in *. cbn [filter]. destruct Dv as (Q & _). rewrite <- Q.
    assert (X : match m_class m' with CKita => false | _ => true end = match m_class m with CAddedKan | CKita => false | _ => true end).
    { destruct (mclass_eq_dec (m_class m) CKita) as [Y|Y].
      - rewrite (proj2 Kt Y), Y. reflexivity.
      - assert (m_class m' <> CKita) by tauto. destruct (m_class m'), (m_class m); congruence. }
    rewrite X. destruct (match m_class m with CAddedKan | CKita => false | _ => true end); cbn [length]; lia.
Qed.
Lemma playing_melds p acts b d after ms : seat p -> playing p acts b -> Forall legal_action acts -> acts = Deal d :: after -> melds_after p after ms ->
  Spec_Checker.table_melds ms = melds_made p acts /\ Forall (fun x => Forall valid_tile (m_self x ++ m_borrowed x)) ms.
Proof.
  intros P H LA -> (ds & D & T). assert (E : calls_of p (Deal d :: after) = calls_of p after) by reflexivity.
  assert (V : Forall (fun x => Forall valid_tile (m_self x ++ m_borrowed x)) ds).
  { assert (C : forall v, In v (calls_of p after) -> legal_action (Call p v) /\ forall x, laid_down v x -> valid_tile x).
    { intros v I0. apply (calls_valid p _ b v P H LA). exact I0. }
    clear - D C. induction D as [|v m vs ds Dv D IH]; constructor.
    - destruct (C v (or_introl eq_refl)) as [L V]. eapply decoded_valid; eassumption.
    - apply IH. intros w W. apply C. now right. }
  destruct (table_valid p _ ds ms D V T) as [A B]. split; [|exact A]. rewrite B. unfold melds_made. now rewrite E.
Qed.
