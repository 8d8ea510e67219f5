(** C40: the hand shown by the universal format is the hand tracked from the physical tiles. *)
From Verif Require Import Base Category Tile Parse Text Tenhou TenhouProofs Spec_Tile Spec_Meld MeldProofs Prop_Meld Event Const Reader State Spec_Log StateProofs Prop_State Value Universe Translator TenhouCommands
  Transfer Spec_Transfer Spec_Universe UniverseProofs Prop_Executor CommandProofs Prop_Commands Spec_Play CommandState CommandPlay PlaySteps PlayProofs Prop_Play.
From Coq Require Import String List ZArith Lia Bool Permutation.
Import ListNotations.
Open Scope list_scope.
Open Scope Z_scope.

Lemma text_remove_perm x : forall l r, text_remove l x = Ok r -> Permutation l (x :: r).
Proof.
  induction l as [|y l IH]; intros r H; cbn [text_remove] in H; [discriminate|]. destruct (text_eqb y x) eqn:E.
  - apply text_eqb_iff in E. subst y. apply Ok_inj in H. subst. reflexivity.
  - peelb H. apply Ok_inj in H. subst r. etransitivity; [apply perm_skip, IH; reflexivity|apply perm_swap].
Qed.
Lemma list_remove_perm s : forall l r, list_remove l (VStr s) = Ok r -> Permutation l (VStr s :: r).
Proof.
  induction l as [|y l IH]; intros r H; cbn [list_remove] in H; [discriminate|]. destruct (val_eqb y (VStr s)) eqn:E.
  - destruct y; cbn in E; try discriminate. apply text_eqb_iff in E. subst. apply Ok_inj in H. subst. reflexivity.
  - peelb H. apply Ok_inj in H. subst r. etransitivity; [apply perm_skip, IH; reflexivity|apply perm_swap].
Qed.
Lemma list_remove_all_perm : forall ts l r, list_remove_all l (map VStr ts) = Ok r -> Permutation l (map VStr ts ++ r).
Proof.
  induction ts as [|s ts IH]; intros l r H; cbn [list_remove_all map app] in *; [apply Ok_inj in H; subst; reflexivity|].
  peelb H. apply list_remove_perm in E. etransitivity; [exact E|]. apply perm_skip. apply IH. exact H.
Qed.
Lemma tile_strs_perm l l' : Permutation l l' -> forall ts, tile_strs l = Ok ts -> exists ts', tile_strs l' = Ok ts' /\ Permutation ts ts'.
Proof.
  unfold tile_strs. induction 1 as [|x l l' P IH|x y l|l l' l'' P1 IH1 P2 IH2]; intros ts H.
  - exists ts. split; [exact H|reflexivity].
  - cbn [mapM] in *. peelb H. apply Ok_inj in H. subst ts. destruct (IH _ eq_refl) as [r [R Q]]. rewrite R. cbn [bindr]. eexists. split; [reflexivity|]. now constructor.
  - cbn [mapM] in *. destruct (do t <- tile_from_tenhou x; Ok (tile_str t)) as [a|]; destruct (do t <- tile_from_tenhou y; Ok (tile_str t)) as [b|]; try discriminate.
    cbn [bindr] in *. peelb H. peelb E. apply Ok_inj in E. subst. apply Ok_inj in H. subst. cbn [bindr]. eexists. split; [reflexivity|]. apply perm_swap.
  - destruct (IH1 _ H) as [r [R Q]]. destruct (IH2 _ R) as [r' [R' Q']]. exists r'. split; [exact R'|]. etransitivity; eassumption.
Qed.
Lemma permutation_same l m : NoDup l -> NoDup m -> (forall t : Z, In t l <-> In t m) -> Permutation l m.
Proof. apply NoDup_Permutation. Qed.

Section Hand.
Context (unquote : text -> text) (so : list Z -> list Z) (SO : forall l, Permutation (so l) l) (strict : bool) (p : Z).
Local Notation tr := (tenhou_command unquote so).

Lemma agari_step e i x cmds x' w : tag e = t_ "AGARI" -> holds e (t_ "who") (str_int w) -> call tr strict e i x = Ok (cmds, x') ->
  (w <> p -> step_of x x' (SId p) PV_hand []) /\
  (w = p -> exists expected, step_of x x' (SId p) PV_hand [(U_ASSERT_EQUAL_OR_SET, texts expected)] /\
    forall from l, holds e (t_ "fromWho") (str_int from) -> holds e (t_ "hai") (comma_list l) -> exists hand, tile_strs l = Ok hand /\
      (from = p -> expected = hand) /\
      (from <> p -> forall m, holds e (t_ "machi") (str_int m) -> exists ms, tile_strs [m] = Ok [ms] /\ text_remove hand ms = Ok expected)).
Proof.
  intros T Hw H. destruct (call_inv unquote so _ _ _ _ _ _ H) as [raw [x1 [Hh [_ [_ [_ D]]]]]].
  unfold handle in Hh. replace (hfind (handlers unquote so) (tag e)) with (Some agari_command) in Hh by (rewrite T; reflexivity).
  unfold agari_command, default_event_type in Hh. destruct (logged_win e) as [[]|]; [|discriminate Hh]. cbn [bindr] in Hh. rewrite (holds_attr _ _ _ Hw) in Hh. cbn [bindr] in Hh. rewrite py_int_str in Hh. cbn [bindr] in Hh.
  destruct (attr e (t_ "fromWho")) as [fw|] eqn:E1; [|discriminate]. cbn [bindr] in Hh. destruct (py_int fw) as [from0|] eqn:E2; [|discriminate]. cbn [bindr] in Hh.
  destruct (attr e (t_ "sc")) as [sc|]; [|discriminate]. cbn [bindr] in Hh. destruct (number_list sc) as [scl|]; [|discriminate]. cbn [bindr] in Hh.
  destruct (attr e (t_ "hai")) as [hai|] eqn:E3; [|discriminate]. cbn [bindr] in Hh. destruct (int_list hai) as [hl|] eqn:E4; [|discriminate]. cbn [bindr] in Hh.
  destruct (tile_strs hl) as [hand|] eqn:E5; [|discriminate]. cbn [bindr] in Hh.
  match type of Hh with context[if ?b then _ else ?t] => set (other := t) in Hh end.
  destruct (if w =? from0 then Ok hand else other) as [expected|] eqn:E6; [|discriminate]. cbn [bindr] in Hh.
  peelb Hh. peelb E. apply Ok_inj in E. subst v. apply Ok_inj in Hh. injection Hh as -> _. cbn [fst] in D.
  match goal with K : game_finish _ _ _ _ _ _ = Ok _ |- _ => apply (finish_props unquote so) in K; rename K into FP end.
  specialize (D (SId p, PV_hand)). match type of FP with props_in _ ?r => rename r into rest end.
  change (run_deeds PV_hand (iget (x_vals x) (SId p, PV_hand)) (deeds (SId p, PV_hand) (map (fun c => with_event c E_game_finish)
    ([cmd PV_hand U_ASSERT_EQUAL_OR_SET (SId w) (texts expected) None; cmd GV_nobody_win U_REPLACE sub_all (VBool false) None] ++ rest))) = Ok (val_at x' (SId p) PV_hand)) in D.
  rewrite typed_deeds, !deeds_app in D. assert (FD : deeds (SId p, PV_hand) rest = []).
  { apply deeds_none. eapply Forall_impl; [|exact FP]. intros c I0 Q. cbn [snd] in Q. cbn beta in I0. rewrite Q in I0. cbn in I0. intuition discriminate. }
  rewrite FD, app_nil_r in D. unfold deeds, about in D. cbn [filter cmd c_sub c_prop fst snd sub_eqb] in D. change (sub_eqb sub_all (SId p)) with false in D. cbn [andb] in D.
  split.
  - intro N. replace (w =? p) with false in D by (symmetry; apply Z.eqb_neq; exact N). cbn [andb map] in D. exact D.
  - intros ->. rewrite Z.eqb_refl in D. exists expected. split; [exact D|]. intros from l Hf Hl.
    unfold attr in E1, E3. unfold holds in Hf, Hl. rewrite Hf in E1. rewrite Hl in E3. apply Ok_inj in E1. apply Ok_inj in E3. subst fw hai.
    rewrite py_int_str in E2. apply Ok_inj in E2. subst from0.
    assert (NE : l <> []) by (intros ->; discriminate E4). rewrite int_list_comma in E4 by exact NE. apply Ok_inj in E4. subst hl.
    exists hand. split; [exact E5|]. split.
    + intros ->. rewrite Z.eqb_refl in E6. apply Ok_inj in E6. congruence.
    + intros N m Hm. replace (p =? from) with false in E6 by (symmetry; apply Z.eqb_neq; congruence). unfold other in E6.
      rewrite (holds_attr _ _ _ Hm) in E6. cbn [bindr] in E6. change (str_int m) with (comma_list [m]) in E6. rewrite int_list_comma in E6 by discriminate. cbn [bindr] in E6.
      destruct (tile_strs [m]) as [ms|] eqn:Em; [|discriminate]. cbn [bindr] in E6. unfold tile_strs in Em. cbn [mapM] in Em. destruct (do t <- tile_from_tenhou m; Ok (tile_str t)) as [v'|] eqn:Em'; [|discriminate]. apply Ok_inj in Em. subst ms.
      exists v'. split; [reflexivity|]. exact E6.
Qed.

Definition shows (x : ctx) (H : list Z) : Prop := exists l, val_at x (SId p) PV_hand = Some (VList l) /\ Permutation l (map printed H).
Record in_step (acts : list action) (x : ctx) : Prop := mkIn {
  is_count : counted_in p x;
  is_hand : exists H, NoDup H /\ Forall valid_tile H /\ (forall t, In t H <-> in_hand p [] acts t) /\
    ((val_at x (SId p) PV_hand = None /\ no_deal acts /\ H = []) \/ shows x H) }.

Lemma in_hand_snoc acts a t : in_hand p [] (acts ++ [a]) t <-> puts p t a \/ (in_hand p [] acts t /\ ~ touches p t a).
Proof.
  unfold in_hand. split.
  - intros [[b [y [c [E [Pu F]]]]]|[[] _]]. destruct (destruct_last c) as [->|[c' [z ->]]].
    + apply app_inj_tail in E. destruct E as [-> ->]. now left.
    + right. replace (b ++ y :: c' ++ [z]) with ((b ++ y :: c') ++ [z]) in E by (rewrite <- app_assoc; reflexivity).
      apply app_inj_tail in E. destruct E as [-> ->]. apply Forall_app in F. destruct F as [F1 F2]. inversion F2; subst. split; [|assumption]. left. eauto 6.
  - intros [Pu|[[[b [y [c [-> [Pu F]]]]]|[[] _]] N]].
    + left. exists acts, a, []. repeat split; [exact Pu|constructor].
    + left. exists b, y, (c ++ [a]). split; [rewrite <- app_assoc; reflexivity|]. split; [exact Pu|]. apply Forall_app. split; [exact F|]. constructor; [exact N|constructor].
Qed.
Lemma hand_kept acts a x x' : ~ concerns p a -> (exists H, NoDup H /\ Forall valid_tile H /\ (forall t, In t H <-> in_hand p [] acts t) /\
    ((val_at x (SId p) PV_hand = None /\ no_deal acts /\ H = []) \/ shows x H)) -> step_of x x' (SId p) PV_hand [] ->
  exists H, NoDup H /\ Forall valid_tile H /\ (forall t, In t H <-> in_hand p [] (acts ++ [a]) t) /\
    ((val_at x' (SId p) PV_hand = None /\ no_deal (acts ++ [a]) /\ H = []) \/ shows x' H).
Proof.
  intros N [H [Nd [V [I0 S0]]]] K. exists H. split; [exact Nd|]. split; [exact V|]. split.
  - intro t. rewrite in_hand_snoc, I0. unfold touches. destruct a; cbn [concerns puts takes] in *; tauto.
  - apply step_none in K. unfold shows in *. rewrite K. destruct S0 as [[A [B C]]|S0]; [left|right; exact S0]. split; [exact A|]. split; [|exact C].
    apply Forall_app. split; [exact B|]. constructor; [|constructor]. destruct a; cbn in *; tauto.
Qed.
Lemma NoDup_app_intro (l m : list Z) : NoDup l -> NoDup m -> (forall t, In t l -> In t m -> False) -> NoDup (l ++ m).
Proof.
  induction 1 as [|a l N1 N2 IH]; intros M D; cbn [app]; [exact M|]. constructor.
  - rewrite in_app_iff. intros [K|K]; [contradiction|]. exact (D a (or_introl eq_refl) K).
  - apply IH; [exact M|]. intros t A B. exact (D t (or_intror A) B).
Qed.
Lemma removed H l T r : NoDup H -> Permutation l (map printed H) -> NoDup T -> (forall t, In t T -> In t H) ->
  Permutation l (map printed T ++ r) -> Permutation r (map printed (set_minus H T)).
Proof.
  intros Nd Pl NT Sub Pr.
  assert (PH : Permutation H (T ++ set_minus H T)).
  { apply NoDup_Permutation; [exact Nd| |].
    - apply NoDup_app_intro; [exact NT|apply nodup_set_minus; exact Nd|]. intros t I1 I2. apply in_set_minus in I2. tauto.
    - intro t. rewrite in_app_iff, in_set_minus. destruct (in_dec Z.eq_dec t T); [split; [tauto|intros _; apply Sub; assumption]|tauto]. }
  apply Permutation_app_inv_l with (l := map printed T). etransitivity; [apply Permutation_sym; exact Pr|]. etransitivity; [exact Pl|].
  rewrite <- map_app. apply Permutation_map. exact PH.
Qed.
Lemma set_minus_valid H T : Forall valid_tile H -> Forall valid_tile (set_minus H T).
Proof. rewrite !Forall_forall. intros V t I0. apply in_set_minus in I0. apply V. tauto. Qed.

Lemma hand_step_in acts a e i x x' cmds : seat p -> legal_action a -> writes a e ->
  (tag e = t_ "GO" -> exists v, holds e (t_ "type") (str_int v) /\ (flag v 4 = false \/ p < 3)) ->
  (forall d, a = Deal d -> d_hands d p <> []) -> fair p (in_hand p [] acts) a e ->
  in_step acts x -> call tr strict e i x = Ok (cmds, x') -> in_step (acts ++ [a]) x'.
Proof.
  intros P L W GO PL Fa [C Hd] Hc. destruct (play_step _ _ _ _ _ _ _ _ _ _ P L W C GO Hc) as [A C']. constructor; [exact C'|].
  destruct a as [d|q u|q u|q c|u|]; cbn [act_step] in A.
  - destruct A as [_ [_ [hand [score [TH [_ K]]]]]]. specialize (TH (PL d eq_refl)). cbn [fair] in Fa. destruct Fa as [Nd V].
    rewrite tile_str_list_valid in TH by exact V. apply Ok_inj in TH. subst hand. pose proof (K PV_hand ltac:(discriminate)) as Kh. unfold step_of in Kh. apply Ok_inj in Kh.
    exists (d_hands d p). split; [exact Nd|]. split; [exact V|]. split.
    + intro t. rewrite in_hand_snoc. unfold touches. cbn [puts takes]. tauto.
    + right. eexists. split; [exact Kh|reflexivity].
  - destruct A as [_ [_ K]]. specialize (K PV_hand). destruct (Z.eq_dec q p) as [->|Nq].
    2: { apply (hand_kept acts _ x); [cbn; congruence|exact Hd|]. replace (q =? p) with false in K by (symmetry; apply Z.eqb_neq; exact Nq). exact K. }
    rewrite Z.eqb_refl in K. destruct L as [_ Vu]. cbn [fair] in Fa. specialize (Fa eq_refl). destruct Hd as [H [Nd [V [I0 S0]]]].
    destruct S0 as [[A1 [A2 A3]]|[l [A1 A2]]].
    { unfold step_of in K. rewrite A1 in K. discriminate K. }
    exists (u :: H). split; [constructor; [rewrite I0; exact Fa|exact Nd]|]. split; [constructor; assumption|]. split.
    + intro t. rewrite in_hand_snoc. unfold touches. cbn [puts takes In]. rewrite I0. destruct (Z.eq_dec u t); [subst; tauto|]. tauto.
    + right. unfold step_of in K. rewrite A1 in K. apply Ok_inj in K. exists (l ++ [printed u]). split; [exact K|].
      etransitivity; [apply Permutation_app_comm|]. cbn [app map]. apply perm_skip. exact A2.
  - destruct A as [dt [_ [_ [_ K]]]]. specialize (K PV_hand). destruct (Z.eq_dec q p) as [->|Nq].
    2: { apply (hand_kept acts _ x); [cbn; congruence|exact Hd|]. replace (q =? p) with false in K by (symmetry; apply Z.eqb_neq; exact Nq). exact K. }
    rewrite Z.eqb_refl in K. cbn [fair] in Fa. specialize (Fa eq_refl). destruct Hd as [H [Nd [V [I0 S0]]]].
    destruct S0 as [[A1 [A2 A3]]|[l [A1 A2]]].
    { subst H. apply I0 in Fa. destruct Fa. }
    unfold step_of in K. rewrite A1 in K. cbn [run_deeds] in K. peelb K. apply Ok_inj in K.
    change (remove_all (VList l) (VList [printed u]) = Ok v) in E. unfold remove_all in E. cbn [iter_val bindr] in E. peelb E. apply Ok_inj in E. subst v.
    exists (set_minus H [u]). split; [apply nodup_set_minus; exact Nd|]. split; [apply set_minus_valid; exact V|]. split.
    + intro t. rewrite in_hand_snoc, in_set_minus, I0. unfold touches. cbn [puts takes In]. intuition.
    + right. exists v0. split; [exact K|]. apply (removed H l [u]); auto.
      * constructor; [intros []|constructor].
      * intros t [<-|[]]. apply I0. exact Fa.
      * apply (list_remove_all_perm [ptext u]). exact E0.
  - destruct A as [m [own [all [Dc [O1 [O2 [_ [_ K]]]]]]]]. specialize (K PV_hand). destruct (Z.eq_dec q p) as [->|Nq].
    2: { apply (hand_kept acts _ x); [cbn; congruence|exact Hd|]. replace (q =? p) with false in K by (symmetry; apply Z.eqb_neq; exact Nq). exact K. }
    rewrite Z.eqb_refl in K. cbn [fair] in Fa. specialize (Fa eq_refl). destruct Hd as [H [Nd [V [I0 S0]]]].
    pose proof Dc as [Ck [Ls [Ln _]]].
    destruct (call_texts so p c m (m_self m) own SO L Dc (fun x I0 => or_introl (proj1 (Ls x) I0)) O1) as [-> _].
    destruct S0 as [[A1 [A2 A3]]|[l [A1 A2]]].
    { unfold step_of in K. rewrite A1 in K. discriminate K. }
    unfold step_of in K. rewrite A1 in K. cbn [run_deeds] in K. peelb K. apply Ok_inj in K.
    change (remove_all (VList l) (texts (map ptext (so (m_self m)))) = Ok v) in E. unfold remove_all, texts in E. cbn [iter_val bindr] in E. peelb E. apply Ok_inj in E. subst v.
    apply list_remove_all_perm in E0. rewrite map_map in E0. change (fun x => VStr (ptext x)) with printed in E0.
    exists (set_minus H (so (m_self m))). split; [apply nodup_set_minus; exact Nd|]. split; [apply set_minus_valid; exact V|].
    assert (SM : forall t, In t (so (m_self m)) <-> laid_down c t).
    { intro t. rewrite <- Ls. split; apply Permutation_in; [apply SO|apply Permutation_sym, SO]. }
    split.
    + intro t. rewrite in_hand_snoc, in_set_minus, I0, SM. unfold touches. cbn [puts takes In]. intuition.
    + right. exists v0. split; [exact K|]. apply (removed H l (so (m_self m))); auto.
      * eapply Permutation_NoDup; [apply Permutation_sym, SO|exact Ln].
      * intros t It. apply I0. apply Fa. apply SM. exact It.
  - destruct A as [_ [_ K]]. apply (hand_kept acts _ x); [cbn; tauto|exact Hd|exact (K PV_hand)].
  - destruct (text_eqb (tag e) (t_ "AGARI")) eqn:TA.
    + apply text_eqb_iff in TA. cbn [fair] in Fa. destruct (Fa TA) as [w [Hw Sh]].
      destruct (agari_step e i x cmds x' w TA Hw Hc) as [AN AY]. destruct (Z.eq_dec w p) as [->|Nw].
      2: { apply (hand_kept acts _ x); [cbn; tauto|exact Hd|exact (AN Nw)]. }
      destruct (AY eq_refl) as [expected [K G]]. specialize (Sh eq_refl). destruct Sh as [from [l [Hf [Hl [Nl Alt]]]]].
      destruct (G from l Hf Hl) as [hand [TS [G1 G2]]]. unfold step_of in K. apply Ok_inj in K. destruct Hd as [H [Nd [V [I0 _]]]].
      exists H. split; [exact Nd|]. split; [exact V|]. split.
      * intro t. rewrite in_hand_snoc, I0. unfold touches. cbn [puts takes]. tauto.
      * right. exists (map VStr expected). split; [exact K|].
        assert (Q : Permutation expected (map ptext H)); [|apply (Permutation_map VStr) in Q; rewrite map_map in Q; exact Q].
        destruct Alt as [[Ef Same]|[Nf [mt [Hm [Nm Same]]]]].
        -- rewrite (G1 Ef). assert (PL' : Permutation l H) by (apply NoDup_Permutation; [exact Nl|exact Nd|]; intro t; rewrite Same, I0; reflexivity).
           destruct (tile_strs_perm _ _ PL' _ TS) as [ts' [E' Q']]. rewrite tile_strs_valid in E' by exact V. apply Ok_inj in E'. subst ts'. exact Q'.
        -- destruct (G2 Nf mt Hm) as [ms [TM TR]]. apply text_remove_perm in TR.
           assert (PL' : Permutation l (mt :: H)).
           { apply NoDup_Permutation; [exact Nl|constructor; [rewrite I0; exact Nm|exact Nd]|]. intro t. rewrite Same. cbn [In]. rewrite I0. intuition. }
           destruct (tile_strs_perm _ _ PL' _ TS) as [ts' [E' Q']]. 
           assert (E2 : tile_strs (mt :: H) = Ok (ms :: map ptext H)).
           { pose proof (tile_strs_valid H V) as TV. unfold tile_strs in *. cbn [mapM] in *. peelb TM. apply Ok_inj in TM. injection TM as <-. cbn [bindr]. rewrite TV. reflexivity. }
           rewrite E2 in E'. apply Ok_inj in E'. subst ts'. apply Permutation_cons_inv with (a := ms).
           etransitivity; [apply Permutation_sym; exact TR|]. exact Q'.
    + apply (hand_kept acts _ x); [cbn; tauto|exact Hd|].
      destruct (call_inv unquote so _ _ _ _ _ _ Hc) as [raw [x1 [Hh [_ [_ [_ D]]]]]]. destruct (other_props unquote so e x raw x1 W Hh) as [F _].
      pose proof (D (SId p, PV_hand)) as K. rewrite deeds_none in K; [exact K|]. eapply Forall_impl; [|exact F]. intros c0 J Q. cbn beta in J. cbn [snd] in Q. rewrite Q in J. clear Q.
      revert J. unfold other_views. cbn [views_for].
      assert (TA' : text_eqb (t_ "AGARI") (tag e) = false).
      { apply not_true_iff_false. intro Q. apply text_eqb_iff in Q. rewrite <- Q in TA. rewrite text_eqb_refl in TA. discriminate. }
      rewrite TA'. repeat (match goal with |- In _ (if ?b then _ else _) -> False => destruct b end; [cbn; intuition congruence|]). intros [].
Qed.
End Hand.

Lemma nodup_hand : forall es p h s, NoDup h -> passed_events (SHand p h) es = Ok s -> forall h', s = SHand p h' -> NoDup h'.
Proof.
  intros es p h s N H. rewrite passed_is_scan in H by exact I. revert h N H. induction es as [|e es IH]; intros h N H; cbn [scan_all] in H.
  - apply Ok_inj in H. intros h' E. subst s. injection E as ->. exact N.
  - peelb H. destruct v as [s1 n]. cbn [fst] in H. cbn [scan] in E. unfold wrap in E. peelb E. apply Ok_inj in E.
    destruct v as [h1|]; injection E as E _; subst s1; [|exact (IH h N H)].
    apply (IH h1); [|exact H]. clear -N E0. unfold hand_scan in E0. destruct (is_game_init e).
    + peelb E0. apply Ok_inj in E0. injection E0 as ->. apply nodup_set_of.
    + peelb E0. destruct v; [peelb E0; apply Ok_inj in E0; injection E0 as ->; apply nodup_set_union; [exact N|constructor; [intros []|constructor]]|].
      peelb E0. destruct v; [peelb E0; apply Ok_inj in E0; injection E0 as ->; apply nodup_set_minus; exact N|].
      peelb E0. destruct v; [peelb E0; apply Ok_inj in E0; injection E0 as ->; apply nodup_set_minus; exact N|discriminate].
Qed.
(** ** C40. *)
Theorem C40_hand : forall unquote so strict acts es cmds p,
  (forall l, Permutation (so l) l) -> seat p -> log acts es -> plays p acts -> has_seat p es -> fair_play p acts es ->
  to_commands (tenhou_command unquote so) strict es = Ok cmds ->
  exists hand, passed_events (SHand p []) es = Ok (SHand p hand) /\ NoDup hand /\
    forall d, In (Deal d) acts -> exists l, holds_after cmds (Some p, PV_hand) (Some (VList l)) /\ Permutation l (map printed hand).
Proof.
  intros unquote so strict acts es cmds p SO P Lg Pl HS Fa H. destruct (to_commands_run _ _ _ _ _ H) as [x [R M]].
  assert (G : in_step p acts x).
  { revert R. apply (log_ind unquote so strict (in_step p)); [|exact Lg|].
    - constructor; [intros v Q; discriminate|]. exists []. split; [constructor|]. split; [constructor|]. split; [|left; repeat split; constructor].
      intro t. split; [intros []|]. intros [[b [a [c [E _]]]]|[[] _]]. destruct b; discriminate.
    - intros acts' a es' e more Ea Ee Ef L W i x0 x' cs T Hc. eapply hand_step_in; try eassumption.
      + intro Gt. apply HS; [eapply nth_error_In; exact Ee|exact Gt].
      + intros d ->. apply Pl. rewrite Ea. apply in_or_app. right. now left.
      + exact (Fa acts' a more e Ea Ee). }
  destruct (C32_player_hand p [] acts es P Lg Pl) as [hand [E I0]]. exists hand. split; [exact E|].
  assert (Nh : NoDup hand) by (eapply nodup_hand; [constructor|exact E|reflexivity]). split; [exact Nh|].
  intros d Id. destruct G as [_ [H0 [Nd [V [I1 [[_ [ND _]]|[l [A B]]]]]]]].
  - exfalso. unfold no_deal in ND. rewrite Forall_forall in ND. apply (ND (Deal d) Id). exact I.
  - exists l. split; [rewrite <- A; apply player_place; auto|]. etransitivity; [exact B|]. apply Permutation_map.
    apply NoDup_Permutation; [exact Nd|exact Nh|]. intro t. rewrite I0, I1. reflexivity.
Qed.

(** ** A concrete game: the log of Prop_State.v after a game type, ending in a win of seat 1
    off seat 0. All hypotheses of C40, C41 and C58 hold for seat 1. *)
Definition ex_win : event :=
  ex_event (t_ "AGARI") [(t_ "who", t_ "1"); (t_ "fromWho", t_ "0"); (t_ "machi", t_ "104"); (t_ "sc", t_ "250,-80,250,80,250,0,250,0");
    (t_ "hai", t_ "5,6,41,45,49,61,65,101,104,105"); (t_ "yaku", t_ "1,1,52,1"); (t_ "ten", t_ "30,2000,0")].
Definition ex_game : list event := ex_event (t_ "GO") [(t_ "type", t_ "169")] :: ex_log ++ [ex_win].
Definition ex_play : list action := Other :: ex_acts ++ [Other].
Lemma ex_game_log : log ex_play ex_game.
Proof.
  destruct ex_is_log as [L W]. split.
  - constructor; [exact I|]. apply Forall_app. split; [exact L|]. constructor; [exact I|constructor].
  - constructor; [|apply Forall2_app; [exact W|constructor; [|constructor]]];
    (split; [discriminate|]; split; [discriminate|]; split; [discriminate|]; intros (l & c & r & E & A & B); vm_compute in E; injection E as <- <- <-; lia).
Qed.
Lemma ex_game_plays : plays 1 ex_play.
Proof.
  intros d I0. destruct I0 as [I0|I0]; [discriminate|]. apply in_app_iff in I0. destruct I0 as [I0|[I0|[]]]; [|discriminate]. exact (ex_plays 1 d I0).
Qed.
Lemma ex_game_seat : has_seat 1 ex_game.
Proof.
  intros e I0 T. destruct I0 as [<-|I0].
  - exists 169. split; [reflexivity|]. left. reflexivity.
  - exfalso. cbn in I0. repeat (destruct I0 as [<-|I0]; [discriminate T|]). destruct I0.
Qed.
Lemma log_firstn n acts es : log acts es -> log (firstn n acts) (firstn n es).
Proof.
  intros [L W]. split; [rewrite <- (firstn_skipn n acts) in L; apply Forall_app in L; tauto|]. clear L. revert n. induction W; intros [|n]; cbn; constructor; auto.
Qed.
(** The tracked hand, to evaluate [in_hand]. *)
Lemma ex_in_hand n : forall hand, passed_events (SHand 1 []) (firstn n ex_game) = Ok (SHand 1 hand) ->
  forall t, in_hand 1 [] (firstn n ex_play) t <-> In t hand.
Proof.
  intros hand E t. destruct (C32_player_hand 1 [] (firstn n ex_play) (firstn n ex_game)) as [h [E' I0]].
  - unfold seat. lia.
  - apply log_firstn, ex_game_log.
  - intros d Id. apply ex_game_plays. rewrite <- (firstn_skipn n ex_play). apply in_or_app. now left.
  - rewrite E' in E. apply Ok_inj in E. injection E as ->. now rewrite I0.
Qed.
Lemma ex_game_fair : fair_play 1 ex_play ex_game.
Proof.
  intros before a after e E Ee.
  assert (B : before = firstn (length before) ex_play) by (rewrite E, firstn_app, Nat.sub_diag, firstn_O, firstn_all, app_nil_r; reflexivity).
  assert (Ea : nth_error ex_play (length before) = Some a) by (rewrite E, nth_error_app2, Nat.sub_diag by lia; reflexivity).
  rewrite B. clear B E. revert Ea Ee. generalize (length before) as n. intros n.
  destruct n as [|[|[|[|[|[|[|[|[|[|n]]]]]]]]]]; intros Ea Ee; try (exfalso; destruct n; discriminate Ea); injection Ea as <-; injection Ee as <-.
  - intro T. discriminate T.
  - split.
    + repeat (constructor; [cbn; lia|]). constructor.
    + repeat (constructor; [unfold valid_tile; lia|]). constructor.
  - discriminate.
  - discriminate.
  - intros _ t Lt. apply (ex_in_hand 4 _ ltac:(vm_compute; reflexivity)). 
    destruct Lt as [i [Hi [Ni ->]]]. assert (Q : i = 1 \/ i = 2) by (change (pon_position ex_pon) with 0 in Ni; lia). destruct Q as [->| ->]; vm_compute; tauto.
  - intros _. apply (ex_in_hand 5 _ ltac:(vm_compute; reflexivity)). vm_compute. tauto.
  - intro T. discriminate T.
  - intros _ t Lt. apply (ex_in_hand 7 _ ltac:(vm_compute; reflexivity)). change (t = added_tile ex_added) in Lt. subst t. vm_compute. tauto.
  - exact I.
  - intros _. exists 1. split; [reflexivity|]. intros _. exists 0, [5; 6; 41; 45; 49; 61; 65; 101; 104; 105]. split; [reflexivity|]. split; [reflexivity|]. split.
    { repeat (constructor; [cbn; lia|]). constructor. }
    right. split; [lia|]. exists 104. split; [reflexivity|]. split.
    + rewrite (ex_in_hand 9 _ ltac:(vm_compute; reflexivity)). vm_compute. lia.
    + intro t. rewrite (ex_in_hand 9 _ ltac:(vm_compute; reflexivity)). cbn. lia.
Qed.
Example C40_example : exists cmds, to_commands (tenhou_command (fun s => s) (fun l => l)) false ex_game = Ok cmds /\ In (Deal ex_deal) ex_play.
Proof. eexists. split; [vm_compute; reflexivity|]. cbn. tauto. Qed.
(** So the theorems apply to it. *)
Example C40_applied : exists cmds hand l, to_commands (tenhou_command (fun s => s) (fun l => l)) false ex_game = Ok cmds /\
  passed_events (SHand 1 []) ex_game = Ok (SHand 1 hand) /\ holds_after cmds (Some 1, PV_hand) (Some (VList l)) /\ Permutation l (map printed hand).
Proof.
  destruct C40_example as [cmds [E D]]. exists cmds.
  destruct (C40_hand _ _ _ _ _ _ 1 (fun l => Permutation_refl l) ltac:(unfold seat; lia) ex_game_log ex_game_plays ex_game_seat ex_game_fair E) as [hand [H1 [_ H2]]].
  destruct (H2 _ D) as [l [A B]]. exists hand, l. auto.
Qed.
Example C41_applied : exists cmds, to_commands (tenhou_command (fun s => s) (fun l => l)) false ex_game = Ok cmds /\
  holds_after cmds (Some 1, PV_discard_from_hand) (Some (VList [VBool true])) /\
  holds_after cmds (Some 1, PV_discard_tiles) (Some (VList [VStr (t_ "1z")])).
Proof.
  destruct C40_example as [cmds [E D]]. exists cmds. split; [exact E|].
  pose proof (C58_play (fun s => s) (fun l => l) false [Other] ex_deal (tl ex_acts ++ [Other]) _ cmds 1 (fun l => Permutation_refl l) ltac:(unfold seat; lia) ex_game_log) as Q.
  pose proof (C41_flags (fun s => s) (fun l => l) false [Other] ex_deal (tl ex_acts ++ [Other]) _ cmds 1 (fun l => Permutation_refl l) ltac:(unfold seat; lia) ex_game_log) as Q'.
  assert (N : no_deal (tl ex_acts ++ [Other])) by (repeat (constructor; [intros []|]); constructor).
  destruct (Q N ex_game_seat E) as [A _]. destruct (Q' N ex_game_seat E) as [fs [F B]]. split; [|exact A].
  assert (G : fs = [true]); [|subst fs; exact B]. clear -F. cbn [tl ex_acts app] in F.
  repeat match goal with
  | F : flags _ _ (_ :: _) _ |- _ => inversion F; subst; clear F; try congruence;
      try (exfalso; match goal with N : forall t, Discard 1 109 <> Discard 1 t |- _ => exact (N 109 eq_refl) end)
  end.
  match goal with F : flags _ _ [] _ |- _ => inversion F; subst; clear F end.
  match goal with K : ?f = false <-> just_drew _ _ _ |- _ => destruct f; [reflexivity|]; exfalso; destruct K as [K _]; pose proof (K eq_refl) as JD end.
  destruct JD as [u [w [E Fw]]]. destruct (destruct_last w) as [->|[w' [z ->]]].
  - apply app_inj_tail in E. destruct E as [_ E]. discriminate E.
  - replace (u ++ Draw 1 109 :: w' ++ [z]) with ((u ++ Draw 1 109 :: w') ++ [z]) in E by (rewrite <- app_assoc; reflexivity).
    apply app_inj_tail in E. destruct E as [_ E]. subst z. apply Forall_app in Fw. destruct Fw as [_ Fw]. inversion Fw as [|? ? K]; subst. apply K. reflexivity.
Qed.
Print Assumptions C40_hand.
Print Assumptions C41_flags.
Print Assumptions C58_play.
