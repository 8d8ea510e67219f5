(** C96 and C97: which logs are translated to the universal format, and which are refused. *)
From Verif Require Import Base Category Tile Parse Text Tenhou TenhouProofs Spec_Tile Spec_Meld MeldProofs Prop_Meld Event Const Reader State Spec_Log StateProofs Prop_State Value Universe Translator TenhouCommands
  Transfer Spec_Transfer Spec_Universe UniverseProofs Prop_Executor CommandProofs Prop_Commands Spec_Play CommandState CommandPlay PlaySteps PlayProofs Prop_Play Prop_Hand Spec_Score FinishProofs Prop_Score
  Prop_Meld Spec_Header Prop_Header Prop_Reader Spec_Read Prop_Read Spec_Convert ConvertProofs.
From Coq Require Import String List ZArith Lia Bool Permutation.
Import ListNotations.
Open Scope list_scope.
Open Scope Z_scope.

(** ** C96. Every proper log is translated. *)
Theorem C96_converted : forall unquote so n w acts es,
  (forall l, Permutation (so l) l) -> proper n w acts es ->
  exists cmds, to_commands (tenhou_command unquote so) false es = Ok cmds.
Proof.
  intros unquote so n w acts es SO Pr. destruct (proper_runs unquote so SO false n w es acts Pr) as [[cmds x] R]; [discriminate|].
  exists cmds. unfold to_commands. rewrite R. reflexivity.
Qed.
(** In strict mode too, when all its events are known. *)
Theorem C96_strict : forall unquote so n w acts es,
  (forall l, Permutation (so l) l) -> proper n w acts es -> Forall known es ->
  exists cmds, to_commands (tenhou_command unquote so) true es = Ok cmds.
Proof.
  intros unquote so n w acts es SO Pr K. destruct (proper_runs unquote so SO true n w es acts Pr) as [[cmds x] R]; [auto|].
  exists cmds. unfold to_commands. rewrite R. reflexivity.
Qed.

Section Refused.
Context (unquote : text -> text) (so : list Z -> list Z).
Local Notation tr := (tenhou_command unquote so).
Local Notation handle := (handle unquote so).

(** An event whose translation fails. *)
Lemma refused strict before e after : (forall cmds x i, call_all tr strict 0 before empty_ctx = Ok (cmds, x) -> forall r, call tr strict e i x <> Ok r) ->
  forall cmds, to_commands tr strict (before ++ e :: after) <> Ok cmds.
Proof.
  intros N cmds H. unfold to_commands in H. peelb H. rewrite call_all_app in E. peelb E. destruct v0 as [c x]. cbn [snd] in *.
  match goal with K : call_all _ _ _ (e :: after) _ = Ok _ |- _ => cbn [call_all] in K; peelb K end. eapply N; [reflexivity|eassumption].
Qed.
Lemma mapM_each {A B} (f : A -> res B) : forall l r, mapM f l = Ok r -> Forall2 (fun a b => f a = Ok b) l r.
Proof.
  induction l as [|a l IH]; intros r H; cbn [mapM] in H; [apply Ok_inj in H; subst; constructor|]. peelb H. apply Ok_inj in H. subst r. constructor; auto.
Qed.
Lemma unknown_empty e x raw x' : ~ known e -> handle e x = Ok (raw, x') -> raw = [].
Proof.
  intros K H. unfold CommandProofs.handle in H. destruct (hfind (handlers unquote so) (tag e)) as [h|] eqn:F.
  - apply hfind_in in F. cbn [handlers In] in F.
    destruct F as [F|[F|[F|[F|[F|[F|[F|[F|[F|[F|[F|[]]]]]]]]]]]]; assert (T : tag e = fst (tag e, h)) by reflexivity; rewrite <- F in T; cbn [fst] in T;
      assert (Q : h = snd (tag e, h)) by reflexivity; rewrite <- F in Q; cbn [snd] in Q; clear F;
      try (exfalso; apply K; right; left; rewrite T; cbn; tauto).
    + subst h. unfold set_player_command, default_event_type in H. peelb H. apply Ok_inj in H. injection H as -> ->. peelb E. cbv zeta in E. peelb E. apply Ok_inj in E. subst v. cbn [fst].
      assert (G : forall p r, seat p -> set_player unquote e v0 v1 (split_on 44 (get_list_attr (t_ "sx") e)) p = Ok r -> r = []).
      { intros p r P R. unfold set_player in R. destruct (lookup (t_ "n" ++ str_int p) (attrib e)) as [name|] eqn:L; [|apply Ok_inj in R; exact R].
        destruct (not_blank name) eqn:B; [|apply Ok_inj in R; exact R]. exfalso. apply K. right. right. left. split; [exact T|]. exists p. split; [exact P|].
        exists name. split; [exact T|]. split; [exact L|]. apply not_blank_iff. exact B. }
      match goal with M : mapM _ [0; 1; 2; 3] = Ok ?ls |- _ => assert (Z0 : concat ls = []); [|rewrite Z0; reflexivity]; apply mapM_each in M; revert M end.
      assert (F : Forall seat [0; 1; 2; 3]) by (repeat (constructor; [unfold seat; lia|]); constructor). revert F. clear - G. generalize [0; 1; 2; 3]. intros l F M.
      induction M as [|p r l ls R M IH]; [reflexivity|]. inversion F; subst. cbn [concat]. rewrite (G p r) by assumption. auto.
    + subst h. unfold richii_command, default_event_type in H. peelb H. apply Ok_inj in H. injection H as -> ->. peelb E. apply Ok_inj in E. subst v. cbn [fst].
      match goal with |- context [text_eqb ?s (t_ "1")] => destruct (text_eqb s (t_ "1")) eqn:S1; [|destruct (text_eqb s (t_ "2")) eqn:S2; [|reflexivity]] end.
      all: exfalso; apply K; right; right; right; split; [exact T|].
      * match goal with A : attr e (t_ "step") = Ok _ |- _ => unfold attr in A; destruct (lookup (t_ "step") (attrib e)) as [st|] eqn:L; [|discriminate]; apply Ok_inj in A; subst end. left. apply text_eqb_iff in S1. unfold holds. rewrite L. congruence.
      * match goal with A : attr e (t_ "step") = Ok _ |- _ => unfold attr in A; destruct (lookup (t_ "step") (attrib e)) as [st|] eqn:L; [|discriminate]; apply Ok_inj in A; subst end. right. apply text_eqb_iff in S2. unfold holds. rewrite L. congruence.
  - assert (N : ~ Spec_Log.tile_tag (tag e)) by (intro N; apply K; now left). destruct (tile_tag_full _ N) as [A B]. rewrite (default_none e x B A) in H. apply Ok_inj in H. congruence.
Qed.
End Refused.

(** Strict mode refuses every log with an event it does not know. *)
Theorem C96_unknown : forall unquote so before e after cmds, ~ known e ->
  to_commands (tenhou_command unquote so) true (before ++ e :: after) <> Ok cmds.
Proof.
  intros unquote so before e after cmds K. apply refused. intros c x i _ r H. rewrite call_eq in H. destruct (CommandProofs.handle unquote so e x) as [[raw x1]|] eqn:E; [|discriminate].
  cbn [bindr] in H. apply (unknown_empty _ _ _ _ _ _ K) in E. subst raw. discriminate H.
Qed.

(** ** C97. What is refused. *)
(** What depends on the settings, when no settings came before. *)
Theorem C97_no_settings : forall unquote so strict before e after cmds,
  In (tag e) [t_ "TAIKYOKU"; t_ "INIT"; t_ "AGARI"; t_ "RYUUKYOKU"] -> ~ has_tag (t_ "GO") before ->
  to_commands (tenhou_command unquote so) strict (before ++ e :: after) <> Ok cmds.
Proof.
  intros unquote so strict before e after cmds T NG. apply refused. intros c x i R r H.
  assert (V : val_at x sub_all RV_player_count = None).
  { clear H r. revert c x R NG. induction before as [|f before IH] using rev_ind; intros c y R NG.
    - cbn in R. apply Ok_inj in R. injection R as _ ->. reflexivity.
    - destruct (run_snoc _ _ _ _ _ _ _ R) as (c1 & x0 & j & c2 & H1 & H2). rewrite (count_untouched _ _ _ _ _ _ _ _ (fun Q => NG (proj2 (has_tag_snoc _ _ _) (or_intror Q))) H2).
      eapply IH; [exact H1|]. intro Q. apply NG. apply has_tag_snoc. now left. }
  assert (C : forall m, ctx_player_count x <> Ok m) by (intro m; unfold ctx_player_count, val_at in *; rewrite V; discriminate).
  destruct r as [c2 x2]. destruct (call_inv unquote so _ _ _ _ _ _ H) as [raw [x1 [Hh _]]]. cbn [In] in T. destruct T as [T|[T|[T|[T|[]]]]]; symmetry in T.
  - destruct (count_ok _ _ _ _ _ _ _ _ (or_intror T) H) as [m Hm]. exact (C m Hm).
  - destruct (count_ok _ _ _ _ _ _ _ _ (or_introl T) H) as [m Hm]. exact (C m Hm).
  - destruct (agari_inv _ _ _ _ _ _ T Hh) as (wt & w & ft & f & st & sc & yt & ns & yaku & m & rest & _ & _ & _ & _ & _ & _ & _ & _ & _ & Hm & _). exact (C m Hm).
  - destruct (nowin_inv _ _ _ _ _ _ T Hh) as (sc & m & rest & Hm & _). exact (C m Hm).
Qed.

(** An event that does not say what it has to. *)
Theorem C97_missing : forall unquote so strict before e after cmds names name,
  In (tag e, names) needed -> In name names -> ~ says name e ->
  to_commands (tenhou_command unquote so) strict (before ++ e :: after) <> Ok cmds.
Proof.
  intros unquote so strict before e after cmds names name T I0 NS. apply refused. intros c x i R [c2 x2] H.
  destruct (call_inv unquote so _ _ _ _ _ _ H) as [raw [x1 [Hh _]]]. clear H R. apply NS. clear NS.
  assert (At : forall n s, attr e n = Ok s -> says n e).
  { intros n s A. unfold attr in A. destruct (lookup n (attrib e)) as [v|] eqn:L; [|discriminate]. exists v. exact L. }
  unfold handle in Hh.
  assert (Hf : forall h, hfind (handlers unquote so) (tag e) = Some h -> h e x = Ok (raw, x1)) by (intros h Q; rewrite Q in Hh; exact Hh). clear Hh.
  unfold needed in T. cbn [In] in T.
  repeat (destruct T as [T|T]; [injection T as Tg <-; symmetry in Tg; rewrite Tg in Hf; specialize (Hf _ eq_refl);
    unfold game_type_command, shuffle_command, set_oya_command, game_init_command, open_hand, dora_command, richii_command, disconnected_command, agari_command,
      logged_win, meld_from, default_event_type in Hf;
    peelb Hf; try (peelb E); cbn [In] in I0;
    repeat (destruct I0 as [<-|I0]; [first [eapply At; eassumption|idtac]|]); try contradiction|]); try contradiction.
  - destruct v8 as [|p0 [|p1 [|p2 l]]]; try discriminate E. peelb E. eapply At; eassumption.
  - peelb E0. eapply At; eassumption.
  - match goal with K : (do _ <- _; _) = Ok _ |- _ => peelb K end. eapply At; eassumption.
Qed.
(** Play before any deal. *)
Definition plays_on (p : Z) (a : action) : Prop :=
  match a with
  | Discard q _ | Call q _ => q = p
  | NewDora _ => True
  | _ => False
  end.
Definition untold (p : Z) (acts : list action) (x : ctx) : Prop :=
  counted_in p x /\ (no_deal acts -> val_at x sub_all GV_dora_indicators = None /\ forall v, play_only v -> val_at x (SId p) v = None).
Lemma untold_step unquote so strict acts a e i x x' cmds p : seat p -> legal_action a -> writes a e ->
  (tag e = t_ "GO" -> exists v, holds e (t_ "type") (str_int v) /\ (flag v 4 = false \/ p < 3)) ->
  untold p acts x -> call (tenhou_command unquote so) strict e i x = Ok (cmds, x') -> untold p (acts ++ [a]) x' /\ (no_deal acts -> ~ plays_on p a).
Proof.
  intros P L W GO [C U] H. destruct (play_step _ _ _ _ _ _ _ _ _ _ P L W C GO H) as [A C'].
  assert (NP : no_deal acts -> ~ plays_on p a).
  { intros N Pl. destruct (U N) as [Ud Up]. destruct a as [d|q t|q t|q c|t|]; cbn [plays_on act_step] in *; try contradiction.
    - subst q. destruct A as (dt & _ & _ & _ & K). specialize (K PV_round). rewrite Z.eqb_refl in K. unfold step_of in K. rewrite (Up PV_round) in K by (cbn; tauto). discriminate K.
    - subst q. destruct A as (m & own & al & _ & _ & _ & _ & _ & K). specialize (K PV_meld_public_tiles). rewrite Z.eqb_refl in K. unfold step_of in K. rewrite (Up PV_meld_public_tiles) in K by (cbn; tauto). discriminate K.
    - destruct A as (_ & K & _). unfold step_of in K. rewrite Ud in K. discriminate K. }
  split; [|exact NP]. split; [exact C'|]. intro N. apply Forall_app in N. destruct N as [N Na]. inversion Na as [|? ? Na' _]; subst. specialize (NP N). destruct (U N) as [Ud Up].
  destruct a as [d|q t|q t|q c|t|]; cbn [plays_on act_step] in *; try (exfalso; apply Na'; exact I); try (exfalso; apply NP; exact I).
  - destruct A as (_ & Kd & K). split; [exact (step_keep _ _ _ _ _ Kd Ud)|]. intros v I0. apply (step_keep x); [|exact (Up v I0)]. specialize (K v).
    replace (view_eqb PV_hand v) with false in K; [rewrite andb_false_r in K; exact K|]. symmetry. apply not_true_iff_false. rewrite view_eqb_iff. intros <-. cbn in I0. intuition discriminate.
  - destruct A as (dt & _ & _ & Kd & K). split; [exact (step_keep _ _ _ _ _ Kd Ud)|]. intros v I0. apply (step_keep x); [|exact (Up v I0)]. specialize (K v).
    replace (q =? p) with false in K by (symmetry; apply Z.eqb_neq; exact NP). exact K.
  - destruct A as (m & own & al & _ & _ & _ & _ & Kd & K). split; [exact (step_keep _ _ _ _ _ Kd Ud)|]. intros v I0. apply (step_keep x); [|exact (Up v I0)]. specialize (K v).
    replace (q =? p) with false in K by (symmetry; apply Z.eqb_neq; exact NP). exact K.
  - destruct A as (_ & Kd & K). split; [exact (step_keep _ _ _ _ _ Kd Ud)|]. intros v I0. apply (step_keep x); [exact (K v I0)|exact (Up v I0)].
Qed.
Theorem C97_no_deal : forall unquote so strict acts a es e after p cmds,
  seat p -> log (acts ++ [a]) (es ++ [e]) -> has_seat p (es ++ [e]) -> no_deal acts -> plays_on p a ->
  to_commands (tenhou_command unquote so) strict (es ++ e :: after) <> Ok cmds.
Proof.
  intros unquote so strict acts a es e after p cmds P [L W] HS N Pl. apply refused. intros c x i R r H.
  destruct (forall2_snoc_inv _ _ _ _ W) as (acts' & a' & E & W' & We). apply app_inj_tail in E. destruct E as [<- <-].
  apply Forall_app in L. destruct L as [L La]. inversion La; subst.
  assert (U : untold p acts x).
  { revert R. apply (log_ind unquote so strict (untold p)); [split; [intros v Q; discriminate|intros _; split; [reflexivity|intros v _; reflexivity]]|split; assumption|].
    intros acts' b es' f more Ea Ee Ef Lb Wb j x0 x' cs T Hc. eapply untold_step; try eassumption. intro G. apply HS; [apply in_or_app; left; eapply nth_error_In; exact Ee|exact G]. }
  destruct r as [c2 x2]. eapply untold_step; try eassumption. intro G. apply HS; [apply in_or_app; right; now left|exact G].
Qed.

(** A tile is discarded, or laid down for a call, and the hand has none like it. *)
Definition uses (p t : Z) (a : action) : Prop :=
  match a with
  | Discard q u => q = p /\ u = t
  | Call q v => q = p /\ laid_down v t
  | _ => False
  end.
Theorem C97_not_in_hand : forall unquote so strict n w acts a es e after p t cmds,
  (forall l, Permutation (so l) l) -> proper n w acts es -> 0 <= p < n -> ~ no_deal acts ->
  legal_action a -> writes a e -> uses p t a -> (forall u, in_hand p [] acts u -> printed u <> printed t) ->
  to_commands (tenhou_command unquote so) strict (es ++ e :: after) <> Ok cmds.
Proof.
  intros unquote so strict n w acts a es e after p t cmds SO (N & Lg & C & A & O & Fa) P ND L W U NH. apply refused. intros c x i R [c2 x2] H.
  destruct (dealt_facts unquote so SO strict n w acts es c x p N Lg C A (Fa p P) P R ND) as ([_ _ _ (Hd & l & Nd & Vh & Ih & Hl & Pl)] & _).
  assert (Ps : seat p) by (unfold seat; lia).
  assert (Sc : counted_in p x).
  { pose proof (seats n w p es C P) as HS. exact (tk_count _ _ _ (tracked_run unquote so SO strict p _ _ _ _ Ps Lg HS R)). }
  assert (NG : tag e <> t_ "GO").
  { intro T. destruct a as [d|q u|q u|q v|u|]; cbn [uses writes] in *; try contradiction.
    - rewrite T in W. pose proof (f_equal (hd 0) W) as K. change (hd 0 (t_ "GO")) with 71 in K. cbn [hd] in K. unfold discard_letter in K.
      pose proof (f_equal (@tl Z) W) as K2. cbn [tl] in K2. destruct L as [_ [V _]]. destruct (str_int_nonneg u V) as (_ & B & _). rewrite <- K2 in B. discriminate B.
    - destruct W as [W _]. rewrite T in W. discriminate W. }
  destruct (play_step _ _ _ _ _ _ _ _ _ _ Ps L W Sc (fun T => match NG T with end) H) as [S0 _].
  assert (Miss : forall T, In t T -> forall o, remove_all (VList l) (VList (map printed T)) <> Ok o).
  { intros T I0 o Q. unfold remove_all in Q. cbn [iter_val bindr] in Q. replace (map printed T) with (map VStr (map ptext T)) in Q by (rewrite map_map; reflexivity).
    destruct (list_remove_all l (map VStr (map ptext T))) as [r|] eqn:E; [|discriminate]. apply list_remove_all_perm in E.
    assert (I1 : In (printed t) l).
    { eapply Permutation_in; [apply Permutation_sym; exact E|]. apply in_or_app. left. rewrite map_map. apply (in_map printed). exact I0. }
    eapply Permutation_in in I1; [|exact Pl]. apply in_map_iff in I1. destruct I1 as [u [E1 I1]]. apply (NH u); [apply Ih; exact I1|exact E1]. }
  unfold val_at in Hl. destruct a as [d|q u|q u|q v|u|]; cbn [uses act_step] in *; try contradiction.
  - destruct U as [-> ->]. destruct S0 as (dt & _ & _ & _ & K). specialize (K PV_hand). rewrite Z.eqb_refl in K. unfold step_of, val_at in K. rewrite Hl in K.
    change ((do o <- remove_all (VList l) (VList [printed t]); Ok (Some o)) = Ok (iget (x_vals x2) (SId p, PV_hand))) in K.
    destruct (remove_all (VList l) (VList [printed t])) as [o|] eqn:Q; [exact (Miss [t] (or_introl eq_refl) o Q)|discriminate K].
  - destruct U as [-> U]. destruct S0 as (m & own & al & D & T1 & _ & _ & _ & K). specialize (K PV_hand). rewrite Z.eqb_refl in K. unfold step_of, val_at in K. rewrite Hl in K.
    destruct D as (Dk & Ds & Dn & Db & Dbn & Df).
    destruct (call_texts so p v m (m_self m) own SO L ltac:(repeat split; auto; apply Ds || apply Db) (fun z I0 => or_introl (proj1 (Ds z) I0)) T1) as [-> _].
    rewrite texts_printed in K. change ((do o <- remove_all (VList l) (VList (map printed (so (m_self m)))); Ok (Some o)) = Ok (iget (x_vals x2) (SId p, PV_hand))) in K. destruct (remove_all (VList l) (VList (map printed (so (m_self m))))) as [o|] eqn:Q; [|discriminate K].
    apply (Miss (so (m_self m))) in Q; [exact Q|]. eapply Permutation_in; [apply Permutation_sym, SO|]. apply Ds. exact U.
Qed.

(** ** The game of Prop_Hand.v is a proper log: four players, two winds. *)
Lemma ex_fair p : 0 <= p < 4 -> fair_play p ex_play ex_game.
Proof.
  intro P. destruct (Z.eq_dec p 1) as [->|N1]; [exact ex_game_fair|].
  intros before a after e E Ee.
  assert (B : before = firstn (length before) ex_play) by (rewrite E, firstn_app, Nat.sub_diag, firstn_O, firstn_all, app_nil_r; reflexivity).
  assert (Ea : nth_error ex_play (length before) = Some a) by (rewrite E, nth_error_app2, Nat.sub_diag by lia; reflexivity).
  rewrite B. clear B E. revert Ea Ee. generalize (length before) as n. intros n.
  destruct n as [|[|[|[|[|[|[|[|[|[|n]]]]]]]]]]; intros Ea Ee; try (exfalso; destruct n; discriminate Ea); injection Ea as <-; injection Ee as <-; cbn [fair].
  - intro T. discriminate T.
  - assert (Q : p = 0 \/ p = 2 \/ p = 3) by lia. destruct Q as [->|[->| ->]]; (split; [repeat (constructor; [cbn; lia|]); constructor|repeat (constructor; [unfold valid_tile; lia|]); constructor]).
  - intros <-. intros [[b [y [c [Q [Pu Fo]]]]]|[[] _]]. destruct b as [|b1 [|b2 [|b3 b]]]; cbn in Q; try discriminate Q; injection Q as <- <-; cbn in Pu; try contradiction. lia.
  - intros <-. left. exists [Other], (Deal ex_deal), [Draw 0 7]. split; [reflexivity|]. split; [cbn; tauto|]. constructor; [|constructor]. unfold touches. cbn. lia.
  - intros Q. exfalso. congruence.
  - intros Q. exfalso. congruence.
  - intro T. discriminate T.
  - intros Q. exfalso. congruence.
  - exact I.
  - intros _. exists 1. split; [reflexivity|]. intro Q. congruence.
Qed.
Ltac no_tag := let T := fresh in intro T; exfalso; discriminate T.
Lemma ex_number z : number_text (str_int z). Proof. left. eauto. Qed.
Lemma ex_at_least l s k : s = comma_list l -> l <> [] -> k <= Z.of_nat (length l) -> at_least k s.
Proof.
  intros -> N K. exists (map str_int l). split; [destruct l; [congruence|discriminate]|]. split; [rewrite map_length; exact K|]. split; [|reflexivity].
  apply Forall_map, Forall_forall. intros z _. apply ex_number.
Qed.
Ltac no_end := intros [T|T]; discriminate T.
Lemma ex_complete : Forall (complete 4 2) ex_game.
Proof.
  unfold ex_game, ex_log. cbn [app]. repeat (apply Forall_cons || apply Forall_nil); unfold complete.
  - split; [intros _; exists 169; repeat split; lia|]. do 8 (split; [no_tag|]). no_end.
  - do 4 (split; [no_tag|]). split; [|do 4 (split; [no_tag|]); no_end].
    intros _. split; [exists 0, 0, 0, [2; 5; 77]; split; [lia|reflexivity]|]. split; [exists 0; reflexivity|].
    eexists. split; [reflexivity|]. apply (ex_at_least [250; 250; 250; 250]); [reflexivity|discriminate|cbn; lia].
  - do 9 (split; [no_tag|]). no_end.
  - do 9 (split; [no_tag|]). no_end.
  - do 9 (split; [no_tag|]). no_end.
  - do 9 (split; [no_tag|]). no_end.
  - do 5 (split; [no_tag|]). split; [|do 3 (split; [no_tag|]); no_end].
    intros _. exists 2. split; [lia|]. split; [reflexivity|]. eexists. reflexivity.
  - do 9 (split; [no_tag|]). no_end.
  - do 9 (split; [no_tag|]). no_end.
  - do 7 (split; [no_tag|]). split; [|split; [no_tag|intros _ s H; discriminate H]].
    intros _. exists 1, 0, [5; 6; 41; 45; 49; 61; 65; 101; 104; 105]. do 2 eexists. split; [reflexivity|]. split; [reflexivity|]. split; [discriminate|].
    split; [repeat (constructor; [unfold valid_tile; lia|]); constructor|]. split; [reflexivity|].
    split; [right; exists 104; split; [cbn; tauto|reflexivity]|]. split; [reflexivity|].
    split; [apply (ex_at_least [250; -80; 250; 80; 250; 0; 250; 0]); [reflexivity|discriminate|cbn; lia]|].
    split; [left; reflexivity|]. split; [exists [1; 1; 52; 1]; split; [discriminate|]; split; [repeat (constructor; [lia|]); constructor|reflexivity]|].
    eexists. split; [reflexivity|]. apply (ex_at_least [30; 2000; 0]); [reflexivity|discriminate|cbn; lia].
Qed.
Lemma ex_in_order : in_order ex_game.
Proof.
  intros before e after E.
  assert (Q : nth_error ex_game (length before) = Some e /\ before = firstn (length before) ex_game).
  { rewrite E. split; [rewrite nth_error_app2, Nat.sub_diag by lia; reflexivity|rewrite firstn_app, Nat.sub_diag, firstn_O, firstn_all, app_nil_r; reflexivity]. }
  destruct Q as [Q ->]. clear E. revert Q. generalize (length before) as k. intros k Q.
  destruct k as [|k].
  - injection Q as <-. split; [cbn; intuition discriminate|]. intros [H|(l & c & r & H & A & B)]; [cbn in H; intuition discriminate|]. vm_compute in H. injection H as <- <- <-. lia.
  - split; [intros _; exists (ex_event (t_ "GO") [(t_ "type", t_ "169")]); split; [now left|reflexivity]|].
    destruct k as [|k].
    + injection Q as <-. intros [H|(l & c & r & H & A & B)]; [cbn in H; intuition discriminate|]. vm_compute in H. injection H as <- <- <-. lia.
    + intros _. exists ex_init. split; [right; now left|reflexivity].
Qed.
Theorem ex_proper : proper 4 2 ex_play ex_game.
Proof.
  split; [now right|]. split; [exact ex_game_log|]. split; [exact ex_complete|]. split; [|split; [exact ex_in_order|exact ex_fair]].
  unfold ex_play, ex_acts. cbn [app]. repeat (apply Forall_cons || apply Forall_nil); cbn [at_table]; try exact I; try lia.
  split; [unfold valid_tile; cbn; lia|]. intros p P. cbn [d_hands ex_deal]. unfold ex_hands. destruct (p =? 0); [discriminate|]. destruct (p =? 1); discriminate.
Qed.
Lemma ex_known : Forall known ex_game.
Proof.
  unfold ex_game, ex_log. cbn [app]. repeat (apply Forall_cons || apply Forall_nil); unfold known; cbn [tag ex_event ex_init ex_win].
  1,2,5,8,9,10: right; left; cbn; tauto.
  - left. exists 84, 55, []. split; [reflexivity|lia].
  - left. exists 68, 48, []. split; [reflexivity|lia].
  - left. exists 69, 49, [48; 57]. split; [reflexivity|lia].
  - right. right. right. split; [reflexivity|]. left. reflexivity.
Qed.
(** So every translation of it succeeds, even the strict one. *)
Example C96_example : exists cmds, to_commands (tenhou_command (fun s => s) (fun l => l)) true ex_game = Ok cmds.
Proof. exact (C96_strict _ _ 4 2 ex_play ex_game (fun l => Permutation_refl l) ex_proper ex_known). Qed.
(** A chat event is not known. *)
Example C96_unknown_example : forall cmds, to_commands (tenhou_command (fun s => s) (fun l => l)) true (ex_game ++ [ex_event (t_ "CHAT") []]) <> Ok cmds.
Proof.
  intro cmds. apply C96_unknown. intros [(l & c & r & E & A & B)|[K|[[K _]|[K _]]]]; try discriminate K.
  - vm_compute in E. injection E as <- <- <-. lia.
  - cbn in K. intuition discriminate.
Qed.
(** The log without its first event, without its first two. *)
Example C97_settings_example : forall cmds, to_commands (tenhou_command (fun s => s) (fun l => l)) false (tl ex_game) <> Ok cmds.
Proof. intro cmds. apply (C97_no_settings _ _ false [] ex_init). - cbn. tauto. - intros [e [[] _]]. Qed.
Example C97_deal_example : forall cmds, to_commands (tenhou_command (fun s => s) (fun l => l)) false (ex_event (t_ "GO") [(t_ "type", t_ "169")] :: [] ++ [ex_event (t_ "D0") []]) <> Ok cmds.
Proof.
  intro cmds. apply (C97_no_deal _ _ false [Other] (Discard 0 0) [ex_event (t_ "GO") [(t_ "type", t_ "169")]] (ex_event (t_ "D0") []) [] 0).
  - unfold seat. lia.
  - split; [repeat (constructor; cbn; unfold seat, valid_tile; try lia; auto)|]. constructor; [|constructor; [reflexivity|constructor]].
    split; [discriminate|]. split; [discriminate|]. split; [discriminate|]. intros (l & c & r & E & A & B). vm_compute in E. injection E as <- <- <-. lia.
  - intros e [<-|[<-|[]]] T; [|discriminate T]. exists 169. split; [reflexivity|]. now left.
  - constructor; [intros []|constructor].
  - reflexivity.
Qed.
(** A win that does not tell its score. *)
Example C97_missing_example : forall cmds, to_commands (tenhou_command (fun s => s) (fun l => l)) false
  (ex_event (t_ "GO") [(t_ "type", t_ "169")] :: ex_log ++ [ex_event (t_ "AGARI") (firstn 6 (attrib ex_win))]) <> Ok cmds.
Proof.
  intro cmds. apply (C97_missing _ _ false (ex_event (t_ "GO") [(t_ "type", t_ "169")] :: ex_log) _ [] cmds [t_ "who"; t_ "fromWho"; t_ "hai"; t_ "sc"; t_ "ten"] (t_ "ten")).
  - cbn. tauto.
  - cbn. tauto.
  - intros [s H]. discriminate H.
Qed.
(** After the game, seat 2 discards a red 5p it never had. *)
Example C97_hand_example : forall cmds, to_commands (tenhou_command (fun s => s) (fun l => l)) false (ex_game ++ [ex_event (t_ "F52") []]) <> Ok cmds.
Proof.
  intro cmds. eapply (C97_not_in_hand _ _ false 4 2 ex_play (Discard 2 52) ex_game (ex_event (t_ "F52") []) [] 2 52); try reflexivity.
  - exact ex_proper.
  - lia.
  - intro N. unfold no_deal in N. rewrite Forall_forall in N. apply (N (Deal ex_deal)); [cbn; tauto|exact I].
  - split; [unfold seat; lia|unfold valid_tile; lia].
  - split; reflexivity.
  - intros u [[b [y [c [Q [Pu _]]]]]|[[] _]].
    assert (Iy : In y ex_play) by (rewrite Q; apply in_elt). cbn in Iy. 
    repeat (destruct Iy as [<-|Iy]; [cbn [puts] in Pu; try contradiction; try (destruct Pu as [K _]; discriminate K)|]); [|destruct Iy].
    cbn in Pu. repeat (destruct Pu as [<-|Pu]; [discriminate|]). destruct Pu.
Qed.
Print Assumptions C96_converted.
Print Assumptions C96_strict.
Print Assumptions C96_unknown.
Print Assumptions C97_no_settings.
Print Assumptions C97_missing.
Print Assumptions C97_no_deal.
Print Assumptions C97_not_in_hand.
