(** Proofs for C111: which assertions of a converted log hold. *)
From Verif Require Import Base Category Tile Parse Text Tenhou TenhouProofs Spec_Tile Spec_Meld MeldProofs Prop_Meld Event Const Reader State Spec_Log StateProofs Prop_State Value Universe Translator TenhouCommands
  Transfer Spec_Transfer Spec_Universe UniverseProofs Prop_Executor CommandProofs Prop_Commands Spec_Play CommandState CommandPlay PlaySteps PlayProofs Prop_Play Prop_Hand Spec_Score FinishProofs Prop_Score
  Spec_Header Prop_Header Prop_Reader Spec_Read Spec_Convert ConvertProofs Spec_Strict.
From Coq Require Import String List ZArith Lia Bool Permutation.
Import ListNotations.
Open Scope list_scope.
Open Scope Z_scope.

Local Notation ASSERT := U_ASSERT_EQUAL_OR_SET.

(** ** Assertions about one key *)
Fixpoint agree_run (v : Universe.view) (o : option val) (ds : list (update * val)) : Prop :=
  match ds with
  | [] => True
  | (u, w) :: r => (u = ASSERT -> forall o', o = Some o' -> ~ ~ agrees v w o') /\
      forall y, execute_new_value (mkCmd v u sub_all w None VNone None) (or_none o) = Ok y -> agree_run v (Some y) r
  end.
Lemma agree_dull v : forall ds o, Forall (fun d => fst d <> ASSERT) ds -> agree_run v o ds.
Proof. induction ds as [|[u w] r IH]; intros o F; [exact I|]. inversion F; subst. cbn. split; [intros ->; exfalso; auto|]. intros y _. now apply IH. Qed.

Definition sound_after (cs cmds : list command) : Prop := forall i c, nth_error cmds i = Some c -> ~ contradicts (cs ++ firstn i cmds) c.
Lemma sound_cons cs c r : sound_after cs (c :: r) <-> ~ contradicts cs c /\ sound_after (cs ++ [c]) r.
Proof.
  split.
  - intro H. split; [specialize (H 0%nat c eq_refl); cbn [firstn] in H; now rewrite app_nil_r in H|]. intros i d N. specialize (H (S i) d N). cbn [firstn] in H. rewrite <- app_assoc. exact H.
  - intros [A B] [|i] d N; [injection N as <-; cbn [firstn]; now rewrite app_nil_r|]. specialize (B i d N). rewrite <- app_assoc in B. exact B.
Qed.
Lemma sound_app : forall a cs b, sound_after cs (a ++ b) <-> sound_after cs a /\ sound_after (cs ++ a) b.
Proof.
  induction a as [|c a IH]; intros cs b; cbn [app].
  - rewrite app_nil_r. split; [intro H; split; [intros [|i] c N; discriminate N|exact H]|tauto].
  - rewrite !sound_cons, IH, <- app_assoc. cbn [app]. tauto.
Qed.
Definition step_agrees (s : istate) (c : command) : Prop :=
  c_update c = ASSERT -> forall o, iget s (c_sub c, c_prop c) = Some o -> ~ ~ agrees (c_prop c) (c_value c) o.
Lemma step_sound s cs c : mirrors s cs -> well_addressed c -> (~ contradicts cs c <-> step_agrees s c).
Proof.
  intros M W. destruct (well_addressed_at c W) as [p [A K]]. pose proof (M p (addressed_real _ _ A)) as H. rewrite K in H. split.
  - intros N U o E G. apply N. split; [exact U|]. rewrite E in H. eauto.
  - intros G [U [q [o [Aq [Hq Ng]]]]]. rewrite (addressed_det _ _ _ Aq A) in Hq. pose proof (holds_det _ _ _ _ Hq H) as E. exact (G U o (eq_sym E) Ng).
Qed.
Lemma sound_deeds : forall cmds s cs s', states_ok s cmds s' -> mirrors s cs -> Forall ok_cmd cmds -> Forall well_addressed cmds ->
  (sound_after cs cmds <-> forall k, agree_run (snd k) (iget s k) (deeds k cmds)).
Proof.
  induction cmds as [|c r IH]; intros s cs s' S0 M O W.
  { split; [intros _ k; exact I|intros _ [|i] d N; discriminate N]. }
  inversion S0 as [|? ? ? s1 ? I0 S1]; subst. inversion O as [|? ? Oc Or]; subst. inversion W as [|? ? Wc Wr]; subst.
  pose proof (interpret_mirrors' _ _ _ _ _ M Oc I0) as M1. rewrite sound_cons, (IH s1 (cs ++ [c]) s' S1 M1 Or Wr), (step_sound s cs c M Wc).
  unfold interpret in I0. destruct (execute_new_value c (or_none (iget s (c_sub c, c_prop c)))) as [y|] eqn:X; [|discriminate]. cbn [bindr] in I0. apply Ok_inj in I0.
  assert (Q : s1 = iput s (c_sub c, c_prop c) y) by congruence. clear I0. subst s1.
  assert (Self : sub_eqb (c_sub c) (c_sub c) && view_eqb (c_prop c) (c_prop c) = true) by (apply (ikey_eqb_iff (c_sub c, c_prop c) (c_sub c, c_prop c)); reflexivity).
  assert (Key : forall k, deeds k (c :: r) = if sub_eqb (c_sub c) (fst k) && view_eqb (c_prop c) (snd k) then (c_update c, c_value c) :: deeds k r else deeds k r).
  { intro k. unfold deeds. cbn [filter]. unfold about at 1. destruct (sub_eqb (c_sub c) (fst k) && view_eqb (c_prop c) (snd k)); reflexivity. }
  assert (X' : execute_new_value (mkCmd (c_prop c) (c_update c) sub_all (c_value c) None VNone None) (or_none (iget s (c_sub c, c_prop c))) = Ok y).
  { rewrite <- X. unfold execute_new_value. reflexivity. }
  split.
  - intros [A B] k. rewrite Key. specialize (B k). rewrite iget_iput in B. cbn [fst snd] in B. destruct (sub_eqb (c_sub c) (fst k) && view_eqb (c_prop c) (snd k)) eqn:E; [|exact B].
    assert (K : (c_sub c, c_prop c) = k) by (apply ikey_eqb_iff; exact E). subst k. cbn [snd agree_run]. split; [exact A|]. intros z Z0. rewrite X' in Z0. apply Ok_inj in Z0. subst z. exact B.
  - intro H. split.
    + specialize (H (c_sub c, c_prop c)). rewrite Key in H. cbn [fst snd] in H. rewrite Self in H. cbn [agree_run] in H. exact (proj1 H).
    + intro k. rewrite iget_iput. cbn [fst snd]. specialize (H k). rewrite Key in H. destruct (sub_eqb (c_sub c) (fst k) && view_eqb (c_prop c) (snd k)) eqn:E; [|exact H].
      assert (K : (c_sub c, c_prop c) = k) by (apply ikey_eqb_iff; exact E). subst k. cbn [snd agree_run] in H. exact (proj2 H y X').
Qed.

(** ** The commands of an event *)
Lemma with_states_same k : forall cmds s s' cmds', with_states s cmds = Ok (s', cmds') -> deeds k cmds' = deeds k cmds.
Proof.
  induction cmds as [|c r IH]; intros s s' cmds' E; cbn [with_states] in E.
  - apply Ok_inj in E. injection E as _ ->. reflexivity.
  - peelb E. destruct v as [s1 w], v0 as [s2 r']. cbn [fst snd] in *. apply Ok_inj in E. assert (Q : cmds' = set_state c w :: r') by congruence. subst cmds'.
    rewrite (deeds_cons k c r), (deeds_cons k _ r'), (IH _ _ _ E1). f_equal. unfold deeds. cbn [filter].
    change (about k (set_state c w)) with (about k c). destruct (about k c); reflexivity.
Qed.
Section Handlers.
Context (unquote : text -> text) (so : list Z -> list Z).
Local Notation tr := (tenhou_command unquote so).
Local Notation handle := (CommandProofs.handle unquote so).
Lemma call_deeds strict e i x cmds x' : call tr strict e i x = Ok (cmds, x') -> exists raw x1, handle e x = Ok (raw, x1) /\ forall k, deeds k cmds = deeds k raw.
Proof.
  rewrite call_eq. intro H. peelb H. destruct v as [raw x1]. exists raw, x1. split; [reflexivity|]. unfold finish in H. cbn [fst snd] in H. destruct raw as [|c0 l0].
  - destruct strict; [discriminate|]. apply Ok_inj in H. injection H as -> ->. reflexivity.
  - unfold postprocess in H. peelb H. destruct v as [s' cs]. cbn [fst snd] in H. apply Ok_inj in H. injection H as -> ->. intro k.
    rewrite <- (with_states_same k _ _ _ _ E0). clear. unfold deeds. induction cs as [|c r IH]; [reflexivity|]. cbn [map filter].
    change (about k (set_time c (Some i))) with (about k c). destruct (about k c); cbn [map]; [f_equal|]; exact IH.
Qed.

(** Which commands of an event assert something. *)
Definition dull (l : list command) : Prop := Forall (fun c => c_update c <> ASSERT) l.
Definition may_assert (e : event) (x : ctx) (k : sub * Universe.view) : Prop :=
  (snd k = PV_score /\ (tag e = t_ "INIT" \/ ends_deal e) /\ exists n p, ctx_player_count x = Ok n /\ 0 <= p < n /\ fst k = SId p) \/
  (snd k = PV_name /\ tag e = t_ "UN" /\ exists p, seat p /\ fst k = SId p) \/
  (snd k = PV_hand /\ tag e = t_ "AGARI" /\ exists s w, attr e (t_ "who") = Ok s /\ py_int s = Ok w /\ fst k = SId w).
Definition careful (e : event) (x : ctx) (l : list command) : Prop := Forall (fun c => c_update c = ASSERT -> may_assert e x (c_sub c, c_prop c)) l.
Lemma dull_careful e x l : dull l -> careful e x l.
Proof. intro H. eapply Forall_impl; [|exact H]. intros c N E. contradiction. Qed.
Lemma typed_careful t (h : handler) e x raw x' : (forall r, h e x = Ok r -> careful e x (fst r)) -> default_event_type t h e x = Ok (raw, x') -> careful e x raw.
Proof.
  intros G H. unfold default_event_type in H. peelb H. apply Ok_inj in H. injection H as -> ->. pose proof (G _ eq_refl) as A.
  apply Forall_map. eapply Forall_impl; [|exact A]. intros c K. unfold with_event. destruct (c_event c); exact K.
Qed.
Ltac dull_list := repeat (apply Forall_app; split); try (repeat (apply Forall_cons; [discriminate|]); apply Forall_nil).
Lemma hand_dull u p l x r : u <> ASSERT -> hand_update u p l x = Ok r -> dull (fst r).
Proof.
  intros N H. unfold hand_update in H. peelb H. apply Ok_inj in H. subst r. cbn [fst]. apply Forall_app. split; [destruct u; repeat constructor; discriminate|].
  constructor; [exact N|constructor].
Qed.
Lemma mapM_forall {A B} (P : B -> Prop) (f : A -> res B) : forall l ls, mapM f l = Ok ls -> (forall a b, In a l -> f a = Ok b -> P b) -> Forall P ls.
Proof.
  induction l as [|a l IH]; intros ls H K; cbn [mapM] in H; [apply Ok_inj in H; subst; constructor|]. peelb H. apply Ok_inj in H. subst ls.
  constructor; [exact (K a _ (or_introl eq_refl) E)|]. apply IH; [reflexivity|]. intros b c I0. apply K. now right.
Qed.
Lemma careful_concat e x ls : Forall (careful e x) ls -> careful e x (concat ls).
Proof. induction 1; cbn [concat]; [constructor|]. apply Forall_app. auto. Qed.
Lemma draw_careful e x raw x' : draw_command e x = Ok (raw, x') -> careful e x raw.
Proof.
  apply typed_careful. intros r H. apply dull_careful. destruct (tile_change DRAW_INDICATOR e) as [[p t]|]; [eapply hand_dull; [|exact H]; discriminate|]. apply Ok_inj in H. subst r. constructor.
Qed.
Lemma discard_careful e x raw x' : discard_command e x = Ok (raw, x') -> careful e x raw.
Proof.
  apply typed_careful. intros r H. apply dull_careful. destruct (tile_change DISCARD_INDICATOR e) as [[p t]|]; [|apply Ok_inj in H; subst r; constructor].
  peelb H. apply Ok_inj in H. subst r. cbn [fst]. apply hand_dull in E1; [|discriminate]. dull_list. exact E1.
Qed.
Lemma init_players_careful e x n : (tag e = t_ "INIT") -> ctx_player_count x = Ok n -> forall ps y r, (forall p, In p ps -> 0 <= p < n) -> init_players e ps y = Ok r -> careful e x (fst r).
Proof.
  intros T N. induction ps as [|p ps IH]; intros y r P H; cbn [init_players] in H; [apply Ok_inj in H; subst r; constructor|].
  peelb H. apply Ok_inj in H. subst r. cbn [fst]. apply Forall_app. split; [|eapply IH; [|exact E0]; intros q I0; apply P; now right].
  unfold init_player in E. peelb E. apply Ok_inj in E. subst v. cbn [fst].
  match goal with K : hand_update _ _ _ _ = Ok _ |- _ => apply hand_dull in K; [|discriminate]; rename K into HD end.
  apply Forall_app. split; [apply dull_careful; dull_list|]. apply Forall_app. split; [apply dull_careful; exact HD|]. constructor; [|constructor].
  intros _. left. split; [reflexivity|]. split; [left; exact T|]. exists n, p. split; [exact N|]. split; [apply P; now left|reflexivity].
Qed.
Lemma oya_dull x i l : set_oya_command_yield x i = Ok l -> dull l.
Proof. unfold set_oya_command_yield. intro H. peelb H. apply Ok_inj in H. subst l. apply Forall_map, Forall_forall. intros p _. discriminate. Qed.
Lemma init_careful e x raw x' : tag e = t_ "INIT" -> game_init_command e x = Ok (raw, x') -> careful e x raw.
Proof.
  intro T. apply typed_careful. intros r H. peelb H.
  match type of H with (match ?l with _ => _ end) = _ => destruct l as [|prevailing [|game_index [|]]]; try discriminate H end. peelb H. apply Ok_inj in H. subst r.
  match goal with K : init_players _ (zrange 0 ?n) _ = Ok _, C : ctx_player_count x = Ok ?n |- _ => pose proof (init_players_careful e x n T C _ _ _ (fun p I0 => proj1 (in_zrange 0 n p) I0) K) as A end.
  match goal with K : set_oya_command_yield _ _ = Ok _ |- _ => apply oya_dull in K; rename K into B end.
  cbn [fst]. apply Forall_app. split; [apply dull_careful; dull_list|]. apply Forall_app. split; [apply dull_careful; exact B|]. apply Forall_app. split; [apply dull_careful; dull_list|exact A].
Qed.
Lemma finish_careful e x f w sc y l : ends_deal e -> game_finish x f w sc y e = Ok l -> careful e x l.
Proof.
  intros T H. unfold game_finish in H. peelb H. apply Ok_inj in H. subst l. apply Forall_app. split.
  - apply careful_concat. eapply mapM_forall; [eassumption|]. intros p r I0 F. apply in_zrange in I0. unfold finish_player in F. peelb F. cbv zeta in F. apply Ok_inj in F. subst r.
    apply Forall_app. split; [|apply dull_careful; dull_list]. destruct sc as [nl|]; [|match goal with K : Ok [] = Ok _ |- _ => apply Ok_inj in K; subst; constructor end].
    match goal with K : (do a <- py_nth (every_other nl) p; _) = Ok _ |- _ => peelb K; apply Ok_inj in K; subst end.
    constructor; [|constructor; [discriminate|constructor]]. intros _. left. split; [reflexivity|]. split; [right; exact T|]. eexists. exists p. split; [eassumption|]. split; [exact I0|reflexivity].
  - apply dull_careful. match goal with K : finals_commands e _ = Ok _ |- _ => rename K into F end. unfold finals_commands in F. destruct (lookup (t_ "owari") (attrib e)); [|apply Ok_inj in F; subst; constructor].
    peelb F. cbv zeta in F. peelb F. apply Ok_inj in F. subst. match goal with K : mapM _ _ = Ok ?ls |- dull (concat ?ls) => assert (G : Forall dull ls); [eapply mapM_forall; [exact K|]|] end.
    + intros p r _ R. cbn beta in R. peelb R. apply Ok_inj in R. subst r. dull_list.
    + clear -G. induction G; cbn [concat]; [constructor|]. apply Forall_app. auto.
Qed.
Lemma agari_careful e x raw x' : tag e = t_ "AGARI" -> agari_command e x = Ok (raw, x') -> careful e x raw.
Proof.
  intro T. apply typed_careful. intros r H. peelb H. apply Ok_inj in H. subst r. cbn [fst].
  match goal with K : game_finish _ _ _ _ _ _ = Ok _ |- _ => apply finish_careful in K; [|left; exact T]; rename K into A end.
  apply Forall_cons; [|apply Forall_cons; [discriminate|exact A]]. intros _. right. right. split; [reflexivity|]. split; [exact T|]. eexists. eexists. split; [eassumption|]. split; [eassumption|reflexivity].
Qed.
Lemma nowin_careful e x raw x' : tag e = t_ "RYUUKYOKU" -> no_win_command e x = Ok (raw, x') -> careful e x raw.
Proof.
  intro T. apply typed_careful. intros r H. peelb H. apply Ok_inj in H. subst r. cbn [fst].
  match goal with K : game_finish _ _ _ _ _ _ = Ok _ |- _ => apply finish_careful in K; [|right; exact T]; rename K into A end.
  apply Forall_cons; [discriminate|]. apply Forall_cons; [discriminate|exact A].
Qed.
Lemma un_careful e x raw x' : tag e = t_ "UN" -> set_player_command unquote e x = Ok (raw, x') -> careful e x raw.
Proof.
  intro T. apply typed_careful. intros r H. peelb H. cbv zeta in H. peelb H. apply Ok_inj in H. subst r. cbn [fst]. apply careful_concat. eapply mapM_forall; [eassumption|].
  intros p l I0 F. unfold set_player in F. destruct (lookup _ _) as [name|]; [|apply Ok_inj in F; subst; constructor]. destruct (not_blank name); [|apply Ok_inj in F; subst; constructor].
  peelb F. apply Ok_inj in F. subst l. constructor; [discriminate|]. constructor.
  - intros _. right. left. split; [reflexivity|]. split; [exact T|]. exists p. split; [unfold seat; cbn [In] in I0; lia|reflexivity].
  - apply dull_careful. apply Forall_app. split; [|destruct (has_attr e (t_ "rate")); dull_list].
    destruct (has_attr e (t_ "dan")); [|match goal with K : Ok [] = Ok _ |- _ => apply Ok_inj in K; subst; constructor end].
    match goal with K : (match ?n with _ => _ end) = Ok _ |- _ => destruct n; [|discriminate K]; peelb K; apply Ok_inj in K; subst; dull_list end.
Qed.
Lemma handle_careful e x raw x' : handle e x = Ok (raw, x') -> careful e x raw.
Proof.
  intro H. unfold CommandProofs.handle in H. destruct (hfind (handlers unquote so) (tag e)) as [h|] eqn:F.
  - apply hfind_in in F. cbn [handlers In] in F.
    repeat (destruct F as [F|F]; [injection F as T <-; symmetry in T|]); [..|destruct F].
    + eapply init_careful; eassumption.
    + revert H. apply typed_careful. intros r H. peelb H. apply Ok_inj in H. subst r. apply dull_careful. cbn [fst].
      match goal with K : hand_update _ _ _ _ = Ok _ |- _ => apply hand_dull in K; [|discriminate]; rename K into A end.
      constructor; [discriminate|]. constructor; [|exact A]. match goal with |- context [m_class ?m] => destruct (m_class m) end; discriminate.
    + revert H. apply typed_careful. intros r H. peelb H. cbv zeta in H. apply Ok_inj in H. subst r. apply dull_careful. cbn [fst]. dull_list.
    + revert H. apply typed_careful. intros r H. peelb H. apply Ok_inj in H. subst r. apply dull_careful. cbn [fst]. eapply oya_dull. eassumption.
    + eapply un_careful; eassumption.
    + revert H. apply typed_careful. intros r H. peelb H. apply Ok_inj in H. subst r. apply dull_careful. cbn [fst]. dull_list.
    + revert H. apply typed_careful. intros r H. peelb H. apply Ok_inj in H. subst r. apply dull_careful. cbn [fst].
      match goal with |- dull (if ?b then _ else if ?c then _ else _) => destruct b; [|destruct c] end; dull_list.
    + eapply agari_careful; eassumption.
    + revert H. apply typed_careful. intros r H. peelb H. apply Ok_inj in H. subst r. apply dull_careful. cbn [fst]. dull_list.
    + revert H. apply typed_careful. intros r H. peelb H. apply Ok_inj in H. subst r. apply dull_careful. cbn [fst]. dull_list.
    + eapply nowin_careful; eassumption.
  - unfold default_handle in H. peelb H. destruct v as [l1 y1]. pose proof (draw_careful _ _ _ _ E) as A. cbn [fst snd] in *.
    destruct l1 as [|c l1]; [|apply Ok_inj in H; injection H as -> ->; exact A].
    peelb H. apply Ok_inj in H. subst v. pose proof (handle_good unquote so) as _. apply discard_careful in E0.
    destruct (draw_good _ _ _ E) as [[Q _] _]. cbn [fst snd] in Q. eapply Forall_impl; [|exact E0]. intros c K U. specialize (K U). unfold may_assert, ctx_player_count in *. rewrite Q in K. exact K.
Qed.
(** A key without such commands. *)
Lemma unasserted e x raw x' k o : handle e x = Ok (raw, x') -> ~ may_assert e x k -> agree_run (snd k) o (deeds k raw).
Proof.
  intros H N. apply agree_dull. unfold deeds. apply Forall_map, Forall_forall. intros c I0. apply filter_In in I0. destruct I0 as [I0 A]. cbn [fst]. intro U. apply N.
  pose proof (handle_careful _ _ _ _ H) as C. unfold careful in C. rewrite Forall_forall in C. specialize (C c I0 U). unfold about in A.
  assert (K : (c_sub c, c_prop c) = k) by (apply ikey_eqb_iff; exact A). rewrite <- K. exact C.
Qed.
End Handlers.

(** ** What is known before an event *)
Section Logs.
Context (unquote : text -> text) (so : list Z -> list Z) (SO : forall l, Permutation (so l) l) (strict : bool) (n w : Z).
Local Notation tr := (tenhou_command unquote so).
Local Notation handle := (CommandProofs.handle unquote so).

Lemma score_known p : 0 <= p < n -> seat p -> forall es cmds x, Forall (complete n w) es -> Forall (whole_scores n) es ->
  call_all tr strict 0 es empty_ctx = Ok (cmds, x) -> (exists z, score_after p es z) \/ val_at x (SId p) PV_score = None.
Proof.
  intros P Ps. induction es as [|e es IH] using rev_ind; intros cmds x C Wh H.
  { right. cbn in H. apply Ok_inj in H. injection H as _ ->. reflexivity. }
  pose proof (seats n w p _ C P) as HS. apply Forall_app in C, Wh. destruct C as [C Ce], Wh as [Wh We]. inversion Ce as [|? ? Ke _]; subst. inversion We as [|? ? [W1 W2] _]; subst.
  destruct (run_snoc _ _ _ _ _ _ _ H) as (c1 & x1 & i & c2 & H1 & H2).
  assert (HS1 : has_seat p es) by (intros e' I0; apply HS; apply in_or_app; now left).
  pose proof (counted_all unquote so strict p Ps _ _ _ HS1 H1) as Co.
  destruct (call_inv unquote so _ _ _ _ _ _ H2) as [raw [x2 [Hh [_ [_ [_ D]]]]]]. specialize (D (SId p, PV_score)). cbn [snd] in D.
  specialize (IH _ _ C Wh H1). unfold val_at in *.
  assert (Keep : keeps_score p e -> deeds (SId p, PV_score) raw = [] -> (exists z, score_after p (es ++ [e]) z) \/ iget (x_vals x) (SId p, PV_score) = None).
  { intros K Q. rewrite Q in D. cbn [run_deeds] in D. destruct IH as [[z S0]|N0]; [left; exists z; now apply sa_same|right; congruence]. }
  destruct (text_dec (tag e) (t_ "INIT")) as [T|NI].
  { left. destruct (W1 T) as (l & Ln & Hl). destruct (nth_error l (Z.to_nat p)) as [s|] eqn:E; [|apply nth_error_None in E; lia]. eexists. eapply sa_deal; eassumption. }
  destruct (text_dec (tag e) (t_ "REACH")) as [T|NR].
  { destruct (reach_deeds _ _ _ _ _ _ p T Hh) as (wt & q & st & A1 & A2 & A3 & Ds).
    destruct Ke as (_ & _ & _ & _ & _ & Kr & _). destruct (Kr T) as (q' & _ & Hq & st' & Hst). rewrite (holds_attr _ _ _ Hq) in A1. apply Ok_inj in A1. subst wt. rewrite py_int_str in A2. apply Ok_inj in A2. subst q'.
    rewrite (holds_attr _ _ _ Hst) in A3. apply Ok_inj in A3. subst st'. destruct (text_eqb st (t_ "2") && (q =? p)) eqn:B.
    - apply andb_true_iff in B. destruct B as [B1 B2]. apply text_eqb_iff in B1. apply Z.eqb_eq in B2. subst st q. destruct IH as [[z S0]|N0].
      + left. exists (z - 1000). apply sa_stick; [exact S0|]. repeat split; assumption.
      + rewrite Ds, N0 in D. discriminate D.
    - apply Keep; [|exact Ds]. split; [exact NI|]. split; [intros [K|K]; rewrite T in K; discriminate K|]. intros _. apply andb_false_iff in B. destruct B as [B|B].
      + right. exists st. split; [exact Hst|]. intros ->. rewrite text_eqb_refl in B. discriminate B.
      + left. exists q. split; [exact Hq|]. now apply Z.eqb_neq. }
  assert (Dec : ends_deal e \/ ~ ends_deal e).
  { destruct (text_dec (tag e) (t_ "AGARI")) as [T|N1]; [left; now left|]. destruct (text_dec (tag e) (t_ "RYUUKYOKU")) as [T|N2]; [left; now right|]. right. intros [K|K]; contradiction. }
  destruct Dec as [T|NE].
  { pose proof (ends_score _ _ _ _ _ _ p T Hh Co (proj1 P)) as G. destruct (lookup (t_ "sc") (attrib e)) as [s|] eqn:L.
    - left. destruct (W2 T s L) as (l & Ln & ->). destruct (nth_error l (2 * Z.to_nat p)) as [a|] eqn:E1; [|apply nth_error_None in E1; lia].
      destruct (nth_error l (2 * Z.to_nat p + 1)) as [b|] eqn:E2; [|apply nth_error_None in E2; lia]. eexists. eapply sa_end; eassumption.
    - apply Keep; [|exact G]. split; [exact NI|]. split; [intros _ s; unfold holds; rewrite L; discriminate|]. intro K. contradiction. }
  apply Keep.
  - split; [exact NI|]. split; [intro K; contradiction|intro K; contradiction].
  - apply (untouched _ _ _ _ _ _ _ _ Hh). apply score_view; try assumption; intro K; apply NE; [now left|now right].
Qed.
Lemma name_known p : seat p -> forall es cmds x, call_all tr strict 0 es empty_ctx = Ok (cmds, x) ->
  ((forall e, In e es -> ~ announced p e) /\ val_at x (SId p) PV_name = None) \/
  exists e s, last_such (announced p) e es /\ announces p s e /\ val_at x (SId p) PV_name = Some (VStr (unquote s)).
Proof.
  intros P. induction es as [|e es IH] using rev_ind; intros cmds x H.
  { left. split; [intros e []|]. cbn in H. apply Ok_inj in H. injection H as _ ->. reflexivity. }
  destruct (run_snoc _ _ _ _ _ _ _ H) as (c1 & x1 & i & c2 & H1 & H2). specialize (IH _ _ H1). destruct (announced_dec p e) as [[s A]|N].
  - right. exists e, s. split; [exists es, []; split; [reflexivity|]; split; [exists s; exact A|constructor]|]. split; [exact A|].
    eapply set_after; [exact H2|]. intros raw x3 Hh. exists ASSERT. split; [|now right]. exact (proj1 (proj2 (un_deeds _ _ _ _ _ _ _ (proj1 A) P Hh) s A)).
  - rewrite (keeps_un unquote so strict e p PV_name P (or_introl eq_refl) N _ _ _ _ H2). destruct IH as [[A B]|(e' & s & L & A & B)].
    + left. split; [|exact B]. intros f I0. apply in_app_iff in I0. destruct I0 as [I0|[<-|[]]]; auto.
    + right. exists e', s. split; [|split; [exact A|exact B]]. destruct L as (b & c & -> & Pe & F). exists b, (c ++ [e]). split; [rewrite <- app_assoc; reflexivity|].
      split; [exact Pe|]. apply Forall_app. split; [exact F|]. constructor; [exact N|constructor].
Qed.
Lemma hand_known p acts es cmds x : 0 <= p < n -> proper n w acts es -> call_all tr strict 0 es empty_ctx = Ok (cmds, x) -> in_step p acts x.
Proof.
  intros P (N & Lg & F & At & _ & Fa) R. assert (Ps : seat p) by (unfold seat; lia). pose proof (seats n w p es F P) as HS. specialize (Fa p P).
  revert R. apply (log_ind unquote so strict (in_step p)); [|exact Lg|].
  - constructor; [intros v Q; discriminate|]. exists []. split; [constructor|]. split; [constructor|]. split; [|left; repeat split; constructor].
    intro t. split; [intros []|]. intros [[b [a [c [E _]]]]|[[] _]]. destruct b; discriminate.
  - intros acts' a es' e more Ea Ee Ef L W i x0 x' cs T Hc. eapply hand_step_in; try eassumption.
    + intro Gt. apply HS; [eapply nth_error_In; exact Ee|exact Gt].
    + intros d ->. rewrite Ea in At. apply Forall_app in At. destruct At as [_ At]. inversion At as [|? ? At1 _]; subst. destruct At1 as [_ At1]. apply At1. exact P.
    + exact (Fa acts' a more e Ea Ee).
Qed.
Lemma agari_hand e x raw x' p : tag e = t_ "AGARI" -> holds e (t_ "who") (str_int p) -> handle e x = Ok (raw, x') ->
  exists expected, deeds (SId p, PV_hand) raw = [(ASSERT, texts expected)].
Proof.
  intros T Hw H. unfold CommandProofs.handle in H. replace (hfind (handlers unquote so) (tag e)) with (Some agari_command) in H by (rewrite T; reflexivity).
  unfold agari_command, default_event_type in H. destruct (logged_win e) as [[]|]; [|discriminate H]. cbn [bindr] in H. rewrite (holds_attr _ _ _ Hw) in H. cbn [bindr] in H. rewrite py_int_str in H. cbn [bindr] in H. peelb H. apply Ok_inj in H. injection H as -> ->. peelb E.
  match type of E with Ok _ = Ok ?v => apply Ok_inj in E; subst v end. cbn [fst].
  match goal with K : game_finish _ _ _ _ _ _ = Ok _ |- _ => apply (finish_props unquote so) in K; rename K into FP end. match type of FP with props_in _ ?r => rename r into rest end.
  eexists. rewrite typed_deeds, deeds_app. assert (FD : deeds (SId p, PV_hand) rest = []).
  { apply deeds_none. eapply Forall_impl; [|exact FP]. intros c I0 Q. cbn [snd] in Q. cbn beta in I0. rewrite Q in I0. cbn in I0. intuition discriminate. }
  rewrite FD, app_nil_r. unfold deeds, about. cbn [filter cmd c_sub c_prop fst snd sub_eqb]. rewrite Z.eqb_refl. reflexivity.
Qed.

(** ** Comparing values *)
Lemma num_agrees v a b : ~ is_tiles v -> (~ ~ agrees v (VNum (NInt a)) (VInt b) <-> a = b).
Proof.
  intro NT. assert (Q : agrees v (VNum (NInt a)) (VInt b) <-> a = b).
  { unfold agrees. change (val_eqb (VNum (NInt a)) (VInt b)) with (num_eqb (NInt a) (NInt b)). split; [intros [_ K]; specialize (K NT)|intro K; split; [contradiction|intros _; subst b]].
    - unfold num_eqb in K. apply Z.eqb_eq in K. change (p10 (num_k (NInt b))) with 1 in K. change (p10 (num_k (NInt a))) with 1 in K. change (num_m (NInt a)) with a in K. change (num_m (NInt b)) with b in K. lia.
    - apply Z.eqb_refl. }
  rewrite Q. lia.
Qed.
Lemma text_agrees v a b : ~ is_tiles v -> (~ ~ agrees v (VStr a) (VStr b) <-> a = b).
Proof.
  intro NT. assert (Q : agrees v (VStr a) (VStr b) <-> a = b).
  { unfold agrees. change (val_eqb (VStr a) (VStr b)) with (text_eqb a b). rewrite text_eqb_iff. tauto. }
  rewrite Q. destruct (text_dec a b); tauto.
Qed.
Lemma printed_agree l m H : Permutation l (map printed H) -> Permutation m (map printed H) -> agrees PV_hand (VList l) (VList m).
Proof.
  intros A B. assert (Cn : forall k, Permutation k (map printed H) -> countable (VList k) k).
  { intros k K. right. split; [constructor|]. apply Forall_forall. intros v I0. apply (Permutation_in _ K) in I0. apply in_map_iff in I0. destruct I0 as [t [<- _]]. discriminate. }
  split; [|intro N; exfalso; apply N; cbn; tauto]. intros _. exists l, m. split; [exact (Cn l A)|]. split; [exact (Cn m B)|].
  exists l. split; [etransitivity; [exact B|apply Permutation_sym; exact A]|].
  assert (F : Forall (fun v => exists s, v = VStr s) l). { apply Forall_forall. intros v I0. apply (Permutation_in _ A) in I0. apply in_map_iff in I0. destruct I0 as [t [<- _]]. eexists. apply printed_ptext. }
  clear -F. induction F as [|v l [s ->] F IH]; constructor; [|exact IH]. cbn. apply text_eqb_refl.
Qed.

(** ** One event *)
Definition same_names (es : list event) : Prop :=
  forall p s1 e1 s2 e2, seat p -> In e1 es -> announces p s1 e1 -> In e2 es -> announces p s2 e2 -> unquote s1 = unquote s2.
Lemma announces_det p s1 s2 e : announces p s1 e -> announces p s2 e -> s1 = s2.
Proof. intros (_ & A & _) (_ & B & _). unfold holds in *. congruence. Qed.
Lemma deal_asserts p e x raw x' l s : 0 <= p -> tag e = t_ "INIT" -> handle e x = Ok (raw, x') -> counted_in p x -> holds e (t_ "ten") (comma_list l) -> nth_error l (Z.to_nat p) = Some s ->
  deeds (SId p, PV_score) raw = [(ASSERT, VNum (NInt (s * 100)))].
Proof.
  intros P0 T Hh C Hl Hn. destruct (handle_deal _ _ _ _ _ _ T Hh) as (n' & seed & oya & dd & dora & N & _ & _ & _ & _ & Pl & _).
  destruct (Pl p) as (hand & score & Dl & De); [pose proof (counted_count _ _ _ C N); lia|].
  rewrite De by discriminate. destruct Dl as (ten & scs & ht & rw & sc & A1 & A2 & _ & _ & _ & A6 & ->).
  rewrite (holds_attr _ _ _ Hl) in A1. apply Ok_inj in A1. subst ten. rewrite number_list_comma in A2 by (intros ->; destruct (Z.to_nat p); discriminate).
  apply Ok_inj in A2. subst scs. rewrite (seat_nth _ _ (NInt s) P0) in A6 by (rewrite nth_error_map, Hn; reflexivity). apply Ok_inj in A6. subst sc. reflexivity.
Qed.
Lemma end_asserts p e x raw x' l s : 0 <= p -> ends_deal e -> handle e x = Ok (raw, x') -> counted_in p x -> holds e (t_ "sc") (comma_list l) -> nth_error l (2 * Z.to_nat p) = Some s ->
  exists d, deeds (SId p, PV_score) raw = [(ASSERT, VNum (NInt (s * 100))); (U_ADD, d)].
Proof.
  intros P0 T Hh C Hl Hs. pose proof (ends_score _ _ _ _ _ _ p T Hh C P0) as G. unfold holds in Hl. rewrite Hl in G. destruct G as [nl [L1 [a [b [A [B Ds]]]]]].
  rewrite number_list_comma in L1 by (intros ->; destruct (Z.to_nat p); discriminate). apply Ok_inj in L1. subst nl.
  apply py_nth_some in A; try exact P0. rewrite every_other_nth, nth_error_map, Hs in A. cbn [option_map] in A. injection A as <-. rewrite Ds. eexists. reflexivity.
Qed.
Lemma event_agrees acts a es e cmds x i cmds2 x' : proper n w (acts ++ [a]) (es ++ [e]) -> length acts = length es -> Forall (whole_scores n) (es ++ [e]) -> by_players n e ->
  same_names es -> call_all tr strict 0 es empty_ctx = Ok (cmds, x) -> call tr strict e i x = Ok (cmds2, x') ->
  (forall p, 0 <= p < n -> in_step p (acts ++ [a]) x') ->
  ((forall k, agree_run (snd k) (iget (x_vals x) k) (deeds k cmds2)) <-> repeats unquote n es e).
Proof.
  intros Pr Len Wh By Sn R Hc Next. destruct (proper_snoc _ _ _ _ _ _ Pr Len) as (Pr1 & La & Wa & Ce & Aa & Fe & O1 & O2). pose proof Pr1 as (N & Lg & C & A & O & Fa).
  apply Forall_app in Wh. destruct Wh as [Wh We]. inversion We as [|? ? [W1 W2] _]; subst.
  destruct (call_deeds unquote so _ _ _ _ _ _ Hc) as (raw & y & Hh & De).
  assert (Q0 : (forall k, agree_run (snd k) (iget (x_vals x) k) (deeds k cmds2)) <-> forall k, agree_run (snd k) (iget (x_vals x) k) (deeds k raw)).
  { split; intros H k; specialize (H k); [rewrite <- De|rewrite De]; exact H. }
  rewrite Q0. clear Q0.
  assert (Cnt : forall p, 0 <= p < n -> counted_in p x).
  { intros p P. eapply (counted_all unquote so strict p); [unfold seat; lia|exact (seats n w p _ C P)|exact R]. }
  assert (Cn : In (tag e) [t_ "INIT"; t_ "AGARI"; t_ "RYUUKYOKU"] -> ctx_player_count x = Ok n).
  { intro K. apply (to_count _ _ _ _ (told_run unquote so strict n w es cmds x C R)). apply O1. cbn [In] in *. tauto. }
  assert (Sc : forall p z, 0 <= p < n -> score_after p es z -> iget (x_vals x) (SId p, PV_score) = Some (VInt z)).
  { intros p z P S0. eapply (score_invariant unquote so strict p es z); [unfold seat; lia|exact S0|exact (seats n w p _ C P)|exact R]. }
  split.
  - intro H. split; [|split].
    + intros p l s z P T Hl Hs S0. specialize (H (SId p, PV_score)). rewrite (deal_asserts _ _ _ _ _ _ _ (proj1 P) T Hh (Cnt p P) Hl Hs), (Sc p z P S0) in H.
      cbn [snd agree_run] in H. destruct H as [H _]. specialize (H eq_refl _ eq_refl). apply num_agrees in H; [lia|cbn; intuition discriminate].
    + intros p l s z P T Hl Hs S0. specialize (H (SId p, PV_score)). destruct (end_asserts _ _ _ _ _ _ _ (proj1 P) T Hh (Cnt p P) Hl Hs) as [d D]. rewrite D, (Sc p z P S0) in H.
      cbn [snd agree_run] in H. destruct H as [H _]. specialize (H eq_refl _ eq_refl). apply num_agrees in H; [lia|cbn; intuition discriminate].
    + intros p name e' name' P An I0 An'. specialize (H (SId p, PV_name)). rewrite (proj1 (proj2 (un_deeds _ _ _ _ _ _ _ (proj1 An) P Hh) name An)) in H. cbn [snd agree_run] in H. destruct H as [H _].
      destruct (name_known p P _ _ _ R) as [[K _]|(e2 & s2 & (b & c & E & _) & A2 & V)]; [exfalso; apply (K e' I0); exists name'; exact An'|].
      specialize (H eq_refl _ V). apply text_agrees in H; [|cbn; intuition discriminate]. rewrite H. eapply (Sn p s2 e2 name' e'); try eassumption. rewrite E. apply in_or_app. right. now left.
  - intros (R1 & R2 & R3) [s v].
    assert (No : ~ may_assert e x (s, v) -> agree_run v (iget (x_vals x) (s, v)) (deeds (s, v) raw)) by (intro K; exact (unasserted unquote so _ _ _ _ (s, v) _ Hh K)).
    cbn [snd].
    assert (Dv : v = PV_score \/ v = PV_name \/ v = PV_hand \/ (v <> PV_score /\ v <> PV_name /\ v <> PV_hand)) by (destruct v; try tauto; right; right; right; repeat split; discriminate).
    destruct Dv as [->|[->|[->|(V1 & V2 & V3)]]].
    + (* score *)
      assert (Dt : (tag e = t_ "INIT" \/ ends_deal e) \/ ~ (tag e = t_ "INIT" \/ ends_deal e)).
      { unfold ends_deal. destruct (text_dec (tag e) (t_ "INIT")), (text_dec (tag e) (t_ "AGARI")), (text_dec (tag e) (t_ "RYUUKYOKU")); tauto. }
      destruct Dt as [T|NT]; [|apply No; intros [(_ & K & _)|[(K & _)|(K & _)]]; [contradiction|discriminate K|discriminate K]].
      assert (Cx : ctx_player_count x = Ok n) by (apply Cn; unfold ends_deal in T; cbn [In]; intuition congruence).
      assert (Ds : (exists p, 0 <= p < n /\ s = SId p) \/ ~ exists p, 0 <= p < n /\ s = SId p).
      { destruct s as [st0|p]; try (right; intros (q & _ & K); discriminate K). destruct (Z_le_dec 0 p), (Z_lt_dec p n); [left; exists p; split; [lia|reflexivity]|..]; right; intros (q & Q & K); injection K as <-; lia. }
      destruct Ds as [(p & P & ->)|Ns]; [|apply No; intros [(_ & _ & n' & p & K & P & Q)|[(K & _)|(K & _)]]; [|discriminate K|discriminate K]].
      2:{ apply Ns. exists p. rewrite Cx in K. apply Ok_inj in K. subst n'. split; [exact P|exact Q]. }
      assert (Kn : (exists z, score_after p es z) \/ iget (x_vals x) (SId p, PV_score) = None) by (eapply (score_known p P); [unfold seat; lia|exact C|exact Wh|exact R]).
      destruct T as [T|T].
      * destruct (W1 T) as (l & Ln & Hl). destruct (nth_error l (Z.to_nat p)) as [t|] eqn:E; [|apply nth_error_None in E; lia].
        rewrite (deal_asserts _ _ _ _ _ _ _ (proj1 P) T Hh (Cnt p P) Hl E). cbn [agree_run]. split; [|intros; exact I].
        intros _ o Ho. destruct Kn as [[z S0]|K]; [|congruence]. rewrite (Sc p z P S0) in Ho. injection Ho as <-. apply num_agrees; [cbn; intuition discriminate|].
        rewrite (R1 p l t z P T Hl E S0). lia.
      * destruct (lookup (t_ "sc") (attrib e)) as [st|] eqn:L.
        -- destruct (W2 T st L) as (l & Ln & ->). destruct (nth_error l (2 * Z.to_nat p)) as [t|] eqn:E; [|apply nth_error_None in E; lia].
           destruct (end_asserts _ _ _ _ _ _ _ (proj1 P) T Hh (Cnt p P) L E) as [d D]. rewrite D. cbn [agree_run]. split.
           ++ intros _ o Ho. destruct Kn as [[z S0]|K]; [|congruence]. rewrite (Sc p z P S0) in Ho. injection Ho as <-. apply num_agrees; [cbn; intuition discriminate|].
              rewrite (R2 p l t z P T L E S0). lia.
           ++ intros y1 _. split; [discriminate|]. intros; exact I.
        -- pose proof (ends_score _ _ _ _ _ _ p T Hh (Cnt p P) (proj1 P)) as G. rewrite L in G. rewrite G. exact I.
    + (* name *)
      destruct (text_dec (tag e) (t_ "UN")) as [T|NT]; [|apply No; intros [(K & _)|[(_ & K & _)|(K & _)]]; [discriminate K|contradiction|discriminate K]].
      assert (Ds : (exists p, seat p /\ s = SId p) \/ ~ exists p, seat p /\ s = SId p).
      { unfold seat. destruct s as [st0|p]; try (right; intros (q & _ & K); discriminate K). destruct (Z_le_dec 0 p), (Z_lt_dec p 4); [left; exists p; split; [lia|reflexivity]|..]; right; intros (q & Q & K); injection K as <-; lia. }
      destruct Ds as [(p & P & ->)|Ns]; [|apply No; intros [(K & _)|[(_ & _ & p & P & Q)|(K & _)]]; [discriminate K| |discriminate K]].
      2:{ apply Ns. exists p. split; [exact P|exact Q]. }
      destruct (un_deeds _ _ _ _ _ _ _ T P Hh) as [U1 U2]. destruct (announced_dec p e) as [[name An]|Na]; [|rewrite (U1 Na); exact I].
      rewrite (proj1 (U2 name An)). cbn [agree_run]. split; [|intros; exact I]. intros _ o Ho.
      destruct (name_known p P _ _ _ R) as [[_ K]|(e2 & s2 & (b & c & E & _) & A2 & V)]; unfold val_at in *; [congruence|]. rewrite V in Ho. injection Ho as <-.
      apply text_agrees; [cbn; intuition discriminate|]. eapply (R3 p name e2 s2); try eassumption. rewrite E. apply in_or_app. right. now left.
    + (* hand *)
      destruct (text_dec (tag e) (t_ "AGARI")) as [T|NT]; [|apply No; intros [(K & _)|[(K & _)|(_ & K & _)]]; [discriminate K|discriminate K|contradiction]].
      destruct By as (p & P & Hw); [rewrite T; cbn [In]; tauto|].
      assert (Ds : s = SId p \/ s <> SId p) by (destruct s as [st0|q]; try (right; discriminate); destruct (Z.eq_dec q p); [left; congruence|right; congruence]).
      destruct Ds as [->|Ns]; [|apply No; intros [(K & _)|[(K & _)|(_ & _ & ws & q & K1 & K2 & K3)]]; [discriminate K|discriminate K|]].
      2:{ apply Ns. rewrite (holds_attr _ _ _ Hw) in K1. apply Ok_inj in K1. subst ws. rewrite py_int_str in K2. apply Ok_inj in K2. subst q. exact K3. }
      destruct (agari_hand _ _ _ _ _ T Hw Hh) as [ex D]. rewrite D. cbn [agree_run]. split; [|intros; exact I]. intros _ o Ho.
      destruct (call_inv unquote so _ _ _ _ _ _ Hc) as (raw' & y' & Hh' & _ & _ & _ & Dr). rewrite Hh in Hh'. apply Ok_inj in Hh'. injection Hh' as <- _.
      specialize (Dr (SId p, PV_hand)). cbn [snd] in Dr. rewrite D in Dr.
      assert (Q : iget (x_vals x') (SId p, PV_hand) = Some (texts ex)) by (apply Ok_inj in Dr; exact Dr). clear Dr.
      destruct (hand_known p acts es cmds x P Pr1 R) as [_ (H1 & Nd1 & _ & In1 & [(K & _)|(l1 & K1 & Pm1)])]; [unfold val_at in K; congruence|].
      destruct (Next p P) as [_ (H2 & Nd2 & _ & In2 & [(K & _)|(l2 & K2 & Pm2)])]; [unfold val_at in K; congruence|].
      unfold val_at in K1, K2. rewrite K1 in Ho. injection Ho as <-. rewrite Q in K2. unfold texts in *. injection K2 as <-.
      assert (Oa : a = Other).
      { destruct a as [d|q t|q t|q c|t|]; try reflexivity; exfalso; cbn [writes] in Wa.
        - destruct Wa as [K _]. rewrite T in K. discriminate K.
        - destruct La as [Sq _]. rewrite T in Wa. change (t_ "AGARI") with [65; 71; 65; 82; 73] in Wa. unfold draw_letter, seat in *. pose proof (f_equal (hd 0) Wa) as K. cbn [hd] in K. lia.
        - destruct La as [Sq _]. rewrite T in Wa. change (t_ "AGARI") with [65; 71; 65; 82; 73] in Wa. unfold discard_letter, seat in *. pose proof (f_equal (hd 0) Wa) as K. cbn [hd] in K. lia.
        - destruct Wa as [K _]. rewrite T in K. discriminate K.
        - destruct Wa as [K _]. rewrite T in K. discriminate K. }
      subst a. intro Ng. apply Ng. apply (printed_agree _ _ H1); [|exact Pm1]. etransitivity; [exact Pm2|]. apply Permutation_map. apply NoDup_Permutation; [exact Nd2|exact Nd1|].
      intro t. rewrite In1, In2, in_hand_snoc. unfold touches. cbn [puts takes]. tauto.
    + apply No. intros [(K & _)|[(K & _)|(K & _)]]; cbn [snd] in K; contradiction.
Qed.

(** ** The whole log *)
Lemma consistent_snoc es e : consistent unquote n (es ++ [e]) <-> consistent unquote n es /\ repeats unquote n es e.
Proof.
  split.
  - intro K. split; [intros b f c ->; apply (K b f (c ++ [e])); rewrite <- app_assoc; reflexivity|]. apply (K es e []). reflexivity.
  - intros [K1 K2] b f c Q. destruct (destruct_last c) as [->|[c' [g ->]]].
    + apply app_inj_tail in Q. destruct Q as [-> ->]. exact K2.
    + change (b ++ f :: c' ++ [g]) with (b ++ (f :: c') ++ [g]) in Q. rewrite app_assoc in Q. apply app_inj_tail in Q. destruct Q as [-> ->]. apply (K1 b f c'). reflexivity.
Qed.
Lemma sound_log : forall es acts cmds x, length acts = length es -> proper n w acts es -> Forall (whole_scores n) es -> Forall (by_players n) es -> Forall well_addressed cmds ->
  call_all tr strict 0 es empty_ctx = Ok (cmds, x) -> (sound_after [] cmds <-> consistent unquote n es) /\ (consistent unquote n es -> same_names es).
Proof.
  induction es as [|e es IH] using rev_ind; intros acts cmds x Len Pr Wh By Wa R.
  - cbn in R. apply Ok_inj in R. injection R as -> _. split; [|intros _ p s1 e1 s2 e2 _ []]. split; [intros _ b e a K; destruct b; discriminate K|intros _ [|j] c K; discriminate K].
  - destruct (destruct_last acts) as [->|[acts1 [a ->]]]; [rewrite app_length in Len; cbn in Len; lia|]. rewrite !app_length in Len. cbn [length] in Len.
    assert (Len1 : length acts1 = length es) by lia. destruct (proper_snoc _ _ _ _ _ _ Pr Len1) as (Pr1 & _).
    pose proof (fun p P => hand_known p (acts1 ++ [a]) (es ++ [e]) cmds x P Pr R) as Next.
    pose proof R as R0. rewrite call_all_app in R0. peelb R0. destruct v as [c1 x1]. match type of E0 with _ = Ok ?v => destruct v as [c2 x2] end. cbn [fst snd] in *. apply Ok_inj in R0. injection R0 as -> ->.
    cbn [call_all] in E0. peelb E0. destruct v as [c3 x3]. cbn [fst snd] in *. apply Ok_inj in E0. injection E0 as -> ->. rewrite app_nil_r in *.
    pose proof Wh as Wh0. apply Forall_app in Wh0, By, Wa. destruct Wh0 as [Wh1 _], By as [By1 Bye], Wa as [Wa1 Wa2]. inversion Bye as [|? ? Be _]; subst.
    destruct (IH acts1 c1 x1 Len1 Pr1 Wh1 By1 Wa1 eq_refl) as [IH1 IH2].
    destruct (call_all_facts _ _ _ _ _ _ _ _ E) as [S1 O1]. destruct (call_facts _ _ _ _ _ _ _ _ E1) as (S2 & O2 & _).
    pose proof (states_ok_mirrors _ _ [] _ S1 O1 mirrors_nil) as M1. cbn [app] in M1.
    pose proof (consistent_snoc es e) as Cs.
    split.
    + rewrite sound_app, Cs, IH1. cbn [app]. rewrite (sound_deeds _ _ _ _ S2 M1 O2 Wa2). split; intros [K1 K2]; (split; [exact K1|]);
        eapply (event_agrees acts1 a es e c1 x1 _ c3 x3 Pr Len1 Wh Be (IH2 K1) E E1 Next); exact K2.
    + intro K. apply Cs in K. destruct K as [K1 (_ & _ & K3)]. specialize (IH2 K1). intros p s1 e1 s2 e2 P I1 A1 I2 A2. apply in_app_iff in I1, I2.
      destruct I1 as [I1|[<-|[]]], I2 as [I2|[<-|[]]].
      * exact (IH2 p s1 e1 s2 e2 P I1 A1 I2 A2).
      * symmetry. exact (K3 p s2 e1 s1 P A2 I1 A1).
      * exact (K3 p s1 e2 s2 P A1 I2 A2).
      * f_equal. exact (announces_det _ _ _ _ A1 A2).
Qed.
(** ** Where a log contradicts itself *)
Lemma proper_prefix : forall rest acts es, length acts = length (es ++ rest) -> proper n w acts (es ++ rest) -> exists acts', length acts' = length es /\ proper n w acts' es.
Proof.
  induction rest as [|e rest IH] using rev_ind; intros acts es Len Pr; [rewrite app_nil_r in *; eauto|].
  destruct (destruct_last acts) as [->|[acts1 [a ->]]]; [rewrite !app_length in Len; cbn in Len; lia|]. rewrite app_assoc in *. rewrite !app_length in Len. cbn [length] in Len.
  assert (Len1 : length acts1 = length (es ++ rest)) by (rewrite app_length; lia). destruct (proper_snoc _ _ _ _ _ _ Pr Len1) as (Pr1 & _). exact (IH _ _ Len1 Pr1).
Qed.
Lemma command_event : forall es cmds x k c, call_all tr strict 0 es empty_ctx = Ok (cmds, x) -> nth_error cmds k = Some c ->
  exists before e after c1 c2 c3 x1 x2, es = before ++ e :: after /\ cmds = c1 ++ c2 ++ c3 /\ (length c1 <= k)%nat /\ nth_error c2 (k - length c1) = Some c /\
    call_all tr strict 0 before empty_ctx = Ok (c1, x1) /\ call_all tr strict 0 (before ++ [e]) empty_ctx = Ok (c1 ++ c2, x2) /\ c_time c = Some (Z.of_nat (length before)).
Proof.
  induction es as [|e es IH] using rev_ind; intros cmds x k c R Nk.
  - cbn in R. apply Ok_inj in R. injection R as -> _. destruct k; discriminate Nk.
  - pose proof R as R0. rewrite call_all_app in R0. peelb R0. destruct v as [c1 x1]. match type of E0 with _ = Ok ?v => destruct v as [c2 x2] end. cbn [fst snd] in *. apply Ok_inj in R0. injection R0 as -> ->.
    cbn [call_all] in E0. peelb E0. destruct v as [c3 x3]. cbn [fst snd] in *. apply Ok_inj in E0. injection E0 as -> ->. rewrite app_nil_r in *.
    destruct (Nat.lt_ge_cases k (length c1)) as [L|L].
    + rewrite nth_error_app1 in Nk by exact L. destruct (IH c1 x1 k c eq_refl Nk) as (b & f & af & d1 & d2 & d3 & y1 & y2 & -> & -> & Ld & Nd & R1 & R2 & T).
      exists b, f, (af ++ [e]), d1, d2, (d3 ++ c3), y1, y2. split; [rewrite <- app_assoc; reflexivity|]. split; [rewrite <- !app_assoc; reflexivity|]. auto.
    + rewrite nth_error_app2 in Nk by exact L. exists es, e, [], c1, c3, [], x1, x3. split; [reflexivity|]. split; [rewrite app_nil_r; reflexivity|].
      split; [exact L|]. split; [exact Nk|]. split; [exact E|]. split; [exact R|]. destruct (call_facts _ _ _ _ _ _ _ _ E1) as (_ & _ & St). rewrite Forall_forall in St.
      destruct (St c (nth_error_In _ _ Nk)) as [T _]. exact T.
Qed.
Lemma first_contradiction acts es cmds x k c : length acts = length es -> proper n w acts es -> Forall (whole_scores n) es -> Forall (by_players n) es -> Forall well_addressed cmds ->
  call_all tr strict 0 es empty_ctx = Ok (cmds, x) ->
  (forall i d, (i < k)%nat -> nth_error cmds i = Some d -> ~ contradicts (firstn i cmds) d) -> nth_error cmds k = Some c -> contradicts (firstn k cmds) c ->
  exists before e after, es = before ++ e :: after /\ consistent unquote n before /\ ~ repeats unquote n before e /\ c_time c = Some (Z.of_nat (length before)).
Proof.
  intros Len Pr Wh By Wa R So Nk Ct. destruct (command_event _ _ _ _ _ R Nk) as (b & e & af & c1 & c2 & c3 & x1 & x2 & -> & -> & Lk & N2 & R1 & R2 & T).
  exists b, e, af. split; [reflexivity|]. assert (N2' : (k - length c1 < length c2)%nat) by (apply nth_error_Some; congruence).
  apply Forall_app in Wa. destruct Wa as [Wa1 Wa]. apply Forall_app in Wa. destruct Wa as [Wa2 _].
  assert (Cb : consistent unquote n b).
  { destruct (proper_prefix (e :: af) _ _ Len Pr) as (acts' & Len' & Pr'). apply Forall_app in Wh, By. destruct Wh as [Wh _], By as [By _].
    apply (sound_log b acts' c1 x1 Len' Pr' Wh By Wa1 R1). intros i d Nd. assert (L : (i < length c1)%nat) by (apply nth_error_Some; congruence). specialize (So i d ltac:(lia)).
    rewrite nth_error_app1 in So by exact L. specialize (So Nd). rewrite firstn_app in So. replace (i - length c1)%nat with 0%nat in So by lia. cbn [firstn] in So. rewrite app_nil_r in So. exact So. }
  split; [exact Cb|]. split; [|exact T]. intro Re. assert (C2 : consistent unquote n (b ++ [e])) by (apply consistent_snoc; auto).
  replace (b ++ e :: af) with ((b ++ [e]) ++ af) in * by (rewrite <- app_assoc; reflexivity).
  destruct (proper_prefix af _ _ Len Pr) as (acts' & Len' & Pr'). apply Forall_app in Wh, By. destruct Wh as [Wh _], By as [By _].
  assert (Wc : Forall well_addressed (c1 ++ c2)) by (apply Forall_app; auto).
  apply (proj1 (sound_log (b ++ [e]) acts' (c1 ++ c2) x2 Len' Pr' Wh By Wc R2)) in C2. specialize (C2 k c). rewrite nth_error_app2 in C2 by exact Lk. specialize (C2 N2). cbn [app] in C2. apply C2.
  rewrite app_assoc, firstn_app in Ct. replace (k - length (c1 ++ c2))%nat with 0%nat in Ct by (rewrite app_length; lia). cbn [firstn] in Ct. rewrite app_nil_r in Ct. exact Ct.
Qed.
End Logs.
