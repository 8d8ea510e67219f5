(** What every event leaves alone, and what the end of a deal does to one player. *)
From Verif Require Import Base Category Tile Parse Text Tenhou TenhouProofs Spec_Tile Spec_Meld MeldProofs Prop_Meld Event Const Reader Spec_Log StateProofs Value Universe Translator TenhouCommands
  Transfer Spec_Transfer Spec_Universe UniverseProofs Prop_Executor CommandProofs Prop_Commands Spec_Play CommandState CommandPlay PlaySteps PlayProofs.
From Coq Require Import String List ZArith Lia Bool Permutation.
Import ListNotations.
Open Scope list_scope.
Open Scope Z_scope.

Section Views.
Context (unquote : text -> text) (set_order : list Z -> list Z).
Local Notation tr := (tenhou_command unquote set_order).
Local Notation handle := (handle unquote set_order).

(** ** Which properties each event touches *)
Definition init_views : list Universe.view :=
  [GV_wind; GV_round; GV_sub_round; GV_richii_remain_scores; PV_is_dealer; GV_dora_indicators; PV_in_richii; PV_score] ++ play_views.
Definition event_views (t : text) : list Universe.view :=
  if text_eqb (t_ "INIT") t then init_views else
  if text_eqb (t_ "DORA") t then [GV_dora_indicators] else
  views_for (other_views) t ++ play_views.
Lemma props_more l l' cmds : props_in l cmds -> (forall v, In v l -> In v l') -> props_in l' cmds.
Proof. intros H K. eapply Forall_impl; [|exact H]. intros c. apply K. Qed.
Lemma typed_props' l t (h : handler) e x raw x' : (forall r, h e x = Ok r -> props_in l (fst r)) ->
  default_event_type t h e x = Ok (raw, x') -> props_in l raw.
Proof.
  intros G H. unfold default_event_type in H. peelb H. apply Ok_inj in H. injection H as -> ->. pose proof (G _ eq_refl) as A.
  apply Forall_map. eapply Forall_impl; [|exact A]. intros c K. unfold with_event. destruct (c_event c); exact K.
Qed.
Ltac in_play := unfold play_views; cbn [c_prop cmd In app]; repeat first [left; reflexivity | right].
Ltac all_in := repeat (apply Forall_cons; [in_play|]); apply Forall_nil.
Lemma hand_update_props u p l x r : hand_update u p l x = Ok r -> props_in play_views (fst r).
Proof.
  unfold hand_update. intro H. peelb H. apply Ok_inj in H. subst r. cbn [fst]. apply Forall_app.
  split; [destruct u; all_in|all_in].
Qed.
Lemma draw_props e x raw x' : draw_command e x = Ok (raw, x') -> props_in play_views raw.
Proof.
  apply typed_props'. intros r H. destruct (tile_change DRAW_INDICATOR e) as [[p t]|]; [eapply hand_update_props; exact H|].
  apply Ok_inj in H. subst r. constructor.
Qed.
Lemma discard_props e x raw x' : discard_command e x = Ok (raw, x') -> props_in play_views raw.
Proof.
  apply typed_props'. intros r H. destruct (tile_change DISCARD_INDICATOR e) as [[p t]|]; [|apply Ok_inj in H; subst r; constructor].
  peelb H. apply Ok_inj in H. subst r. cbn [fst]. apply hand_update_props in E1.
  constructor; [in_play|]. constructor; [in_play|]. cbn [app]. apply Forall_app. split; [exact E1|]. all_in.
Qed.
Lemma open_props e x raw x' : open_hand set_order e x = Ok (raw, x') -> props_in play_views raw.
Proof.
  apply typed_props'. intros r H. peelb H. apply Ok_inj in H. subst r. cbn [fst]. apply hand_update_props in E4.
  constructor; [in_play|]. constructor; [|exact E4]. match goal with |- context [m_class ?m] => destruct (m_class m) end; in_play.
Qed.
Lemma init_player_props e p x r : init_player e p x = Ok r -> props_in ([PV_in_richii; PV_score] ++ play_views) (fst r).
Proof.
  unfold init_player. intro H. peelb H. apply Ok_inj in H. subst r. apply hand_update_props in E3. cbn [fst].
  apply Forall_app. split; [all_in|]. apply Forall_app. split; [|all_in].
  eapply props_more; [exact E3|]. intros w K. apply in_or_app. now right.
Qed.
Lemma init_players_props e ps : forall x r, init_players e ps x = Ok r -> props_in ([PV_in_richii; PV_score] ++ play_views) (fst r).
Proof.
  induction ps as [|p ps IH]; intros x r H; cbn [init_players] in H; [apply Ok_inj in H; subst r; constructor|].
  peelb H. apply Ok_inj in H. subst r. cbn [fst]. apply Forall_app. split; [eapply init_player_props; exact E|eapply IH; exact E0].
Qed.
Lemma init_props e x raw x' : game_init_command e x = Ok (raw, x') -> props_in init_views raw.
Proof.
  apply typed_props'. intros r H. peelb H.
  match type of H with (match ?l with _ => _ end) = _ => destruct l as [|prevailing [|game_index [|]]]; try discriminate H end. peelb H. apply Ok_inj in H. subst r.
  match goal with K : init_players _ _ _ = Ok _ |- _ => pose proof (init_players_props _ _ _ _ K) as A end.
  match goal with K : set_oya_command_yield _ _ = Ok _ |- _ => apply oya_props in K; rename K into B end.
  cbn [fst]. unfold init_views. repeat (apply Forall_app; split).
  - all_in.
  - eapply props_more; [exact B|]. intros w [<-|[]]. in_play.
  - all_in.
  - eapply props_more; [exact A|]. intros w K. rewrite in_app_iff in K. destruct K as [[<-|[<-|[]]]|K]; [in_play|in_play|]. apply in_or_app. now right.
Qed.
Lemma dora_props e x raw x' : dora_command e x = Ok (raw, x') -> props_in [GV_dora_indicators] raw.
Proof. apply typed_props'. intros r H. peelb H. apply Ok_inj in H. subst r. repeat constructor. Qed.
Lemma event_props e x raw x' : handle e x = Ok (raw, x') -> props_in (event_views (tag e)) raw.
Proof.
  intro H. unfold event_views. destruct (text_eqb (t_ "INIT") (tag e)) eqn:Ei.
  { apply text_eqb_iff in Ei. unfold CommandProofs.handle in H.
    replace (hfind (handlers unquote set_order) (tag e)) with (Some game_init_command) in H by (rewrite <- Ei; reflexivity). eapply init_props. exact H. }
  destruct (text_eqb (t_ "DORA") (tag e)) eqn:Ed.
  { apply text_eqb_iff in Ed. unfold CommandProofs.handle in H.
    replace (hfind (handlers unquote set_order) (tag e)) with (Some dora_command) in H by (rewrite <- Ed; reflexivity). eapply dora_props. exact H. }
  destruct (text_eqb (t_ "N") (tag e)) eqn:En.
  { apply text_eqb_iff in En. unfold CommandProofs.handle in H.
    replace (hfind (handlers unquote set_order) (tag e)) with (Some (open_hand set_order)) in H by (rewrite <- En; reflexivity).
    eapply props_more; [eapply open_props; exact H|]. intros w K. apply in_or_app. now right. }
  destruct (hfind (handlers unquote set_order) (tag e)) as [h|] eqn:F.
  - assert (W : writes Other e).
    { pose proof (hfind_in _ _ _ F) as I0. pose proof (named_not_tile _ _ _ _ I0) as NT.
      cbn [writes]. repeat split; try (intro K; rewrite K in *; discriminate). exact NT. }
    eapply props_more; [exact (proj1 (other_props unquote set_order _ _ _ _ W H))|]. intros w K. apply in_or_app. now left.
  - unfold CommandProofs.handle in H. rewrite F in H. eapply props_more with (l := play_views); [|intros w K; apply in_or_app; now right].
    unfold default_handle in H. peelb H.
    match type of E with draw_command e x = Ok ?r => destruct r as [l1 y1] end.
    apply draw_props in E. cbn [fst snd] in *.
    destruct l1 as [|c l1]; [|apply Ok_inj in H; injection H as -> ->; exact E].
    peelb H. apply Ok_inj in H. subst v. eapply discard_props. exact E0.
Qed.
Lemma untouched e x raw x' s v : handle e x = Ok (raw, x') -> existsb (view_eqb v) (event_views (tag e)) = false -> deeds (s, v) raw = [].
Proof.
  intros H N. apply deeds_none. apply event_props in H. eapply Forall_impl; [|exact H]. intros c I0 K. cbn [snd] in K.
  assert (T : existsb (view_eqb v) (event_views (tag e)) = true); [|congruence]. apply existsb_exists. exists (c_prop c).
  split; [exact I0|]. rewrite view_eqb_iff. congruence.
Qed.

End Views.

(** ** The end of a deal, for one player *)
Lemma concat_deeds (f : Z -> res (list command)) : forall ps ls p, mapM f ps = Ok ls -> NoDup ps ->
  (forall q r, f q = Ok r -> Forall (fun c => c_sub c = SId q) r) ->
  (~ In p ps -> forall v, deeds (SId p, v) (concat ls) = []) /\
  (In p ps -> exists r, f p = Ok r /\ forall v, deeds (SId p, v) (concat ls) = deeds (SId p, v) r).
Proof.
  assert (Off : forall p q v r, p <> q -> Forall (fun c => c_sub c = SId q) r -> deeds (SId p, v) r = []).
  { intros p q v r N F. unfold deeds. replace (filter (about (SId p, v)) r) with (@nil command); [reflexivity|].
    symmetry. induction F as [|c r Hc F IH]; [reflexivity|]. cbn [filter]. unfold about at 1. rewrite Hc. cbn [fst sub_eqb].
    replace (q =? p) with false by (symmetry; apply Z.eqb_neq; congruence). exact IH. }
  intros ps ls p H N G. revert ls H. induction N as [|q ps N1 N2 IH]; intros ls H; cbn [mapM] in H.
  - apply Ok_inj in H. subst ls. split; [reflexivity|intros []].
  - peelb H. apply Ok_inj in H. subst ls. destruct (IH _ eq_refl) as [IH1 IH2]. cbn [concat]. split.
    + intros I0 w. rewrite deeds_app, (Off p q), IH1; [reflexivity| |intros ->; apply I0; now left|eapply G; exact E]. intro K. apply I0. now right.
    + intros [->|I0].
      * exists v. split; [exact E|]. intro w. rewrite deeds_app, (IH1 N1), app_nil_r. reflexivity.
      * destruct (IH2 I0) as [r [R1 R2]]. exists r. split; [exact R1|]. intro w. rewrite deeds_app, (Off p q), R2; [reflexivity| |eapply G; exact E].
        intros ->. contradiction.
Qed.
(** The final results of one player. *)
Definition final_player (finals : list num) (n p : Z) : res (list command) :=
  do s <- py_nth (final_scores finals) p; do pt <- py_nth (every_other (tl finals)) p; do rk <- zget (player_rank_map n (final_scores finals)) p;
  Ok [cmd PV_final_score U_REPLACE (SId p) (VNum s) (Some E_record_finish); cmd PV_final_point U_REPLACE (SId p) (VNum pt) (Some E_record_finish);
      cmd PV_rank U_REPLACE (SId p) (VInt rk) (Some E_record_finish)].
Definition final_of (e : event) (n p : Z) : res (list command) :=
  match lookup (t_ "owari") (attrib e) with
  | None => Ok []
  | Some o => do finals <- number_list o; final_player finals n p
  end.
Lemma finish_deeds x f w sc y e l n p : game_finish x f w sc y e = Ok l -> ctx_player_count x = Ok n -> 0 <= p < n ->
  exists r fin, finish_player sc f w y p = Ok r /\ final_of e n p = Ok fin /\ forall v, deeds (SId p, v) l = deeds (SId p, v) r ++ deeds (SId p, v) fin.
Proof.
  unfold game_finish. intros H C P. rewrite C in H. cbn [bindr] in H. peelb H. apply Ok_inj in H. subst l.
  assert (I0 : In p (zrange 0 n)) by (apply in_zrange; lia).
  assert (G : forall q r, finish_player sc f w y q = Ok r -> Forall (fun c => c_sub c = SId q) r).
  { intros q r H. unfold finish_player in H. peelb H. cbv zeta in H. apply Ok_inj in H. subst r. apply Forall_app. split; [|repeat constructor].
    destruct sc; [|apply Ok_inj in E1; subst; constructor]. peelb E1. apply Ok_inj in E1. subst. repeat constructor. }
  destruct (concat_deeds _ _ _ p E (zrange_nodup 0 n) G) as [_ K]. destruct (K I0) as [r [R1 R2]]. exists r.
  unfold finals_commands in E0. unfold final_of. destruct (lookup (t_ "owari") (attrib e)) as [o|].
  - peelb E0. cbv zeta in E0. peelb E0. apply Ok_inj in E0. subst v0. cbn [bindr].
    change (mapM (final_player v1 n) (zrange 0 n) = Ok v2) in E2.
    assert (G' : forall q r, final_player v1 n q = Ok r -> Forall (fun c => c_sub c = SId q) r).
    { intros q r0 H. unfold final_player in H. peelb H. apply Ok_inj in H. subst r0. repeat constructor. }
    destruct (concat_deeds _ _ _ p E2 (zrange_nodup 0 n) G') as [_ K']. destruct (K' I0) as [fin [F1 F2]]. exists fin.
    split; [exact R1|]. split; [exact F1|]. intro u. rewrite deeds_app, R2, F2. reflexivity.
  - apply Ok_inj in E0. subst v0. exists []. split; [exact R1|]. split; [reflexivity|]. intro u. rewrite app_nil_r, R2. cbn. now rewrite app_nil_r.
Qed.
Definition score_deeds (sc : option (list num)) (p : Z) (ds : list (update * val)) : Prop :=
  match sc with
  | None => ds = []
  | Some l => exists a b, py_nth (every_other l) p = Ok a /\ py_nth (every_other (tl l)) p = Ok b /\
      ds = [(U_ASSERT_EQUAL_OR_SET, VNum (num_scale a 100)); (U_ADD, VNum (num_scale b 100))]
  end.
Lemma finish_player_deeds sc f w y p r : finish_player sc f w y p = Ok r ->
  score_deeds sc p (deeds (SId p, PV_score) r) /\
  deeds (SId p, PV_is_win) r = [(U_REPLACE, VBool (id_eqb w (Some p)))] /\
  deeds (SId p, PV_is_self_win) r = [(U_REPLACE, VBool (id_eqb w f))] /\
  deeds (SId p, PV_is_discard_lose_game) r = [(U_REPLACE, VBool (negb (id_eqb w f) && id_eqb (Some p) f))] /\
  deeds (SId p, PV_faans) r = [(U_REPLACE, texts (if id_eqb w f || (negb (id_eqb w f) && id_eqb (Some p) f) || id_eqb w (Some p) then y else []))] /\
  (forall v, In v [PV_hand; PV_final_score; PV_final_point; PV_rank] -> deeds (SId p, v) r = []).
Proof.
  intro H. unfold finish_player in H. peelb H. cbv zeta in H. apply Ok_inj in H. subst r.
  assert (S0 : exists ds, score_deeds sc p ds /\ (forall u, deeds (SId p, u) v = if view_eqb PV_score u then ds else [])).
  { unfold score_deeds. destruct sc as [l|].
    - peelb E. apply Ok_inj in E. subst v. eexists. split; [exists v0, v1; repeat split; reflexivity|]. intro u. unfold deeds, about.
      cbn [filter c_sub c_prop cmd fst snd sub_eqb]. rewrite Z.eqb_refl. cbn [andb]. destruct (view_eqb PV_score u); reflexivity.
    - apply Ok_inj in E. subst v. exists []. split; [reflexivity|]. intro u. destruct (view_eqb PV_score u); reflexivity. }
  destruct S0 as [ds [S1 S2]].
  split; [|repeat split].
  - rewrite deeds_app, S2. unfold deeds, about. cbn [filter c_sub c_prop cmd fst snd sub_eqb]. rewrite Z.eqb_refl. cbn. rewrite app_nil_r. exact S1.
  - rewrite deeds_app, S2. unfold deeds, about. cbn [filter c_sub c_prop cmd fst snd sub_eqb]. rewrite Z.eqb_refl. reflexivity.
  - rewrite deeds_app, S2. unfold deeds, about. cbn [filter c_sub c_prop cmd fst snd sub_eqb]. rewrite Z.eqb_refl. reflexivity.
  - rewrite deeds_app, S2. unfold deeds, about. cbn [filter c_sub c_prop cmd fst snd sub_eqb]. rewrite Z.eqb_refl. reflexivity.
  - rewrite deeds_app, S2. unfold deeds, about. cbn [filter c_sub c_prop cmd fst snd sub_eqb]. rewrite Z.eqb_refl. reflexivity.
  - intros u I0. rewrite deeds_app, S2. unfold deeds, about. cbn [filter c_sub c_prop cmd fst snd sub_eqb]. rewrite Z.eqb_refl. cbn [In] in I0.
    repeat (destruct I0 as [<-|I0]; [reflexivity|]). destruct I0.
Qed.
Lemma final_deeds e n p fin : final_of e n p = Ok fin ->
  (forall v, ~ In v [PV_final_score; PV_final_point; PV_rank] -> deeds (SId p, v) fin = []) /\
  (lookup (t_ "owari") (attrib e) = None -> fin = []) /\
  (forall o, lookup (t_ "owari") (attrib e) = Some o -> exists finals s pt rk, number_list o = Ok finals /\
     py_nth (final_scores finals) p = Ok s /\ py_nth (every_other (tl finals)) p = Ok pt /\ zget (player_rank_map n (final_scores finals)) p = Ok rk /\
     deeds (SId p, PV_final_score) fin = [(U_REPLACE, VNum s)] /\ deeds (SId p, PV_final_point) fin = [(U_REPLACE, VNum pt)] /\ deeds (SId p, PV_rank) fin = [(U_REPLACE, VInt rk)]).
Proof.
  unfold final_of. intro H. destruct (lookup (t_ "owari") (attrib e)) as [o|].
  - peelb H. unfold final_player in H. peelb H. apply Ok_inj in H. subst fin. split; [|split; [discriminate|]].
    + intros u N. apply deeds_none. repeat constructor; cbn [snd c_prop cmd]; intro K; apply N; subst u; cbn; tauto.
    + intros o' K. injection K as <-. exists v, v0, v1, v2. repeat split; try assumption;
      unfold deeds, about; cbn [filter c_sub c_prop cmd fst snd sub_eqb]; rewrite Z.eqb_refl; reflexivity.
  - apply Ok_inj in H. subst fin. split; [reflexivity|]. split; [reflexivity|discriminate].
Qed.
