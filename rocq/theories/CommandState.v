(** What the handlers do to one property: the updates of one key, event by event. *)
From Verif Require Import Base Category Tile Parse Text Tenhou TenhouProofs Spec_Tile Spec_Meld MeldProofs Prop_Meld Event Const Reader Spec_Log StateProofs Value Universe Translator TenhouCommands
  Transfer Spec_Transfer Spec_Universe UniverseProofs Prop_Executor CommandProofs Prop_Commands Spec_Play.
From Coq Require Import String List ZArith Lia Bool Permutation.
Import ListNotations.
Open Scope list_scope.
Open Scope Z_scope.

(** ** The updates of one key *)
Definition about (k : sub * Universe.view) (c : command) : bool := sub_eqb (c_sub c) (fst k) && view_eqb (c_prop c) (snd k).
Definition deeds (k : sub * Universe.view) (cmds : list command) : list (update * val) :=
  map (fun c => (c_update c, c_value c)) (filter (about k) cmds).
Fixpoint run_deeds (v : Universe.view) (o : option val) (ds : list (update * val)) : res (option val) :=
  match ds with
  | [] => Ok o
  | (u, w) :: r => do x <- execute_new_value (mkCmd v u sub_all w None VNone None) (or_none o); run_deeds v (Some x) r
  end.
Lemma deeds_app k a b : deeds k (a ++ b) = deeds k a ++ deeds k b.
Proof. unfold deeds. now rewrite filter_app, map_app. Qed.
Lemma deeds_cons k c l : deeds k (c :: l) = deeds k [c] ++ deeds k l.
Proof. exact (deeds_app k [c] l). Qed.
Lemma deeds_none k l : Forall (fun c => c_prop c <> snd k) l -> deeds k l = [].
Proof.
  unfold deeds. induction 1 as [|c l N F IH]; [reflexivity|]. cbn [filter]. unfold about at 1.
  replace (view_eqb (c_prop c) (snd k)) with false; [rewrite andb_false_r; exact IH|].
  symmetry. apply not_true_iff_false. now rewrite view_eqb_iff.
Qed.
Lemma run_deeds_app v : forall a b o, run_deeds v o (a ++ b) = do o' <- run_deeds v o a; run_deeds v o' b.
Proof.
  induction a as [|[u w] a IH]; intros b o; cbn [app run_deeds]; [reflexivity|].
  destruct (execute_new_value _ _); cbn [bindr]; [apply IH|reflexivity].
Qed.
Lemma with_states_deeds k : forall cmds s s' cmds', with_states s cmds = Ok (s', cmds') ->
  run_deeds (snd k) (iget s k) (deeds k cmds) = Ok (iget s' k).
Proof.
  induction cmds as [|c r IH]; intros s s' cmds' E; cbn [with_states] in E.
  - apply Ok_inj in E. injection E as -> _. reflexivity.
  - peelb E. destruct v as [s1 w], v0 as [s2 r']. cbn [fst snd] in *. apply Ok_inj in E. assert (Q : s' = s2) by congruence. subst s2.
    unfold interpret in E0. peelb E0. apply Ok_inj in E0. assert (Q1 : s1 = iput s (c_sub c, c_prop c) v) by congruence. clear E0 E. 
    rewrite deeds_cons. unfold deeds at 1. cbn [filter]. unfold about. destruct k as [ks kv]. cbn [fst snd] in *.
    specialize (IH _ _ _ E1). rewrite Q1 in IH. rewrite iget_iput in IH. cbn [fst snd] in IH.
    destruct (sub_eqb (c_sub c) ks && view_eqb (c_prop c) kv) eqn:A; cbn [map app run_deeds]; [|exact IH].
    assert (A' : (c_sub c, c_prop c) = (ks, kv)) by (apply ikey_eqb_iff; exact A). injection A' as A1 A2.
    rewrite A1, A2 in E2. rewrite <- A2 in *. unfold execute_new_value in *. cbn [c_update c_value c_prop] in *. rewrite E2. exact IH.
Qed.

Section Handlers.
Context (unquote : text -> text) (set_order : list Z -> list Z).
Local Notation tr := (tenhou_command unquote set_order).
Local Notation handle := (handle unquote set_order).

Lemma call_inv strict e i x cmds x' : call tr strict e i x = Ok (cmds, x') -> exists raw x1,
  handle e x = Ok (raw, x1) /\ x_vals x1 = x_vals x /\ x_indexer x' = x_indexer x1 /\ x_right x' = x_right x1 /\
  forall k, run_deeds (snd k) (iget (x_vals x) k) (deeds k raw) = Ok (iget (x_vals x') k).
Proof.
  rewrite call_eq. intro H. peelb H. destruct (handle_good unquote set_order _ _ _ E) as [[A _] _]. destruct v as [raw x1]. cbn [fst snd] in *.
  exists raw, x1. split; [reflexivity|]. split; [exact A|]. unfold finish in H. cbn [fst snd] in H. destruct raw as [|c0 l0].
  - destruct strict; [discriminate|]. apply Ok_inj in H. injection H as -> ->. repeat split. intro k. rewrite A. reflexivity.
  - unfold postprocess in H. peelb H. destruct v as [s' cs]. cbn [fst snd] in H. apply Ok_inj in H. injection H as -> ->.
    split; [reflexivity|]. split; [reflexivity|]. intro k. cbn [x_vals]. rewrite <- A. eapply with_states_deeds. exact E0.
Qed.

(** ** Which properties the other handlers touch *)
Definition props_in (l : list Universe.view) (cmds : list command) : Prop := Forall (fun c => In (c_prop c) l) cmds.
Definition play_views : list Universe.view :=
  [PV_hand; PV_discard_tiles; PV_discard_from_hand; PV_fixed_meld; PV_meld_public_tiles; PV_bonus_tiles; PV_round].
Lemma typed_props l t (h : handler) e x raw x' : (forall r, h e x = Ok r -> props_in l (fst r) /\ x_right (snd r) = x_right x) ->
  default_event_type t h e x = Ok (raw, x') -> props_in l raw /\ x_right x' = x_right x.
Proof.
  intros G H. unfold default_event_type in H. peelb H. apply Ok_inj in H. injection H as -> ->. destruct (G _ eq_refl) as [A B].
  split; [|exact B]. apply Forall_map. eapply Forall_impl; [|exact A]. intros c K. unfold with_event. destruct (c_event c); exact K.
Qed.
Lemma typed_deeds k t (l : list command) : deeds k (map (fun c => with_event c t) l) = deeds k l.
Proof.
  unfold deeds. induction l as [|c l IH]; [reflexivity|]. cbn [map filter].
  assert (Q : about k (with_event c t) = about k c /\ c_update (with_event c t) = c_update c /\ c_value (with_event c t) = c_value c)
    by (unfold with_event; destruct (c_event c); auto).
  destruct Q as [Q1 [Q2 Q3]]. rewrite Q1. destruct (about k c); cbn [map]; [rewrite Q2, Q3; f_equal|]; exact IH.
Qed.
Definition finish_views : list Universe.view :=
  [PV_score; PV_is_win; PV_is_self_win; PV_is_discard_lose_game; PV_faans; PV_final_score; PV_final_point; PV_rank].
Ltac in_views := repeat match goal with
  | |- props_in _ _ => unfold props_in
  | |- Forall _ (_ ++ _) => apply Forall_app; split
  | |- Forall _ (_ :: _) => constructor
  | |- Forall _ [] => constructor
  end; try (unfold finish_views; cbn [c_prop cmd In]; tauto).
Lemma mapM_props l {A} (f : A -> res (list command)) xs ls : mapM f xs = Ok ls -> (forall a r, f a = Ok r -> props_in l r) -> props_in l (concat ls).
Proof.
  intros H F. revert ls H. induction xs as [|a xs IH]; intros ls H; cbn [mapM] in H; [apply Ok_inj in H; subst; constructor|].
  peelb H. apply Ok_inj in H. subst ls. cbn [concat]. apply Forall_app. split; [eapply F; exact E|apply IH; reflexivity].
Qed.
Lemma oya_props x i l : set_oya_command_yield x i = Ok l -> props_in [PV_is_dealer] l.
Proof. unfold set_oya_command_yield. intro H. peelb H. apply Ok_inj in H. subst l. apply Forall_map. apply Forall_forall. intros q _. cbn. auto. Qed.
Lemma finish_props x f p sc y e l : game_finish x f p sc y e = Ok l -> props_in finish_views l.
Proof.
  unfold game_finish. intro H. peelb H. apply Ok_inj in H. subst l. apply Forall_app. split.
  - apply (mapM_props _ _ _ _ E0). intros q r H. unfold finish_player in H. peelb H. cbv zeta in H. apply Ok_inj in H. subst r.
    in_views. destruct sc; [|apply Ok_inj in E2; subst; constructor]. peelb E2. apply Ok_inj in E2. subst. in_views.
  - unfold finals_commands in E1. destruct (lookup _ _); [|apply Ok_inj in E1; subst; constructor].
    peelb E1. cbv zeta in E1. peelb E1. apply Ok_inj in E1. subst. apply (mapM_props _ _ _ _ E3).
    intros q r H. peelb H. cbv zeta in H. apply Ok_inj in H. subst r. in_views.
Qed.
(** The tags of the handlers that are neither play nor deals. *)
Definition other_views : list (text * list Universe.view) :=
  [(t_ "GO", [RV_play_level; RV_show_discard_shadow; RV_play_wind_count; RV_allow_tanyao_open; RV_speed_up; RV_player_count; RV_using_tiles]);
   (t_ "TAIKYOKU", [PV_is_dealer]);
   (t_ "UN", [PV_disconnected; PV_name; PV_level; PV_extra_level]);
   (t_ "REACH", [PV_in_richii; PV_score]);
   (t_ "AGARI", PV_hand :: GV_nobody_win :: finish_views);
   (t_ "SHUFFLE", [RV_seed]);
   (t_ "BYE", [PV_disconnected]);
   (t_ "RYUUKYOKU", GV_nobody_win :: GV_extra_reason :: finish_views)].
Fixpoint views_for (l : list (text * list Universe.view)) (t : text) : list Universe.view :=
  match l with [] => [] | (n, v) :: r => if text_eqb n t then v else views_for r t end.
Lemma other_props e x raw x' : writes Other e -> handle e x = Ok (raw, x') -> props_in (views_for other_views (tag e)) raw /\ x_right x' = x_right x.
Proof.
  intros [N1 [N2 [N3 N4]]] H. unfold CommandProofs.handle in H.
  destruct (hfind (handlers unquote set_order) (tag e)) as [h|] eqn:F.
  - apply hfind_in in F. cbn [handlers In] in F.
    repeat (destruct F as [F|F]; [injection F as F <-; rewrite <- F in *; clear F|]); [congruence|congruence| | | |congruence| | | | | |destruct F].
    + change (views_for other_views (t_ "GO")) with [RV_play_level; RV_show_discard_shadow; RV_play_wind_count; RV_allow_tanyao_open; RV_speed_up; RV_player_count; RV_using_tiles].
      revert H. apply typed_props. intros r H. peelb H. cbv zeta in H. apply Ok_inj in H. subst r. split; [cbn [fst]; in_views|reflexivity].
    + change (views_for other_views (t_ "TAIKYOKU")) with [PV_is_dealer]. revert H. apply typed_props. intros r H. peelb H. apply Ok_inj in H. subst r.
      split; [eapply oya_props; exact E1|reflexivity].
    + change (views_for other_views (t_ "UN")) with [PV_disconnected; PV_name; PV_level; PV_extra_level].
      revert H. apply typed_props. intros r H. peelb H. cbv zeta in H. peelb H. apply Ok_inj in H. subst r. split; [|reflexivity]. cbn [fst].
      apply (mapM_props _ _ _ _ E1). intros p l' H. unfold set_player in H.
      destruct (lookup _ _); [|apply Ok_inj in H; subst; constructor]. destruct (not_blank t); [|apply Ok_inj in H; subst; constructor].
      peelb H. apply Ok_inj in H. subst l'. in_views; [|destruct (has_attr e (t_ "rate")); in_views].
      destruct (has_attr e (t_ "dan")); [|apply Ok_inj in E5; subst; constructor].
      match type of E5 with (match ?n with _ => _ end) = _ => destruct n; [|discriminate E5] end. peelb E5. apply Ok_inj in E5. subst. in_views.
    + change (views_for other_views (t_ "REACH")) with [PV_in_richii; PV_score]. revert H. apply typed_props. intros r H. peelb H. apply Ok_inj in H. subst r.
      split; [|reflexivity]. cbn [fst]. destruct (text_eqb _ _); [in_views|]. destruct (text_eqb _ _); in_views.
    + change (views_for other_views (t_ "AGARI")) with (PV_hand :: GV_nobody_win :: finish_views). revert H. apply typed_props. intros r H. peelb H. apply Ok_inj in H. subst r.
      split; [|reflexivity]. cbn [fst]. match goal with K : game_finish _ _ _ _ _ _ = Ok _ |- _ => apply finish_props in K; rename K into FP end.
      in_views. eapply Forall_impl; [|exact FP]. intros c K. right. right. exact K.
    + change (views_for other_views (t_ "SHUFFLE")) with [RV_seed]. revert H. apply typed_props. intros r H. peelb H. apply Ok_inj in H. subst r. split; [cbn [fst]; in_views|reflexivity].
    + change (views_for other_views (t_ "BYE")) with [PV_disconnected]. revert H. apply typed_props. intros r H. peelb H. apply Ok_inj in H. subst r. split; [cbn [fst]; in_views|reflexivity].
    + change (views_for other_views (t_ "RYUUKYOKU")) with (GV_nobody_win :: GV_extra_reason :: finish_views). revert H. apply typed_props. intros r H. peelb H. apply Ok_inj in H. subst r.
      split; [|reflexivity]. cbn [fst]. match goal with K : game_finish _ _ _ _ _ _ = Ok _ |- _ => apply finish_props in K; rename K into FP end.
      in_views. eapply Forall_impl; [|exact FP]. intros c K. right. right. exact K.
  - destruct (tile_tag_full _ N4) as [A B]. rewrite (default_none _ _ B A) in H. apply Ok_inj in H. injection H as -> ->. split; [constructor|reflexivity].
Qed.

End Handlers.
