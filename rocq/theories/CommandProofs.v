(** The handlers of the Tenhou translator: which one is used, and what its commands are. *)
From Verif Require Import Base Category Tile Parse Text Tenhou TenhouProofs Spec_Meld MeldProofs Prop_Meld Event Const Reader Spec_Log StateProofs Value Universe Translator TenhouCommands
  Transfer Spec_Transfer Spec_Universe UniverseProofs Prop_Executor.
From Coq Require Import String List ZArith Lia Bool Permutation.
Import ListNotations.
Open Scope list_scope.
Open Scope Z_scope.

Ltac peelb H := repeat match type of H with
  | bindr ?x _ = Ok _ => let E := fresh "E" in let v := fresh "v" in destruct x as [v|] eqn:E; [cbn [bindr] in H|discriminate H]
  end.

Section Handlers.
Context (unquote : text -> text) (set_order : list Z -> list Z).
Local Notation tr := (tenhou_command unquote set_order).

(** The handler for the tag. *)
Definition default_handle : handler := fun e x =>
  do v <- draw_command e x;
  match fst v with
  | [] => do w <- discard_command e (snd v); Ok w
  | _ => Ok v
  end.
Definition handlers : list (text * handler) :=
  [(t_ "INIT", game_init_command); (t_ "N", open_hand set_order); (t_ "GO", game_type_command);
   (t_ "TAIKYOKU", set_oya_command); (t_ "UN", set_player_command unquote); (t_ "DORA", dora_command);
   (t_ "REACH", richii_command); (t_ "AGARI", agari_command); (t_ "SHUFFLE", shuffle_command);
   (t_ "BYE", disconnected_command); (t_ "RYUUKYOKU", no_win_command)].
Fixpoint hfind (l : list (text * handler)) (name : text) : option handler :=
  match l with [] => None | (n, h) :: r => if text_eqb n name then Some h else hfind r name end.
Definition handle : handler := fun e x =>
  match hfind handlers (tag e) with Some h => h e x | None => default_handle e x end.
Definition finish (strict : bool) (i : Z) (r : list command * ctx) : res (list command * ctx) :=
  match fst r with
  | [] => if strict then Err ValueError else Ok ([], snd r)
  | _ => postprocess i (fst r) (snd r)
  end.

Lemma name_table : tr_name tr = map (fun nh => (fst nh, [snd nh])) handlers.
Proof.
  unfold tenhou_command, handlers. generalize draw_command, discard_command, game_init_command, (open_hand set_order), game_type_command,
    set_oya_command, (set_player_command unquote), dora_command, richii_command, agari_command, shuffle_command, disconnected_command, no_win_command.
  intros. vm_compute. reflexivity.
Qed.
Lemma tget_handlers l name : tget text_eqb (map (fun nh => (fst nh, [snd nh])) l) name =
  match hfind l name with Some h => Some [h : handler] | None => None end.
Proof. induction l as [|[n h] l IH]; cbn; [reflexivity|]. destruct (text_eqb n name); [reflexivity|exact IH]. Qed.
Lemma try_none {K} (eqb : K -> K -> bool) e keys x : try_attrs eqb [] e keys x = Ok (None, x).
Proof. induction keys; cbn; auto. Qed.
Lemma hfind_in l name h : hfind l name = Some h -> In (name, h) l.
Proof.
  induction l as [|[n h'] l IH]; cbn; [discriminate|]. destruct (text_eqb n name) eqn:E.
  - intro Q. injection Q as ->. apply text_eqb_iff in E. subst. now left.
  - intro Q. right. auto.
Qed.
Lemma named_not_tile name h : In (name, h) handlers -> ~ tile_tag name.
Proof.
  intros I0 [l [c [r [E [_ D]]]]].
  repeat (destruct I0 as [I0|I0]; [injection I0 as <- _; vm_compute in E; try discriminate E; injection E as <- <- _; lia|]). destruct I0.
Qed.
Lemma default_none e x : regex_full DRAW_INDICATOR (tag e) = None -> regex_full DISCARD_INDICATOR (tag e) = None -> default_handle e x = Ok ([], x).
Proof.
  intros A B. unfold default_handle, draw_command, discard_command, default_event_type, tile_change. rewrite A. cbn [option_map bindr fst snd map].
  rewrite B. reflexivity.
Qed.
Lemma default_fallback e x : fallback_call e (tr_defaults tr) x =
  do v <- default_handle e x; Ok (match fst v with [] => None | l => Some l end, snd v).
Proof.
  change (tr_defaults tr) with [draw_command; discard_command]. cbn [fallback_call]. unfold default_handle.
  destruct (draw_command e x) as [[l x']|]; cbn [bindr fst snd]; [|reflexivity].
  destruct l as [|c l]; [|reflexivity]. destruct (discard_command e x') as [[m x'']|]; cbn [bindr fst snd]; [|reflexivity].
  destruct m; reflexivity.
Qed.
Lemma call_eq strict e i x : call tr strict e i x = do r <- handle e x; finish strict i r.
Proof.
  unfold call, translate. change (tr_both tr) with (@nil ((text * text) * list handler)). rewrite try_none. cbn [bindr fst snd].
  change (tr_attr tr) with (@nil (text * list handler)). rewrite name_table, tget_handlers. unfold handle.
  destruct (hfind handlers (tag e)) as [h|] eqn:F; cbn [bindr fst snd].
  - cbn [fallback_call]. destruct (h e x) as [[l x']|] eqn:He; cbn [bindr fst snd]; [|reflexivity].
    destruct l as [|c l]; cbn [bindr fst snd].
    + rewrite try_none. cbn [bindr fst snd]. rewrite default_fallback.
      destruct (tile_tag_full (tag e)) as [A B]; [eapply named_not_tile; eapply hfind_in; exact F|].
      rewrite (default_none _ _ B A). cbn [bindr fst snd]. unfold finish. reflexivity.
    + unfold finish. reflexivity.
  - rewrite try_none. cbn [bindr fst snd]. rewrite default_fallback.
    destruct (default_handle e x) as [[l x']|]; cbn [bindr fst snd]; [|reflexivity].
    destruct l; reflexivity.
Qed.

(** ** Shape of the commands *)
Definition ok_cmd (c : command) : Prop :=
  match scope_of (c_prop c) with SPlayer => exists i, c_sub c = SId i | _ => c_sub c = sub_all end /\ tile_value c.
Definition tilish (p : view) (v : val) : Prop := tiles_b p = false \/ v = VNone \/ exists l, v = texts l.
Lemma tilish_value c : tilish (c_prop c) (c_value c) -> tile_value c.
Proof.
  intros H Ti. destruct H as [F|[H|[l H]]]; [| rewrite H; clear H..].
  - apply is_tiles_iff in Ti. congruence.
  - exists []. left. auto.
  - exists (map VStr l). right. split; [constructor|]. apply Forall_forall. intros x I0. apply in_map_iff in I0. destruct I0 as [y [<- _]]. discriminate.
Qed.
Lemma ok_player p u i v ev : scope_of p = SPlayer -> tilish p v -> ok_cmd (cmd p u (SId i) v ev).
Proof. intros S0 T. split; [cbn; rewrite S0; eauto|]. apply tilish_value. exact T. Qed.
Lemma ok_all p u v ev : scope_of p <> SPlayer -> tilish p v -> ok_cmd (cmd p u sub_all v ev).
Proof. intros S0 T. split; [cbn; destruct (scope_of p); congruence|]. apply tilish_value. exact T. Qed.
Lemma tile_str_list_texts l v : tile_str_list l = Ok v -> exists ts, tile_strs l = Ok ts /\ v = texts ts.
Proof. unfold tile_str_list. intro H. peelb H. apply Ok_inj in H. eauto. Qed.
Ltac ok_one := match goal with
  | |- ok_cmd (cmd _ _ (SId _) _ _) => apply ok_player; [reflexivity|]
  | |- ok_cmd (cmd _ _ sub_all _ _) => apply ok_all; [discriminate|]
  end; unfold tilish; first [left; reflexivity | right; left; reflexivity | right; right; eauto].
Ltac ok_list := repeat match goal with
  | |- Forall _ (_ ++ _) => apply Forall_app; split
  | |- Forall _ (_ :: _) => constructor
  | |- Forall _ [] => constructor
  end; try ok_one.

Definition good_result (x : ctx) (r : list command * ctx) : Prop := x_vals (snd r) = x_vals x /\ Forall ok_cmd (fst r).
Lemma hand_update_good u p l x r : hand_update u p l x = Ok r -> good_result x r.
Proof.
  unfold hand_update. intro H. peelb H. apply Ok_inj in H. subst r. apply tile_str_list_texts in E0. destruct E0 as [ts [_ ->]].
  split; [reflexivity|]. cbn [fst]. apply Forall_app. split; [destruct u; ok_list|ok_list].
Qed.
Definition good_handler (h : handler) : Prop := forall e x r, h e x = Ok r -> good_result x r /\ Forall (fun c => c_event c <> None) (fst r).
Lemma typed_good t (h : handler) : (forall e x r, h e x = Ok r -> good_result x r) -> good_handler (default_event_type t h).
Proof.
  intros G e x r H. unfold default_event_type in H. peelb H. apply Ok_inj in H. subst r. destruct (G _ _ _ E) as [A B].
  split.
  - split; [exact A|]. cbn [fst]. apply Forall_map. eapply Forall_impl; [|exact B]. intros c K. unfold with_event. destruct (c_event c); exact K.
  - cbn [fst]. apply Forall_map. apply Forall_forall. intros c _. unfold with_event. destruct (c_event c) eqn:Q; cbn; congruence.
Qed.
Lemma draw_good : good_handler draw_command.
Proof.
  apply typed_good. intros e x r H. destruct (tile_change DRAW_INDICATOR e) as [[p t]|].
  - eapply hand_update_good. exact H.
  - apply Ok_inj in H. subst. split; [reflexivity|constructor].
Qed.
Lemma discard_good : good_handler discard_command.
Proof.
  apply typed_good. intros e x r H. destruct (tile_change DISCARD_INDICATOR e) as [[p t]|].
  - peelb H. apply Ok_inj in H. subst r. destruct (hand_update_good _ _ _ _ _ E1) as [A B].
    apply tile_str_list_texts in E. destruct E as [ts [_ ->]].
    split; [exact A|]. cbn [fst]. ok_list. exact B.
  - apply Ok_inj in H. subst. split; [reflexivity|constructor].
Qed.
Lemma oya_good x i l : set_oya_command_yield x i = Ok l -> Forall ok_cmd l.
Proof.
  unfold set_oya_command_yield. intro H. peelb H. apply Ok_inj in H. subst l. apply Forall_map. apply Forall_forall. intros q _. ok_list.
Qed.
Lemma init_player_good e p x r : init_player e p x = Ok r -> good_result x r.
Proof.
  unfold init_player. intro H. peelb H. apply Ok_inj in H. subst r. destruct (hand_update_good _ _ _ _ _ E3) as [A B].
  split; [exact A|]. cbn [fst]. ok_list. exact B.
Qed.
Lemma init_players_good e ps : forall x r, init_players e ps x = Ok r -> good_result x r.
Proof.
  induction ps as [|p ps IH]; intros x r H; cbn [init_players] in H.
  - apply Ok_inj in H. subst. split; [reflexivity|constructor].
  - peelb H. apply Ok_inj in H. subst r. destruct (init_player_good _ _ _ _ E) as [A B]. destruct (IH _ _ E0) as [C D].
    split; [cbn [snd]; congruence|]. cbn [fst]. apply Forall_app. auto.
Qed.
Lemma init_good : good_handler game_init_command.
Proof.
  apply typed_good. intros e x r H. peelb H.
  match type of H with (match ?l with _ => _ end) = _ => destruct l as [|prevailing [|game_index [|]]]; try discriminate H end. peelb H. apply Ok_inj in H. subst r.
  match goal with K : init_players _ _ _ = Ok _ |- _ => destruct (init_players_good _ _ _ _ K) as [A B] end.
  match goal with K : set_oya_command_yield _ _ = Ok _ |- _ => apply oya_good in K end.
  match goal with K : tile_str_list _ = Ok _ |- _ => apply tile_str_list_texts in K; destruct K as [ts [_ ->]] end.
  split; [exact A|]. cbn [fst]. ok_list; assumption.
Qed.
Lemma open_good : good_handler (open_hand set_order).
Proof.
  apply typed_good. intros e x r H. peelb H. apply Ok_inj in H. subst r. destruct (hand_update_good _ _ _ _ _ E4) as [A B].
  apply tile_str_list_texts in E2, E3. destruct E2 as [ts [_ ->]], E3 as [ts' [_ ->]].
  split; [exact A|]. cbn [fst]. ok_list; [|exact B]. match goal with |- context [m_class ?m] => destruct (m_class m) end; ok_list.
Qed.
Lemma go_good : good_handler game_type_command.
Proof.
  apply typed_good. intros e x r H. peelb H. cbv zeta in H. apply Ok_inj in H. subst r. split; [reflexivity|]. cbn [fst]. ok_list.
Qed.
Lemma taikyoku_good : good_handler set_oya_command.
Proof.
  apply typed_good. intros e x r H. peelb H. apply Ok_inj in H. subst r. split; [reflexivity|]. eapply oya_good. exact E1.
Qed.
Lemma mapM_concat_good {A} (f : A -> res (list command)) l ls : mapM f l = Ok ls ->
  (forall a r, f a = Ok r -> Forall ok_cmd r) -> Forall ok_cmd (concat ls).
Proof.
  intros H F. revert ls H. induction l as [|a l IH]; intros ls H; cbn [mapM] in H; [apply Ok_inj in H; subst; constructor|].
  peelb H. apply Ok_inj in H. subst ls. cbn [concat]. apply Forall_app. split; [eapply F; exact E|apply IH; reflexivity].
Qed.
Lemma un_good : good_handler (set_player_command unquote).
Proof.
  apply typed_good. intros e x r H. peelb H. cbv zeta in H. peelb H. apply Ok_inj in H. subst r. split; [reflexivity|]. cbn [fst].
  apply (mapM_concat_good _ _ _ E1). intros p l' H. unfold set_player in H.
  destruct (lookup _ _); [|apply Ok_inj in H; subst; constructor]. destruct (not_blank t); [|apply Ok_inj in H; subst; constructor].
  peelb H. apply Ok_inj in H. subst l'. ok_list; [|destruct (has_attr e (t_ "rate")); ok_list].
  destruct (has_attr e (t_ "dan")); [|apply Ok_inj in E5; subst; constructor].
  match type of E5 with (match ?n with _ => _ end) = _ => destruct n; [|discriminate E5] end. peelb E5. apply Ok_inj in E5. subst. ok_list.
Qed.
Lemma dora_good : good_handler dora_command.
Proof.
  apply typed_good. intros e x r H. peelb H. apply Ok_inj in H. subst r. apply tile_str_list_texts in E1. destruct E1 as [ts [_ ->]].
  split; [reflexivity|]. cbn [fst]. ok_list.
Qed.
Lemma reach_good : good_handler richii_command.
Proof.
  apply typed_good. intros e x r H. peelb H. apply Ok_inj in H. subst r. split; [reflexivity|]. cbn [fst].
  destruct (text_eqb _ _); [ok_list|]. destruct (text_eqb _ _); ok_list.
Qed.
Lemma finish_good x f p sc y e l : game_finish x f p sc y e = Ok l -> Forall ok_cmd l.
Proof.
  unfold game_finish. intro H. peelb H. apply Ok_inj in H. subst l. apply Forall_app. split.
  - apply (mapM_concat_good _ _ _ E0). intros q r H. unfold finish_player in H. peelb H. cbv zeta in H. apply Ok_inj in H. subst r.
    ok_list. destruct sc; [|apply Ok_inj in E2; subst; constructor]. peelb E2. apply Ok_inj in E2. subst. ok_list.
  - unfold finals_commands in E1. destruct (lookup _ _); [|apply Ok_inj in E1; subst; constructor].
    peelb E1. cbv zeta in E1. peelb E1. apply Ok_inj in E1. subst. apply (mapM_concat_good _ _ _ E3).
    intros q r H. peelb H. cbv zeta in H. apply Ok_inj in H. subst r. ok_list.
Qed.
Lemma agari_good : good_handler agari_command.
Proof.
  apply typed_good. intros e x r H. peelb H. apply Ok_inj in H. subst r. split; [reflexivity|]. cbn [fst].
  match goal with K : game_finish _ _ _ _ _ _ = Ok _ |- _ => apply finish_good in K end. ok_list. assumption.
Qed.
Lemma shuffle_good : good_handler shuffle_command.
Proof. apply typed_good. intros e x r H. peelb H. apply Ok_inj in H. subst r. split; [reflexivity|]. cbn [fst]. ok_list. Qed.
Lemma bye_good : good_handler disconnected_command.
Proof. apply typed_good. intros e x r H. peelb H. apply Ok_inj in H. subst r. split; [reflexivity|]. cbn [fst]. ok_list. Qed.
Lemma nowin_good : good_handler no_win_command.
Proof.
  apply typed_good. intros e x r H. peelb H. apply Ok_inj in H. subst r. split; [reflexivity|]. cbn [fst].
  match goal with K : game_finish _ _ _ _ _ _ = Ok _ |- _ => apply finish_good in K end. ok_list. assumption.
Qed.
Lemma handle_good : good_handler (handle).
Proof.
  intros e x r H. unfold handle in H. destruct (hfind handlers (tag e)) as [h|] eqn:F.
  - apply hfind_in in F. cbn [handlers In] in F.
    repeat (destruct F as [F|F]; [injection F as _ <-|]); [| | | | | | | | | | |destruct F]; revert e x r H;
      [exact init_good|exact open_good|exact go_good|exact taikyoku_good|exact un_good|exact dora_good|exact reach_good
      |exact agari_good|exact shuffle_good|exact bye_good|exact nowin_good].
  - unfold default_handle in H. destruct (draw_command e x) as [v|] eqn:D; cbn [bindr] in H; [|discriminate].
    pose proof (draw_good _ _ _ D) as [[A B] C]. destruct (fst v) eqn:Q.
    + destruct (discard_command e (snd v)) as [w|] eqn:D2; cbn [bindr] in H; [|discriminate]. apply Ok_inj in H. subst w.
      destruct (discard_good _ _ _ D2) as [[A2 B2] C2]. split; [|exact C2]. split; [congruence|exact B2].
    + apply Ok_inj in H. subst v. split; [split|]; [exact A|rewrite Q; exact B|rewrite Q; exact C].
Qed.
End Handlers.
