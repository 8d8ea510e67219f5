(** C72-C77: the settings of the table, the header of a deal, the players and riichi in the
    universal format. *)
From Verif Require Import Base Category CategoryProofs Tile Parse Text Tenhou TenhouProofs Spec_Tile Spec_Meld MeldProofs Prop_Meld Event Const Reader State Spec_Log StateProofs Prop_State Value Universe Translator TenhouCommands
  Transfer Spec_Transfer Spec_Universe UniverseProofs Prop_Executor CommandProofs Prop_Commands Spec_Play CommandState CommandPlay PlaySteps PlayProofs FinishProofs Spec_Score Prop_Play Prop_Score Spec_Header.
From Verif Require Prop_Const.
From Coq Require Import String List ZArith Lia Bool Permutation.
Import ListNotations.
Open Scope list_scope.
Open Scope Z_scope.

Section Header.
Context (unquote : text -> text) (so : list Z -> list Z) (strict : bool).
Local Notation tr := (tenhou_command unquote so).
Local Notation handle := (handle unquote so).

(** ** The last event that matters *)
Definition keeps (e : event) (s : sub) (v : Universe.view) : Prop :=
  forall i x cmds x', call tr strict e i x = Ok (cmds, x') -> val_at x' s v = val_at x s v.
Lemma last_run before e after : forall cmds x, call_all tr strict 0 (before ++ e :: after) empty_ctx = Ok (cmds, x) ->
  exists c1 x1 i c2 x2, call_all tr strict 0 before empty_ctx = Ok (c1, x1) /\ call tr strict e i x1 = Ok (c2, x2) /\
    forall s v, Forall (fun e' => keeps e' s v) after -> val_at x s v = val_at x2 s v.
Proof.
  induction after as [|e' after IH] using rev_ind; intros cmds x H.
  - destruct (run_snoc _ _ _ _ _ _ _ H) as [c1 [x1 [i [c2 [H1 H2]]]]]. exists c1, x1, i, c2, x. split; [exact H1|]. split; [exact H2|]. reflexivity.
  - replace (before ++ e :: after ++ [e']) with ((before ++ e :: after) ++ [e']) in H by now rewrite <- app_assoc.
    destruct (run_snoc _ _ _ _ _ _ _ H) as [c1 [x1 [i [c2 [H1 H2]]]]]. destruct (IH _ _ H1) as (d1 & y1 & j & d2 & y2 & A & B & C).
    exists d1, y1, j, d2, y2. split; [exact A|]. split; [exact B|]. intros s v F. apply Forall_app in F. destruct F as [F1 F2]. inversion F2; subst.
    rewrite <- (C s v F1). eauto.
Qed.
Lemma keeps_deeds e s v : (forall x raw x', handle e x = Ok (raw, x') -> deeds (s, v) raw = []) -> keeps e s v.
Proof.
  intros G i x cmds x' H. destruct (call_inv unquote so _ _ _ _ _ _ H) as [raw [x1 [Hh [_ [_ [_ D]]]]]]. specialize (D (s, v)).
  rewrite (G _ _ _ Hh) in D. cbn [run_deeds] in D. unfold val_at. congruence.
Qed.
Lemma keeps_view e s v : existsb (view_eqb v) (event_views (tag e)) = false -> keeps e s v.
Proof. intro N. apply keeps_deeds. intros x raw x' Hh. exact (untouched _ _ _ _ _ _ _ _ Hh N). Qed.
(** Only events of the tags [ts] can touch [v]. *)
Ltac by_tags := unfold event_views, other_views, views_for; repeat match goal with
  | |- context [text_eqb ?a ?t] => destruct (text_eqb a t) eqn:?; [match goal with K : text_eqb a t = true |- _ => apply text_eqb_iff in K; first [exfalso; subst; congruence | reflexivity] end|]
  end; try reflexivity.
Lemma untagged t e : ~ tagged t e -> tag e <> t. Proof. exact (fun H => H). Qed.
Lemma set_after e s v w i x cmds x' : call tr strict e i x = Ok (cmds, x') ->
  (forall raw x1, handle e x = Ok (raw, x1) -> exists u, deeds (s, v) raw = [(u, w)] /\ (u = U_REPLACE \/ u = U_ASSERT_EQUAL_OR_SET)) ->
  val_at x' s v = Some w.
Proof.
  intros H G. destruct (call_inv unquote so _ _ _ _ _ _ H) as [raw [x1 [Hh [_ [_ [_ D]]]]]]. specialize (D (s, v)). destruct (G _ _ Hh) as [u [Q C]].
  rewrite Q in D. unfold val_at. destruct C as [->| ->]; cbn [run_deeds execute_new_value c_update c_value bindr] in D; apply Ok_inj in D; exact D.
Qed.

(** ** Settings *)
Definition settings : list Universe.view :=
  [RV_play_level; RV_show_discard_shadow; RV_play_wind_count; RV_allow_tanyao_open; RV_speed_up; RV_player_count; RV_using_tiles].
Lemma settings_view v t : In v settings -> t <> t_ "GO" -> existsb (view_eqb v) (event_views t) = false.
Proof. intros I0 T. repeat (destruct I0 as [<-|I0]; [by_tags|]). destruct I0. Qed.
Lemma level_at g (tips : bool) : 0 <= g < 4 -> exists c, py_nth (if tips then LEVELS_TIPS else LEVELS) g = Ok c /\ nth_error (level_names tips) (Z.to_nat g) = Some [c].
Proof.
  intro G. assert (C : g = 0 \/ g = 1 \/ g = 2 \/ g = 3) by lia. destruct C as [->|[->|[->| ->]]]; destruct tips; eexists; split; reflexivity.
Qed.
Lemma go_values e i x cmds x' v : tag e = t_ "GO" -> call tr strict e i x = Ok (cmds, x') -> holds e (t_ "type") (str_int v) ->
  exists level, nth_error (level_names (flag v 9)) (Z.to_nat (2 * field v 5 1 + field v 7 1)) = Some level /\
  val_at x' sub_all RV_play_level = Some (VStr level) /\
  val_at x' sub_all RV_show_discard_shadow = Some (VBool (flag v 8)) /\
  val_at x' sub_all RV_play_wind_count = Some (VInt (if flag v 3 then 2 else 1)) /\
  val_at x' sub_all RV_allow_tanyao_open = Some (VBool (negb (flag v 2))) /\
  val_at x' sub_all RV_speed_up = Some (VBool (flag v 6)) /\
  val_at x' sub_all RV_player_count = Some (VInt (if flag v 4 then 3 else 4)) /\
  val_at x' sub_all RV_using_tiles = Some (texts (initial_tiles (if flag v 4 then 3 else 4) (negb (flag v 1)))) /\
  exists c, new_subcat [(if flag v 3 then 2 else 1) + 1; 4] = Ok c /\ x_indexer x' = Some c.
Proof.
  intros T H Hv. destruct (call_inv unquote so _ _ _ _ _ _ H) as [raw [x1 [Hh [_ [IX [_ D]]]]]].
  unfold CommandProofs.handle in Hh.
  replace (hfind (handlers unquote so) (tag e)) with (Some game_type_command) in Hh by (rewrite T; reflexivity).
  unfold game_type_command, default_event_type in Hh. rewrite (holds_attr _ _ _ Hv) in Hh. cbn [bindr] in Hh. rewrite py_int_str in Hh. cbn [bindr] in Hh.
  peelb Hh. apply Ok_inj in Hh. injection Hh as -> ->. peelb E. cbv zeta in E. apply Ok_inj in E. subst v0. cbn [fst snd] in D, IX.
  rename v1 into g, v2 into c, v3 into lv.
  assert (R : 0 <= v < 65536).
  { destruct (Z_le_dec 0 v), (Z_lt_dec v 65536); try (split; assumption); exfalso; rewrite C28_rejected in E0 by lia; discriminate. }
  destruct (C28_flags v R) as [g' [G [F1 [F2 [F3 [F4 [F5 [F6 [F7 [F8 _]]]]]]]]]]. assert (g' = g) by congruence. subst g'.
  pose proof (field_bounds v 5 1 ltac:(lia)) as B5. pose proof (field_bounds v 7 1 ltac:(lia)) as B7. change (2 ^ 1) with 2 in *.
  destruct (level_at (2 * field v 5 1 + field v 7 1) (flag v 9) ltac:(lia)) as [c0 [L1 L2]]. rewrite F8, F5, L1 in E2. apply Ok_inj in E2. subst lv.
  exists [c0]. split; [exact L2|]. rewrite F1, F2, F3, F4, F6, F7 in *.
  assert (V : forall p w, deeds (sub_all, p) (map (fun c1 => with_event c1 E_record_init)
     [cmd RV_play_level U_REPLACE sub_all (VStr [c0]) None; cmd RV_show_discard_shadow U_REPLACE sub_all (VBool (flag v 8)) None;
      cmd RV_play_wind_count U_REPLACE sub_all (VInt (if flag v 3 then 2 else 1)) None;
      cmd RV_allow_tanyao_open U_REPLACE sub_all (VBool (negb (flag v 2))) None; cmd RV_speed_up U_REPLACE sub_all (VBool (flag v 6)) None;
      cmd RV_player_count U_REPLACE sub_all (VInt (if flag v 4 then 3 else 4)) None;
      cmd RV_using_tiles U_REPLACE sub_all (texts (initial_tiles (if flag v 4 then 3 else 4) (negb (flag v 1)))) None]) = [(U_REPLACE, w)] -> val_at x' sub_all p = Some w).
  { intros p w Q. specialize (D (sub_all, p)). rewrite Q in D. cbn [run_deeds execute_new_value c_update c_value bindr] in D. apply Ok_inj in D. exact D. }
  split; [apply V; rewrite typed_deeds; reflexivity|]. split; [apply V; rewrite typed_deeds; reflexivity|]. split; [apply V; rewrite typed_deeds; reflexivity|].
  split; [apply V; rewrite typed_deeds; reflexivity|]. split; [apply V; rewrite typed_deeds; reflexivity|]. split; [apply V; rewrite typed_deeds; reflexivity|].
  split; [apply V; rewrite typed_deeds; reflexivity|]. exists c. split; [exact E1|exact IX].
Qed.

(** ** The counter of rounds *)
Lemma typed_indexer t (h : handler) e x raw x' : (forall r, h e x = Ok r -> x_indexer (snd r) = x_indexer x) ->
  default_event_type t h e x = Ok (raw, x') -> x_indexer x' = x_indexer x.
Proof. intros G H. unfold default_event_type in H. peelb H. apply Ok_inj in H. injection H as _ ->. exact (G _ eq_refl). Qed.
Lemma hand_indexer u p l x r : hand_update u p l x = Ok r -> x_indexer (snd r) = x_indexer x.
Proof. unfold hand_update. intro H. peelb H. apply Ok_inj in H. subst r. reflexivity. Qed.
Lemma init_indexer e : forall ps x r, init_players e ps x = Ok r -> x_indexer (snd r) = x_indexer x.
Proof.
  induction ps as [|p ps IH]; intros x r H; cbn [init_players] in H; [apply Ok_inj in H; subst; reflexivity|].
  peelb H. apply Ok_inj in H. subst r. cbn [snd]. rewrite (IH _ _ E0). unfold init_player in E. peelb E. apply Ok_inj in E. subst v. cbn [snd].
  match goal with K : hand_update _ _ _ _ = Ok _ |- _ => exact (hand_indexer _ _ _ _ _ K) end.
Qed.
Lemma indexer_kept e i x cmds x' : tag e <> t_ "GO" -> call tr strict e i x = Ok (cmds, x') -> x_indexer x' = x_indexer x.
Proof.
  intros T H. destruct (call_inv unquote so _ _ _ _ _ _ H) as [raw [x1 [Hh [_ [IX _]]]]]. rewrite IX. clear IX H x'. unfold CommandProofs.handle in Hh.
  destruct (hfind (handlers unquote so) (tag e)) as [h|] eqn:F.
  - apply hfind_in in F. cbn [handlers In] in F.
    repeat (destruct F as [F|F]; [injection F as F <-|]); [| |congruence| | | | | | | | |destruct F]; revert Hh; apply typed_indexer; intros r H; peelb H.
    + match type of H with (match ?l with _ => _ end) = _ => destruct l as [|? [|? [|]]]; try discriminate H end. peelb H. apply Ok_inj in H. subst r. cbn [snd].
      match goal with K : init_players _ _ _ = Ok _ |- _ => exact (init_indexer _ _ _ _ K) end.
    + apply Ok_inj in H. subst r. cbn [snd]. match goal with K : hand_update _ _ _ _ = Ok _ |- _ => exact (hand_indexer _ _ _ _ _ K) end.
    + apply Ok_inj in H. subst r. reflexivity.
    + cbv zeta in H. peelb H. apply Ok_inj in H. subst r. reflexivity.
    + apply Ok_inj in H. subst r. reflexivity.
    + apply Ok_inj in H. subst r. reflexivity.
    + apply Ok_inj in H. subst r. reflexivity.
    + apply Ok_inj in H. subst r. reflexivity.
    + apply Ok_inj in H. subst r. reflexivity.
    + apply Ok_inj in H. subst r. reflexivity.
  - unfold default_handle in Hh. peelb Hh. destruct v as [l1 y1]. cbn [fst snd] in *.
    assert (A : x_indexer y1 = x_indexer x).
    { revert E. apply typed_indexer. intros r H. destruct (tile_change _ _) as [[p t]|]; [exact (hand_indexer _ _ _ _ _ H)|apply Ok_inj in H; subst; reflexivity]. }
    destruct l1; [|apply Ok_inj in Hh; injection Hh as _ ->; exact A]. peelb Hh. apply Ok_inj in Hh. subst v. rewrite <- A.
    revert E0. apply typed_indexer. intros r H. destruct (tile_change _ _) as [[p t]|]; [|apply Ok_inj in H; subst; reflexivity].
    peelb H. apply Ok_inj in H. subst r. cbn [snd]. match goal with K : hand_update _ _ _ _ = Ok _ |- _ => exact (hand_indexer _ _ _ _ _ K) end.
Qed.
Lemma go_type e i x cmds x' : tag e = t_ "GO" -> call tr strict e i x = Ok (cmds, x') -> exists n c, 0 < n /\ new_subcat [n; 4] = Ok c /\ x_indexer x' = Some c.
Proof.
  intros T H. destruct (call_inv unquote so _ _ _ _ _ _ H) as [raw [x1 [Hh [_ [IX _]]]]]. unfold CommandProofs.handle in Hh.
  replace (hfind (handlers unquote so) (tag e)) with (Some game_type_command) in Hh by (rewrite T; reflexivity).
  unfold game_type_command, default_event_type in Hh. peelb Hh. apply Ok_inj in Hh. injection Hh as -> ->. peelb E. cbv zeta in E. apply Ok_inj in E. subst v.
  cbn [snd x_indexer] in IX. eexists. eexists. split; [|split; [eassumption|exact IX]]. unfold play_wind_count. destruct (gt_flag _ _); lia.
Qed.
Lemma indexer_shape es : forall cmds x c, call_all tr strict 0 es empty_ctx = Ok (cmds, x) -> x_indexer x = Some c -> exists n, 0 < n /\ new_subcat [n; 4] = Ok c.
Proof.
  induction es as [|e es IH] using rev_ind; intros cmds x c H X.
  - cbn in H. apply Ok_inj in H. injection H as -> ->. discriminate X.
  - destruct (run_snoc _ _ _ _ _ _ _ H) as [c1 [x1 [i [c2 [H1 H2]]]]]. destruct (text_eqb (tag e) (t_ "GO")) eqn:T.
    + apply text_eqb_iff in T. destruct (go_type _ _ _ _ _ T H2) as (n & c' & N & A & B). exists n. split; [exact N|]. congruence.
    + assert (N : tag e <> t_ "GO") by (intro K; rewrite K, text_eqb_refl in T; discriminate). rewrite (indexer_kept _ _ _ _ _ N H2) in X. eauto.
Qed.
Lemma new_sub4 n c : 0 < n -> new_subcat [n; 4] = Ok c -> c = mkSub [4; n] (Some (4 * (n * 1))).
Proof.
  intros N H. unfold new_subcat in H. cbn [forallb] in H. replace (0 <? 4) with true in H by reflexivity. cbn [andb] in H.
  replace (n =? -1) with false in H by (symmetry; apply Z.eqb_neq; lia). replace (0 <? n) with true in H by (symmetry; apply Z.ltb_lt; lia).
  cbn [orb rev app fold_right] in H. apply Ok_inj in H. exact H.
Qed.
Lemma round_of n c r l : 0 < n -> new_subcat [n; 4] = Ok c -> 0 <= r -> sub_category c r = Ok l -> r < 4 * n /\ l = [r / 4; r mod 4].
Proof.
  intros N H R Q. apply (new_sub4 _ _ N) in H. subst c. unfold sub_category in Q. cbn [sc_max sc_totals] in Q.
  destruct (r <? 4 * (n * 1)) eqn:L; [|discriminate]. apply Z.ltb_lt in L. apply Ok_inj in Q. subst l. split; [lia|].
  cbn [category_iter]. replace (4 =? -1) with false by reflexivity. replace (n =? -1) with false by (symmetry; apply Z.eqb_neq; lia). cbn [negb rev app].
  f_equal. rewrite Z.mod_small; [reflexivity|]. split; [apply Z.div_pos; lia|apply Z.div_lt_upper_bound; lia].
Qed.

(** ** The header of a deal *)
Definition headers : list Universe.view := [GV_wind; GV_round; GV_sub_round; GV_richii_remain_scores].
Lemma headers_view v t : In v headers -> t <> t_ "INIT" -> existsb (view_eqb v) (event_views t) = false.
Proof. intros I0 T. repeat (destruct I0 as [<-|I0]; [by_tags|]). destruct I0. Qed.
Lemma init_header e x raw x' l : tag e = t_ "INIT" -> handle e x = Ok (raw, x') -> holds e (t_ "seed") (comma_list l) -> l <> [] ->
  exists c r honba sticks wind round, x_indexer x = Some c /\ nth_error l 0 = Some r /\ nth_error l 1 = Some honba /\ nth_error l 2 = Some sticks /\
    sub_category c r = Ok [wind; round] /\
    deeds (sub_all, GV_wind) raw = [(U_REPLACE, VInt wind)] /\ deeds (sub_all, GV_round) raw = [(U_REPLACE, VInt round)] /\
    deeds (sub_all, GV_sub_round) raw = [(U_REPLACE, VInt honba)] /\ deeds (sub_all, GV_richii_remain_scores) raw = [(U_REPLACE, VInt (1000 * sticks))].
Proof.
  intros T H Hs Ne. unfold CommandProofs.handle in H.
  replace (hfind (handlers unquote so) (tag e)) with (Some (game_init_command)) in H by (rewrite T; reflexivity).
  unfold game_init_command, default_event_type in H. rewrite (holds_attr _ _ _ Hs) in H. cbn [bindr] in H. rewrite (number_list_comma _ Ne) in H. cbn [bindr] in H.
  peelb H. apply Ok_inj in H. injection H as -> ->. peelb E.
  match type of E with (match ?l with _ => _ end) = _ => destruct l as [|wind [|round [|]]]; try discriminate E end.
  peelb E. apply Ok_inj in E. subst v. cbn [fst snd].
  repeat match goal with K : py_nth (map NInt l) ?k = Ok ?n |- _ => first [apply (py_nth_some _ _ _ (ltac:(lia) : 0 <= k)) in K; rewrite nth_error_map in K | clear K] end.
  destruct (x_indexer x) as [c|]; [|discriminate]. apply Ok_inj in E0. subst c.
  change (Z.to_nat 0) with 0%nat in *. change (Z.to_nat 1) with 1%nat in *. change (Z.to_nat 2) with 2%nat in *.
  destruct (nth_error l 0) as [r|] eqn:N0; [|discriminate]. destruct (nth_error l 1) as [honba|] eqn:N1; [|discriminate]. destruct (nth_error l 2) as [sticks|] eqn:N2; [|discriminate].
  cbn [option_map] in *.
  repeat match goal with K : Some _ = Some _ |- _ => injection K as <- end.
  match goal with K : num_int (NInt r) = Ok _ |- _ => cbn in K; apply Ok_inj in K; subst end.
  do 6 eexists. split; [reflexivity|]. split; [reflexivity|]. split; [reflexivity|]. split; [reflexivity|]. split; [eassumption|].
  match goal with K : init_players _ _ _ = Ok ?ps |- _ => destruct ps as [lp xp]; rename K into IP end.
  destruct (init_players_deeds _ _ _ _ _ (zrange_nodup 0 _) IP) as [_ G]. destruct (G 0) as [_ [_ G3]]. cbn [fst snd].
  match goal with K : set_oya_command_yield _ _ = Ok ?o |- _ => rename K into OY; rename o into oyas end.
  assert (OD : forall v, v <> PV_is_dealer -> deeds (sub_all, v) oyas = []).
  { intros w K. apply deeds_none. apply oya_props in OY. eapply Forall_impl; [|exact OY]. intros q [Q|[]]. cbn. congruence. }
  rewrite !typed_deeds, !deeds_app, !OD, !G3 by discriminate. unfold VInt. rewrite (Z.mul_comm 1000). repeat split.
Qed.
(** ** The dealer *)
Lemma oya_deeds x n oya l p : set_oya_command_yield x oya = Ok l -> ctx_player_count x = Ok n -> 0 <= p < n ->
  deeds (SId p, PV_is_dealer) l = [(U_REPLACE, VBool (oya =? p))].
Proof.
  intros H N P. unfold set_oya_command_yield in H. rewrite N in H. cbn [bindr] in H. apply Ok_inj in H. subst l.
  assert (I0 : In p (zrange 0 n)) by (apply in_zrange; lia). revert I0. generalize (zrange_nodup 0 n). generalize (zrange 0 n). clear.
  intros l N. induction N as [|q l N1 N2 IH]; intro I0; [destruct I0|]. cbn [map]. rewrite deeds_cons. unfold deeds at 1, about. cbn [filter cmd c_sub c_prop fst snd sub_eqb].
  destruct (q =? p) eqn:Q.
  - apply Z.eqb_eq in Q. subst q. cbn [andb view_eqb map c_update c_value app]. change (view_eqb PV_is_dealer PV_is_dealer) with true. cbn [map app c_update c_value]. f_equal.
    clear IH I0 N2. induction l as [|r l IH]; [reflexivity|]. cbn [map]. rewrite deeds_cons, IH by (intro K; apply N1; now right).
    unfold deeds, about. cbn [filter cmd c_sub c_prop fst snd sub_eqb]. replace (r =? p) with false; [reflexivity|]. symmetry. apply Z.eqb_neq. intros ->. apply N1. now left.
  - cbn [andb map app]. apply IH. destruct I0 as [->|I0]; [rewrite Z.eqb_refl in Q; discriminate|exact I0].
Qed.
Lemma dealer_set e x raw x' n oya p : tag e = t_ "INIT" \/ tag e = t_ "TAIKYOKU" -> handle e x = Ok (raw, x') -> ctx_player_count x = Ok n -> 0 <= p < n ->
  holds e (t_ "oya") (str_int oya) -> deeds (SId p, PV_is_dealer) raw = [(U_REPLACE, VBool (oya =? p))].
Proof.
  intros [T|T] H N P Ho.
  - destruct (handle_deal _ _ _ _ _ _ T H) as (n' & seed & oya' & dd & dora & N' & _ & _ & _ & _ & _ & _ & _ & _ & [o [A B]] & D).
    rewrite N in N'. apply Ok_inj in N'. subst n'. rewrite (holds_attr _ _ _ Ho) in A. apply Ok_inj in A. subst o. rewrite py_int_str in B. apply Ok_inj in B. subst oya'.
    rewrite D. replace (existsb (Z.eqb p) (zrange 0 n)) with true; [reflexivity|]. symmetry. apply existsb_exists. exists p. split; [apply in_zrange; lia|apply Z.eqb_refl].
  - unfold CommandProofs.handle in H. replace (hfind (handlers unquote so) (tag e)) with (Some set_oya_command) in H by (rewrite T; reflexivity).
    unfold set_oya_command, default_event_type in H. rewrite (holds_attr _ _ _ Ho) in H. cbn [bindr] in H. rewrite py_int_str in H. cbn [bindr] in H.
    peelb H. apply Ok_inj in H. injection H as -> ->. peelb E. apply Ok_inj in E. subst v. rewrite typed_deeds. cbn [fst]. eapply oya_deeds; eassumption.
Qed.
Lemma dealer_view t : t <> t_ "INIT" -> t <> t_ "TAIKYOKU" -> existsb (view_eqb PV_is_dealer) (event_views t) = false.
Proof. intros A B. by_tags. Qed.
Lemma count_ok e i x cmds x' : tag e = t_ "INIT" \/ tag e = t_ "TAIKYOKU" -> call tr strict e i x = Ok (cmds, x') -> exists n, ctx_player_count x = Ok n.
Proof.
  intros T H. destruct (call_inv unquote so _ _ _ _ _ _ H) as [raw [x1 [Hh _]]]. destruct T as [T|T].
  - destruct (handle_deal _ _ _ _ _ _ T Hh) as (n & _ & _ & _ & _ & N & _). eauto.
  - unfold CommandProofs.handle in Hh. replace (hfind (handlers unquote so) (tag e)) with (Some set_oya_command) in Hh by (rewrite T; reflexivity).
    unfold set_oya_command, default_event_type in Hh. peelb Hh. peelb E. unfold set_oya_command_yield in *. destruct (ctx_player_count x); [eauto|discriminate].
Qed.

(** ** Players *)
Lemma py_space_iff c : py_space c = true <-> space c.
Proof.
  unfold py_space, space. rewrite !orb_true_iff, !andb_true_iff, !Z.leb_le, !Z.eqb_eq. cbn [In]. lia.
Qed.
Lemma not_blank_iff s : not_blank s = true <-> exists c, In c s /\ ~ space c.
Proof.
  unfold not_blank. rewrite existsb_exists. split; intros [c [I0 H]]; exists c; (split; [exact I0|]).
  - apply negb_true_iff in H. rewrite <- py_space_iff. congruence.
  - apply negb_true_iff. apply not_true_iff_false. now rewrite py_space_iff.
Qed.
Lemma un_deeds e x raw x' p : tag e = t_ "UN" -> seat p -> handle e x = Ok (raw, x') ->
  (~ announced p e -> forall v, deeds (SId p, v) raw = []) /\
  forall s, announces p s e ->
    deeds (SId p, PV_name) raw = [(U_ASSERT_EQUAL_OR_SET, VStr (unquote s))] /\
    deeds (SId p, PV_disconnected) raw = [(U_REPLACE, VBool false)] /\
    (~ says (t_ "dan") e -> deeds (SId p, PV_level) raw = []) /\
    (forall d, holds e (t_ "dan") d -> exists l i name, number_list d = Ok l /\ py_nth l p = Ok (NInt i) /\ py_nth RANKS i = Ok name /\
       deeds (SId p, PV_level) raw = [(U_REPLACE, VStr name)]) /\
    (~ says (t_ "rate") e -> deeds (SId p, PV_extra_level) raw = []) /\
    (forall d, holds e (t_ "rate") d -> exists l r, number_list d = Ok l /\ py_nth l p = Ok r /\ deeds (SId p, PV_extra_level) raw = [(U_REPLACE, VNum r)]).
Proof.
  intros T P H. unfold CommandProofs.handle in H. replace (hfind (handlers unquote so) (tag e)) with (Some (set_player_command unquote)) in H by (rewrite T; reflexivity).
  unfold set_player_command, default_event_type in H. peelb H. apply Ok_inj in H. injection H as -> ->. peelb E. cbv zeta in E. peelb E. apply Ok_inj in E. subst v.
  cbn [fst]. rename v0 into dan, v1 into rate, v2 into ls.
  assert (G : forall q r, set_player unquote e dan rate (split_on 44 (get_list_attr (t_ "sx") e)) q = Ok r -> Forall (fun c => c_sub c = SId q) r).
  { intros q r H. unfold set_player in H. destruct (lookup _ _); [|apply Ok_inj in H; subst; constructor]. destruct (not_blank t); [|apply Ok_inj in H; subst; constructor].
    peelb H. apply Ok_inj in H. subst r. apply Forall_app. split; [repeat constructor|]. apply Forall_app. split; [|destruct (has_attr e (t_ "rate")); repeat constructor].
    destruct (has_attr e (t_ "dan")); [|match goal with K : Ok [] = Ok _ |- _ => apply Ok_inj in K; subst; constructor end].
    match goal with K : (match ?n with _ => _ end) = Ok _ |- _ => destruct n; [|discriminate K]; peelb K; apply Ok_inj in K; subst; repeat constructor end. }
  assert (I0 : In p [0; 1; 2; 3]) by (unfold seat in P; cbn; lia).
  assert (ND : NoDup [0; 1; 2; 3]) by (repeat constructor; cbn; lia).
  destruct (concat_deeds _ _ _ p E2 ND G) as [_ K]. destruct (K I0) as [r [R1 R2]]. clear K G E2 ND I0.
  unfold set_player in R1. split.
  - intros NA v. rewrite typed_deeds, R2. destruct (lookup _ _) as [s|] eqn:L; [|apply Ok_inj in R1; subst r; reflexivity].
    destruct (not_blank s) eqn:NB; [|apply Ok_inj in R1; subst r; reflexivity]. exfalso. apply NA. exists s. split; [exact T|]. split; [exact L|]. now apply not_blank_iff.
  - intros s (_ & L & NB). apply not_blank_iff in NB. unfold holds in L. rewrite L, NB in R1. peelb R1. apply Ok_inj in R1. subst r.
    rename v into level, v0 into rt, v2 into lv.
    match goal with K : (if has_attr e (t_ "dan") then _ else _) = Ok lv |- _ => rename K into E5 end.
    assert (LV : forall w, w <> PV_level -> deeds (SId p, w) lv = []).
    { intros w N. destruct (has_attr e (t_ "dan")); [|apply Ok_inj in E5; subst lv; reflexivity]. destruct level; [|discriminate E5]. peelb E5. apply Ok_inj in E5. subst lv.
      unfold deeds, about. cbn [filter cmd c_sub c_prop fst snd sub_eqb]. rewrite Z.eqb_refl. cbn [andb].
      replace (view_eqb PV_level w) with false; [reflexivity|]. symmetry. apply not_true_iff_false. rewrite view_eqb_iff. congruence. }
    assert (RT : forall w, deeds (SId p, w) (if has_attr e (t_ "rate") then [cmd PV_extra_level U_REPLACE (SId p) (VNum rt) None] else []) =
       if has_attr e (t_ "rate") && view_eqb PV_extra_level w then [(U_REPLACE, VNum rt)] else []).
    { intro w. destruct (has_attr e (t_ "rate")); [|reflexivity]. unfold deeds, about. cbn [filter cmd c_sub c_prop fst snd sub_eqb andb]. rewrite Z.eqb_refl. cbn [andb].
      destruct (view_eqb PV_extra_level w); reflexivity. }
    assert (Hd : forall w, deeds (SId p, w) [cmd PV_disconnected U_REPLACE (SId p) (VBool false) (Some E_connect_change); cmd PV_name U_ASSERT_EQUAL_OR_SET (SId p) (VStr (unquote s)) None] =
       (if view_eqb PV_disconnected w then [(U_REPLACE, VBool false)] else []) ++ (if view_eqb PV_name w then [(U_ASSERT_EQUAL_OR_SET, VStr (unquote s))] else [])).
    { intro w. unfold deeds, about. cbn [filter cmd c_sub c_prop fst snd sub_eqb]. rewrite !Z.eqb_refl. cbn [andb].
      destruct (view_eqb PV_disconnected w), (view_eqb PV_name w); reflexivity. }
    rewrite !typed_deeds, !R2, !deeds_app, !Hd, !RT, !(LV PV_name), !(LV PV_disconnected), !(LV PV_extra_level) by discriminate.
    change (view_eqb PV_disconnected PV_name) with false. change (view_eqb PV_name PV_name) with true. change (view_eqb PV_extra_level PV_name) with false.
    change (view_eqb PV_disconnected PV_disconnected) with true. change (view_eqb PV_name PV_disconnected) with false. change (view_eqb PV_extra_level PV_disconnected) with false.
    change (view_eqb PV_disconnected PV_level) with false. change (view_eqb PV_name PV_level) with false. change (view_eqb PV_extra_level PV_level) with false.
    change (view_eqb PV_disconnected PV_extra_level) with false. change (view_eqb PV_name PV_extra_level) with false. change (view_eqb PV_extra_level PV_extra_level) with true.
    rewrite !andb_false_r, !andb_true_r, !app_nil_r. cbn [app].
    assert (HA : forall n, has_attr e n = true <-> says n e).
    { intro n. unfold has_attr, says, holds. destruct (lookup n (attrib e)); split; intro Q; try discriminate; [eauto|reflexivity|destruct Q; discriminate]. }
    split; [reflexivity|]. split; [reflexivity|]. split; [|split; [|split]].
    + intro N. destruct (has_attr e (t_ "dan")) eqn:Q; [exfalso; apply N, HA, Q|]. apply Ok_inj in E5. subst lv. reflexivity.
    + intros d Hdn. unfold get_list_attr in E0. rewrite Hdn in E0. replace (has_attr e (t_ "dan")) with true in E5 by (symmetry; apply HA; exists d; exact Hdn).
      destruct level as [i|]; [|discriminate E5]. peelb E5. apply Ok_inj in E5. subst lv. exists dan, i, v. split; [exact E0|]. split; [assumption|]. split; [assumption|].
      unfold deeds, about. cbn [filter cmd c_sub c_prop fst snd sub_eqb]. rewrite Z.eqb_refl. reflexivity.
    + intro N. destruct (has_attr e (t_ "rate")) eqn:Q; [exfalso; apply N, HA, Q|]. reflexivity.
    + intros d Hdn. unfold get_list_attr in E1. rewrite Hdn in E1. replace (has_attr e (t_ "rate")) with true by (symmetry; apply HA; exists d; exact Hdn).
      exists rate, rt. split; [exact E1|]. split; [assumption|]. reflexivity.
Qed.
Lemma bye_deeds e x raw x' w p : tag e = t_ "BYE" -> handle e x = Ok (raw, x') -> holds e (t_ "who") (str_int w) ->
  deeds (SId p, PV_disconnected) raw = if w =? p then [(U_REPLACE, VBool true)] else [].
Proof.
  intros T H Hw. unfold CommandProofs.handle in H. replace (hfind (handlers unquote so) (tag e)) with (Some disconnected_command) in H by (rewrite T; reflexivity).
  unfold disconnected_command, default_event_type in H. rewrite (holds_attr _ _ _ Hw) in H. cbn [bindr] in H. rewrite py_int_str in H. cbn [bindr] in H.
  apply Ok_inj in H. apply (f_equal fst) in H. cbn [fst] in H. subst raw. rewrite typed_deeds. unfold deeds, about. cbn [filter cmd c_sub c_prop fst snd sub_eqb].
  destruct (w =? p); reflexivity.
Qed.
Lemma name_view v t : In v [PV_name; PV_level; PV_extra_level] -> t <> t_ "UN" -> existsb (view_eqb v) (event_views t) = false.
Proof. intros I0 T. repeat (destruct I0 as [<-|I0]; [by_tags|]). destruct I0. Qed.
Lemma conn_view t : t <> t_ "UN" -> t <> t_ "BYE" -> existsb (view_eqb PV_disconnected) (event_views t) = false.
Proof. intros A B. by_tags. Qed.
Lemma reach_flag e x raw x' w p s : tag e = t_ "REACH" -> handle e x = Ok (raw, x') -> holds e (t_ "who") (str_int w) -> attr e (t_ "step") = Ok s ->
  deeds (SId p, PV_in_richii) raw = if text_eqb s (t_ "1") && (w =? p) then [(U_REPLACE, VBool true)] else [].
Proof.
  intros T H Hw Hs. unfold CommandProofs.handle in H. replace (hfind (handlers unquote so) (tag e)) with (Some richii_command) in H by (rewrite T; reflexivity).
  unfold richii_command, default_event_type in H. rewrite (holds_attr _ _ _ Hw) in H. cbn [bindr] in H. rewrite py_int_str in H. cbn [bindr] in H. rewrite Hs in H. cbn [bindr] in H.
  apply Ok_inj in H. apply (f_equal fst) in H. cbn [fst] in H. subst raw. rewrite typed_deeds. destruct (text_eqb s (t_ "1")); cbn [andb].
  - unfold deeds, about. cbn [filter cmd c_sub c_prop fst snd sub_eqb]. destruct (w =? p); reflexivity.
  - destruct (text_eqb s (t_ "2")); [|reflexivity]. unfold deeds, about. cbn [filter cmd c_sub c_prop fst snd sub_eqb]. rewrite andb_false_r. reflexivity.
Qed.
Lemma reach_ok e i x cmds x' : tag e = t_ "REACH" -> call tr strict e i x = Ok (cmds, x') -> exists s, attr e (t_ "step") = Ok s.
Proof.
  intros T H. destruct (call_inv unquote so _ _ _ _ _ _ H) as [raw [x1 [Hh _]]].
  unfold CommandProofs.handle in Hh. replace (hfind (handlers unquote so) (tag e)) with (Some richii_command) in Hh by (rewrite T; reflexivity).
  unfold richii_command, default_event_type in Hh. peelb Hh. peelb E. eauto.
Qed.
Lemma riichi_view t : t <> t_ "INIT" -> t <> t_ "REACH" -> existsb (view_eqb PV_in_richii) (event_views t) = false.
Proof. intros A B. by_tags. Qed.
End Header.

Lemma text_dec (a b : text) : a = b \/ a <> b.
Proof. destruct (text_eqb a b) eqn:E; [left; now apply text_eqb_iff|right; intros ->; rewrite text_eqb_refl in E; discriminate]. Qed.

Section Runs.
Context (unquote : text -> text) (so : list Z -> list Z) (strict : bool).
Local Notation tr := (tenhou_command unquote so).
(** After a log the place holds what the last event that matters put there. *)
Lemma last_value (P : event -> Prop) e es s v w : last_such P e es ->
  (forall e', ~ P e' -> In e' es -> keeps unquote so strict e' s v) ->
  (forall before c1 x1 i c2 x2, (exists after, es = before ++ e :: after) -> call_all tr strict 0 before empty_ctx = Ok (c1, x1) -> call tr strict e i x1 = Ok (c2, x2) -> val_at x2 s v = Some w) ->
  forall cmds x, call_all tr strict 0 es empty_ctx = Ok (cmds, x) -> val_at x s v = Some w.
Proof.
  intros (before & after & -> & Pe & F) K V cmds x H. destruct (last_run _ _ _ _ _ _ _ _ H) as (c1 & x1 & i & c2 & x2 & A & B & C).
  rewrite C; [eapply V; eauto|]. rewrite Forall_forall in *. intros e' I0. apply K; [now apply F|]. apply in_or_app. right. now right.
Qed.
Lemma has_seat_before p before after : has_seat p (before ++ after) -> has_seat p before.
Proof. intros H e I0. apply H. apply in_or_app. now left. Qed.
End Runs.

(** ** C72: the settings are those of the last GO event. *)
Theorem C72_settings : forall unquote so strict es e v cmds, last_such (tagged (t_ "GO")) e es -> holds e (t_ "type") (str_int v) ->
  to_commands (tenhou_command unquote so) strict es = Ok cmds ->
  holds_after cmds (None, RV_player_count) (Some (VInt (if flag v 4 then 3 else 4))) /\
  holds_after cmds (None, RV_play_wind_count) (Some (VInt (if flag v 3 then 2 else 1))) /\
  holds_after cmds (None, RV_allow_tanyao_open) (Some (VBool (negb (flag v 2)))) /\
  holds_after cmds (None, RV_speed_up) (Some (VBool (flag v 6))) /\
  holds_after cmds (None, RV_show_discard_shadow) (Some (VBool (flag v 8))) /\
  (exists level, nth_error (level_names (flag v 9)) (Z.to_nat (2 * field v 5 1 + field v 7 1)) = Some level /\
    holds_after cmds (None, RV_play_level) (Some (VStr level))) /\
  exists tiles, holds_after cmds (None, RV_using_tiles) (Some (VList (map VStr tiles))) /\
    (forall n c, Prop_Const.exists_tile n c ->
       Prop_Const.occurs (Prop_Const.printed (n, c)) tiles = Prop_Const.copies (if flag v 4 then 3 else 4) (negb (flag v 1)) n c) /\
    (forall t, In t tiles -> exists n c, Prop_Const.exists_tile n c /\ t = Prop_Const.printed (n, c)).
Proof.
  intros unquote so strict es e v cmds L Hv H. destruct (to_commands_run _ _ _ _ _ H) as [x [R M]].
  assert (T : tag e = t_ "GO") by (destruct L as (? & ? & _ & T & _); exact T).
  assert (G : forall p w, In p settings ->
    (forall i x1 c2 x2, call (tenhou_command unquote so) strict e i x1 = Ok (c2, x2) -> val_at x2 sub_all p = Some w) -> holds_after cmds (None, p) (Some w)).
  { intros p w I0 V. assert (Sc : scope_of p <> SPlayer) by (repeat (destruct I0 as [<-|I0]; [discriminate|]); destruct I0).
    pose proof (table_place _ _ p M Sc) as Q. erewrite (last_value _ _ _ _ _ _ sub_all p w L) in Q; [exact Q| | |exact R].
    - intros e' N _. apply keeps_view. apply settings_view; [exact I0|exact N].
    - intros before c1 x1 i c2 x2 _ _ K. exact (V _ _ _ _ K). }
  assert (GV : exists level, nth_error (level_names (flag v 9)) (Z.to_nat (2 * field v 5 1 + field v 7 1)) = Some level).
  { destruct L as (before & after & -> & _ & F). destruct (last_run _ _ _ _ _ _ _ _ R) as (c1 & x1 & i & c2 & x2 & _ & B & _).
    destruct (go_values _ _ _ _ _ _ _ _ _ T B Hv) as [level [Lv _]]. eauto. }
  destruct GV as [level Lv].
  split; [apply G; [cbn; tauto|]; intros i x1 c2 x2 K; destruct (go_values _ _ _ _ _ _ _ _ _ T K Hv) as (lv & _ & _ & _ & _ & _ & _ & Q & _); exact Q|].
  split; [apply G; [cbn; tauto|]; intros i x1 c2 x2 K; destruct (go_values _ _ _ _ _ _ _ _ _ T K Hv) as (lv & _ & _ & _ & Q & _); exact Q|].
  split; [apply G; [cbn; tauto|]; intros i x1 c2 x2 K; destruct (go_values _ _ _ _ _ _ _ _ _ T K Hv) as (lv & _ & _ & _ & _ & Q & _); exact Q|].
  split; [apply G; [cbn; tauto|]; intros i x1 c2 x2 K; destruct (go_values _ _ _ _ _ _ _ _ _ T K Hv) as (lv & _ & _ & _ & _ & _ & Q & _); exact Q|].
  split; [apply G; [cbn; tauto|]; intros i x1 c2 x2 K; destruct (go_values _ _ _ _ _ _ _ _ _ T K Hv) as (lv & _ & _ & Q & _); exact Q|].
  split.
  - exists level. split; [exact Lv|]. apply G; [cbn; tauto|]. intros i x1 c2 x2 K. destruct (go_values _ _ _ _ _ _ _ _ _ T K Hv) as (lv & Lv' & Q & _). congruence.
  - exists (initial_tiles (if flag v 4 then 3 else 4) (negb (flag v 1))). split; [|destruct (Prop_Const.C50_initial_tiles (if flag v 4 then 3 else 4) (negb (flag v 1))) as (A & B & _); split; assumption].
    apply G; [cbn; tauto|]. intros i x1 c2 x2 K. destruct (go_values _ _ _ _ _ _ _ _ _ T K Hv) as (lv & _ & _ & _ & _ & _ & _ & _ & Q & _). exact Q.
Qed.
(** The seed of the wall is that of the last SHUFFLE event. *)
Theorem C72_seed : forall unquote so strict es e s cmds, last_such (tagged (t_ "SHUFFLE")) e es -> holds e (t_ "seed") s ->
  to_commands (tenhou_command unquote so) strict es = Ok cmds -> holds_after cmds (None, RV_seed) (Some (VStr s)).
Proof.
  intros unquote so strict es e s cmds L Hs H. destruct (to_commands_run _ _ _ _ _ H) as [x [R M]].
  assert (T : tag e = t_ "SHUFFLE") by (destruct L as (? & ? & _ & T & _); exact T).
  pose proof (table_place _ _ RV_seed M ltac:(discriminate)) as Q. erewrite (last_value _ _ _ _ _ _ sub_all RV_seed (VStr s) L) in Q; [exact Q| | |exact R].
  - intros e' N _. apply keeps_view. unfold tagged in N. unfold event_views, other_views, views_for; repeat match goal with
    | |- context [text_eqb ?a ?t] => destruct (text_eqb a t) eqn:?; [match goal with K : text_eqb a t = true |- _ => apply text_eqb_iff in K; first [exfalso; congruence | reflexivity] end|]
    end; reflexivity.
  - intros before c1 x1 i c2 x2 _ _ K. eapply set_after; [exact K|]. intros raw x3 Hh. exists U_REPLACE. split; [|left; reflexivity].
    unfold CommandProofs.handle in Hh. replace (hfind (handlers unquote so) (tag e)) with (Some shuffle_command) in Hh by (rewrite T; reflexivity).
    unfold shuffle_command, default_event_type in Hh. rewrite (holds_attr _ _ _ Hs) in Hh. cbn [bindr] in Hh. apply Ok_inj in Hh. apply (f_equal fst) in Hh. cbn [fst] in Hh. subst raw.
    rewrite typed_deeds. reflexivity.
Qed.
(** ** C73: whether red fives are used and the seat of the dealer (as a property of the deal)
    are never filled in. *)
Theorem C73_never : forall unquote so strict es cmds v, In v [RV_has_aka_dora; GV_dealer] ->
  to_commands (tenhou_command unquote so) strict es = Ok cmds -> holds_after cmds (None, v) None.
Proof.
  intros unquote so strict es cmds v I0 H. destruct (to_commands_run _ _ _ _ _ H) as [x [R M]].
  assert (Sc : scope_of v <> SPlayer) by (repeat (destruct I0 as [<-|I0]; [discriminate|]); destruct I0).
  pose proof (table_place _ _ v M Sc) as Q. assert (Z0 : val_at x sub_all v = None); [|now rewrite Z0 in Q].
  assert (K : forall t, existsb (view_eqb v) (event_views t) = false).
  { intro t. repeat (destruct I0 as [<-|I0]; [unfold event_views, other_views, views_for; repeat match goal with
    | |- context [text_eqb ?a ?t] => destruct (text_eqb a t); [reflexivity|] end; reflexivity|]). destruct I0. }
  clear - R K. revert cmds x R. induction es as [|e es IH] using rev_ind; intros cmds x R.
  - cbn in R. apply Ok_inj in R. injection R as -> ->. reflexivity.
  - destruct (run_snoc _ _ _ _ _ _ _ R) as [c1 [x1 [i [c2 [H1 H2]]]]]. rewrite (keeps_view _ _ _ _ _ _ (K (tag e)) _ _ _ _ H2). eauto.
Qed.

(** ** C74: the header of a deal is that of the last INIT event. *)
Theorem C74_deal : forall unquote so strict es e r honba sticks rest cmds, last_such (tagged (t_ "INIT")) e es ->
  holds e (t_ "seed") (comma_list (r :: honba :: sticks :: rest)) -> 0 <= r ->
  to_commands (tenhou_command unquote so) strict es = Ok cmds ->
  holds_after cmds (None, GV_wind) (Some (VInt (r / 4))) /\
  holds_after cmds (None, GV_round) (Some (VInt (r mod 4))) /\
  holds_after cmds (None, GV_sub_round) (Some (VInt honba)) /\
  holds_after cmds (None, GV_richii_remain_scores) (Some (VInt (1000 * sticks))).
Proof.
  intros unquote so strict es e r honba sticks rest cmds L Hs R0 H. destruct (to_commands_run _ _ _ _ _ H) as [x [R M]].
  assert (T : tag e = t_ "INIT") by (destruct L as (? & ? & _ & T & _); exact T).
  assert (G : forall p w, In p headers ->
    (forall before c1 x1 raw x3, call_all (tenhou_command unquote so) strict 0 before empty_ctx = Ok (c1, x1) -> handle unquote so e x1 = Ok (raw, x3) -> deeds (sub_all, p) raw = [(U_REPLACE, w)]) -> holds_after cmds (None, p) (Some w)).
  { intros p w I0 V. assert (Sc : scope_of p <> SPlayer) by (repeat (destruct I0 as [<-|I0]; [discriminate|]); destruct I0).
    pose proof (table_place _ _ p M Sc) as Q. erewrite (last_value _ _ _ _ _ _ sub_all p w L) in Q; [exact Q| | |exact R].
    - intros e' N _. apply keeps_view. apply headers_view; [exact I0|exact N].
    - intros before c1 x1 i c2 x2 _ B K. eapply set_after; [exact K|]. intros raw x3 Hh. exists U_REPLACE. split; [eapply V; eassumption|now left]. }
  assert (HV : forall before c1 x1 raw x3, call_all (tenhou_command unquote so) strict 0 before empty_ctx = Ok (c1, x1) -> handle unquote so e x1 = Ok (raw, x3) ->
    deeds (sub_all, GV_wind) raw = [(U_REPLACE, VInt (r / 4))] /\ deeds (sub_all, GV_round) raw = [(U_REPLACE, VInt (r mod 4))] /\
    deeds (sub_all, GV_sub_round) raw = [(U_REPLACE, VInt honba)] /\ deeds (sub_all, GV_richii_remain_scores) raw = [(U_REPLACE, VInt (1000 * sticks))]).
  { intros before c1 x1 raw x3 B Hh. destruct (init_header _ _ _ _ _ _ _ T Hh Hs ltac:(discriminate)) as (c & r' & h' & s' & wind & round & X & N0 & N1 & N2 & Sb & D1 & D2 & D3 & D4).
    cbn in N0, N1, N2. injection N0 as <-. injection N1 as <-. injection N2 as <-. destruct (indexer_shape _ _ _ _ _ _ _ B X) as (n & N & C).
    destruct (round_of _ _ _ _ N C R0 Sb) as [_ Q]. injection Q as -> ->. auto. }
  split; [apply G; [cbn; tauto|intros ? ? ? ? ? B Hh; apply (HV _ _ _ _ _ B Hh)]|]. split; [apply G; [cbn; tauto|intros ? ? ? ? ? B Hh; apply (HV _ _ _ _ _ B Hh)]|].
  split; (apply G; [cbn; tauto|intros ? ? ? ? ? B Hh; apply (HV _ _ _ _ _ B Hh)]).
Qed.
(** A deal later than the wind after the last one of the game cannot be converted. *)
Theorem C74_late : forall unquote so strict before go mid e after v r rest, tag go = t_ "GO" -> holds go (t_ "type") (str_int v) -> Forall (fun e' => tag e' <> t_ "GO") mid ->
  tag e = t_ "INIT" -> holds e (t_ "seed") (comma_list (r :: rest)) -> r >= 4 * ((if flag v 3 then 2 else 1) + 1) ->
  exists err, to_commands (tenhou_command unquote so) strict (before ++ go :: mid ++ e :: after) = Err err.
Proof.
  intros unquote so strict before go mid e after v r rest Tg Hv F T Hs R0.
  destruct (to_commands (tenhou_command unquote so) strict (before ++ go :: mid ++ e :: after)) as [cmds|err] eqn:H; [|eauto]. exfalso.
  destruct (to_commands_run _ _ _ _ _ H) as [x [R _]].
  replace (before ++ go :: mid ++ e :: after) with ((before ++ go :: mid) ++ e :: after) in R by now rewrite <- app_assoc.
  destruct (last_run _ _ _ _ _ _ _ _ R) as (c1 & x1 & i & c2 & x2 & A & B & _). destruct (call_inv unquote so _ _ _ _ _ _ B) as [raw [x3 [Hh _]]].
  destruct (init_header _ _ _ _ _ _ _ T Hh Hs ltac:(discriminate)) as (c & r' & h' & s' & wind & round & X & N0 & _ & _ & Sb & _). cbn in N0. injection N0 as <-.
  assert (IX : exists c0, new_subcat [(if flag v 3 then 2 else 1) + 1; 4] = Ok c0 /\ x_indexer x1 = Some c0).
  { clear - A Tg Hv F. revert c1 x1 A. induction mid as [|m mid IH] using rev_ind; intros c1 x1 A.
    - destruct (run_snoc _ _ _ _ _ _ _ A) as (d1 & y1 & j & d2 & _ & B). destruct (go_values _ _ _ _ _ _ _ _ _ Tg B Hv) as (lv & _ & _ & _ & _ & _ & _ & _ & _ & Q). exact Q.
    - replace (before ++ go :: mid ++ [m]) with ((before ++ go :: mid) ++ [m]) in A by now rewrite <- app_assoc.
      destruct (run_snoc _ _ _ _ _ _ _ A) as (d1 & y1 & j & d2 & A1 & B). apply Forall_app in F. destruct F as [F1 F2]. inversion F2; subst.
      destruct (IH F1 _ _ A1) as (c0 & C1 & C2). exists c0. split; [exact C1|]. rewrite (indexer_kept _ _ _ _ _ _ _ _ H1 B). exact C2. }
  destruct IX as (c0 & C1 & C2). rewrite X in C2. injection C2 as ->.
  destruct (round_of ((if flag v 3 then 2 else 1) + 1) c0 r [wind; round]) as [Lt _]; [destruct (flag v 3); lia|exact C1|destruct (flag v 3); lia|exact Sb|]. lia.
Qed.
(** The dealer is the one of the last INIT or TAIKYOKU event, and no other player. *)
Theorem C74_dealer : forall unquote so strict es e oya p cmds, last_such (fun e => tag e = t_ "INIT" \/ tag e = t_ "TAIKYOKU") e es ->
  holds e (t_ "oya") (str_int oya) -> seat p -> has_seat p es ->
  to_commands (tenhou_command unquote so) strict es = Ok cmds ->
  exists b, holds_after cmds (Some p, PV_is_dealer) (Some (VBool b)) /\ (b = true <-> p = oya).
Proof.
  intros unquote so strict es e oya p cmds L Ho P HS H. destruct (to_commands_run _ _ _ _ _ H) as [x [R M]].
  assert (T : tag e = t_ "INIT" \/ tag e = t_ "TAIKYOKU") by (destruct L as (? & ? & _ & T & _); exact T).
  exists (oya =? p). split; [|rewrite Z.eqb_eq; split; congruence].
  pose proof (player_place _ _ p PV_is_dealer M P eq_refl) as Q. erewrite (last_value _ _ _ _ _ _ (SId p) PV_is_dealer (VBool (oya =? p)) L) in Q; [exact Q| | |exact R].
  - intros e' N _. apply keeps_view. apply dealer_view; intro K; apply N; [left|right]; exact K.
  - intros before c1 x1 i c2 x2 [after Q0] B K. destruct (count_ok _ _ _ _ _ _ _ _ T K) as [n N]. rewrite Q0 in HS.
    pose proof (counted_count _ _ _ (counted_all _ _ _ _ P _ _ _ (has_seat_before _ _ _ HS) B) N) as Lt.
    eapply set_after; [exact K|]. intros raw x3 Hh. exists U_REPLACE. split; [|now left]. apply (dealer_set _ _ _ _ _ _ _ _ _ T Hh N); [unfold seat in P; lia|exact Ho].
Qed.

(** ** C75: the players. *)
Lemma keeps_un unquote so strict e p v : seat p -> In v [PV_name; PV_level; PV_extra_level] -> ~ announced p e -> keeps unquote so strict e (SId p) v.
Proof.
  intros P I0 N. destruct (text_dec (tag e) (t_ "UN")) as [T|T]; [|apply keeps_view; now apply name_view].
  apply keeps_deeds. intros x raw x' Hh. exact (proj1 (un_deeds _ _ _ _ _ _ _ T P Hh) N v).
Qed.
Lemma announced_dec p e : announced p e \/ ~ announced p e.
Proof.
  destruct (text_dec (tag e) (t_ "UN")) as [T|T]; [|right; intros [s [K _]]; contradiction].
  destruct (lookup (t_ "n" ++ str_int p) (attrib e)) as [s|] eqn:E; [|right; intros [s [_ [K _]]]; unfold holds in K; congruence].
  destruct (not_blank s) eqn:B.
  - left. exists s. split; [exact T|]. split; [exact E|]. now apply not_blank_iff.
  - right. intros [s' [_ [K C]]]. unfold holds in K. assert (s' = s) by congruence. subst s'. apply not_blank_iff in C. congruence.
Qed.
(** The name is the one last announced. *)
Theorem C75_name : forall unquote so strict es e p s cmds, seat p -> last_such (announced p) e es -> holds e (t_ "n" ++ str_int p) s ->
  to_commands (tenhou_command unquote so) strict es = Ok cmds ->
  holds_after cmds (Some p, PV_name) (Some (VStr (unquote s))).
Proof.
  intros unquote so strict es e p s cmds P L Hs H. destruct (to_commands_run _ _ _ _ _ H) as [x [R M]].
  assert (A : announced p e) by (destruct L as (? & ? & _ & T & _); exact T). destruct A as [s' [T [Hs' C]]]. unfold holds in Hs, Hs'. assert (s' = s) by congruence. subst s'.
  pose proof (player_place _ _ p PV_name M P eq_refl) as Q. erewrite (last_value _ _ _ _ _ _ (SId p) PV_name (VStr (unquote s)) L) in Q; [exact Q| | |exact R].
  - intros e' N _. apply keeps_un; [exact P|cbn; tauto|exact N].
  - intros before c1 x1 i c2 x2 _ _ K. eapply set_after; [exact K|]. intros raw x3 Hh. exists U_ASSERT_EQUAL_OR_SET. split; [|now right].
    exact (proj1 (proj2 (un_deeds _ _ _ _ _ _ _ T P Hh) s (conj T (conj Hs C)))).
Qed.
Lemma grade_of i name : 0 <= i -> py_nth RANKS i = Ok name -> grade_name i name.
Proof.
  intros I0 H. assert (B : i < 21).
  { apply py_nth_some in H; [|exact I0]. assert (K : (Z.to_nat i < length RANKS)%nat) by (apply nth_error_Some; congruence). change (length RANKS) with 21%nat in K. lia. }
  destruct (Z.eq_dec i 0) as [->|N0]; [vm_compute in H; injection H as <-; apply gn_new|].
  destruct (Z.eq_dec i 20) as [->|N1]; [vm_compute in H; injection H as <-; apply gn_top|].
  destruct (Z_lt_dec i 10) as [K|K].
  - replace i with (10 - (10 - i)) by lia. assert (E : name = [48 + (10 - i); 32026]); [|rewrite E; apply gn_kyu; lia].
    assert (C : i = 1 \/ i = 2 \/ i = 3 \/ i = 4 \/ i = 5 \/ i = 6 \/ i = 7 \/ i = 8 \/ i = 9) by lia.
    repeat (destruct C as [->|C]; [vm_compute in H; injection H as <-; reflexivity|]). subst i. vm_compute in H. injection H as <-. reflexivity.
  - replace i with (9 + (i - 9)) by lia. assert (C : i = 10 \/ i = 11 \/ i = 12 \/ i = 13 \/ i = 14 \/ i = 15 \/ i = 16 \/ i = 17 \/ i = 18 \/ i = 19) by lia.
    repeat (destruct C as [->|C]; [vm_compute in H; injection H as <-; apply gn_dan; [lia|reflexivity]|]). subst i. vm_compute in H. injection H as <-. apply gn_dan; [lia|reflexivity].
Qed.
(** The level is that of the last announcement that tells levels. *)
Theorem C75_level : forall unquote so strict es e p l d cmds, seat p -> last_such (fun e => announced p e /\ says (t_ "dan") e) e es ->
  holds e (t_ "dan") (comma_list l) -> nth_error l (Z.to_nat p) = Some d -> 0 <= d ->
  to_commands (tenhou_command unquote so) strict es = Ok cmds ->
  exists name, grade_name d name /\ holds_after cmds (Some p, PV_level) (Some (VStr name)).
Proof.
  intros unquote so strict es e p l d cmds P L Hd Nd D0 H. destruct (to_commands_run _ _ _ _ _ H) as [x [R M]].
  assert (A : announced p e /\ says (t_ "dan") e) by (destruct L as (? & ? & _ & T & _); exact T). destruct A as [[s An] Sd]. assert (T : tag e = t_ "UN") by apply An.
  assert (V : forall x raw x', handle unquote so e x = Ok (raw, x') -> exists name, py_nth RANKS d = Ok name /\ deeds (SId p, PV_level) raw = [(U_REPLACE, VStr name)]).
  { intros y raw y' Hh. destruct (proj2 (un_deeds _ _ _ _ _ _ _ T P Hh) s An) as (_ & _ & _ & G & _). destruct (G _ Hd) as (l' & i & name & N1 & N2 & N3 & N4).
    rewrite number_list_comma in N1 by (intros ->; destruct (Z.to_nat p); discriminate). apply Ok_inj in N1. subst l'.
    apply py_nth_some in N2; [|unfold seat in P; lia]. rewrite nth_error_map, Nd in N2. cbn in N2. injection N2 as <-. eauto. }
  assert (W : exists name, py_nth RANKS d = Ok name).
  { destruct L as (before & after & -> & _ & F). destruct (last_run _ _ _ _ _ _ _ _ R) as (c1 & x1 & i & c2 & x2 & _ & B & _).
    destruct (call_inv unquote so _ _ _ _ _ _ B) as [raw [x3 [Hh _]]]. destruct (V _ _ _ Hh) as [name [N _]]. eauto. }
  destruct W as [name W]. exists name. split; [exact (grade_of _ _ D0 W)|].
  pose proof (player_place _ _ p PV_level M P eq_refl) as Q. erewrite (last_value _ _ _ _ _ _ (SId p) PV_level (VStr name) L) in Q; [exact Q| | |exact R].
  - intros e' N _. destruct (announced_dec p e') as [A|A]; [|apply keeps_un; [exact P|cbn; tauto|exact A]].
    assert (ND : ~ says (t_ "dan") e') by (intro K; apply N; split; assumption). destruct A as [s' A]. apply keeps_deeds. intros y raw y' Hh.
    destruct (proj2 (un_deeds _ _ _ _ _ _ _ (proj1 A) P Hh) s' A) as (_ & _ & G & _). exact (G ND).
  - intros before c1 x1 i c2 x2 _ _ K. eapply set_after; [exact K|]. intros raw x3 Hh. exists U_REPLACE. split; [|now left].
    destruct (V _ _ _ Hh) as [name' [N1 N2]]. rewrite W in N1. apply Ok_inj in N1. subst name'. exact N2.
Qed.
(** The rate is that of the last announcement that tells rates. *)
Theorem C75_rate : forall unquote so strict es e p ts t cmds, seat p -> last_such (fun e => announced p e /\ says (t_ "rate") e) e es ->
  holds e (t_ "rate") (join (t_ ",") ts) -> Forall (fun t => ~ In 44 t) ts -> nth_error ts (Z.to_nat p) = Some t ->
  to_commands (tenhou_command unquote so) strict es = Ok cmds ->
  exists r, py_number t = Ok r /\ holds_after cmds (Some p, PV_extra_level) (Some (VNum r)).
Proof.
  intros unquote so strict es e p ts t cmds P L Hd Nc Nt H. destruct (to_commands_run _ _ _ _ _ H) as [x [R M]].
  assert (A : announced p e /\ says (t_ "rate") e) by (destruct L as (? & ? & _ & T & _); exact T). destruct A as [[s An] Sd]. assert (T : tag e = t_ "UN") by apply An.
  assert (V : forall x raw x', handle unquote so e x = Ok (raw, x') -> exists r, py_number t = Ok r /\ deeds (SId p, PV_extra_level) raw = [(U_REPLACE, VNum r)]).
  { intros y raw y' Hh. destruct (proj2 (un_deeds _ _ _ _ _ _ _ T P Hh) s An) as (_ & _ & _ & _ & _ & G). destruct (G _ Hd) as (l' & r & N1 & N2 & N3).
    unfold number_list in N1. change (t_ ",") with [44] in N1. rewrite split_join in N1; [|intros ->; destruct (Z.to_nat p); discriminate|exact Nc].
    exists r. split; [|exact N3]. apply py_nth_some in N2; [|unfold seat in P; lia]. revert N1 N2 Nt. generalize (Z.to_nat p). clear. revert l'.
    induction ts as [|a ts IH]; intros l' k N1 N2 Nt; [destruct k; discriminate|]. cbn [mapM] in N1. peelb N1. apply Ok_inj in N1. subst l'.
    destruct k as [|k]; cbn in N2, Nt; [injection N2 as <-; injection Nt as <-; exact E|]. eapply IH; eauto. }
  assert (W : exists r, py_number t = Ok r).
  { destruct L as (before & after & -> & _ & F). destruct (last_run _ _ _ _ _ _ _ _ R) as (c1 & x1 & i & c2 & x2 & _ & B & _).
    destruct (call_inv unquote so _ _ _ _ _ _ B) as [raw [x3 [Hh _]]]. destruct (V _ _ _ Hh) as [r [N _]]. eauto. }
  destruct W as [r W]. exists r. split; [exact W|].
  pose proof (player_place _ _ p PV_extra_level M P eq_refl) as Q. erewrite (last_value _ _ _ _ _ _ (SId p) PV_extra_level (VNum r) L) in Q; [exact Q| | |exact R].
  - intros e' N _. destruct (announced_dec p e') as [A|A]; [|apply keeps_un; [exact P|cbn; tauto|exact A]].
    assert (ND : ~ says (t_ "rate") e') by (intro K; apply N; split; assumption). destruct A as [s' A]. apply keeps_deeds. intros y raw y' Hh.
    destruct (proj2 (un_deeds _ _ _ _ _ _ _ (proj1 A) P Hh) s' A) as (_ & _ & _ & _ & G & _). exact (G ND).
  - intros before c1 x1 i c2 x2 _ _ K. eapply set_after; [exact K|]. intros raw x3 Hh. exists U_REPLACE. split; [|now left].
    destruct (V _ _ _ Hh) as [r' [N1 N2]]. rewrite W in N1. apply Ok_inj in N1. subst r'. exact N2.
Qed.
(** A player is shown as disconnected from leaving until announced again. *)
Theorem C75_connection : forall unquote so strict es e p cmds, seat p -> last_such (fun e => announced p e \/ leaves p e) e es -> names_seats (t_ "BYE") es ->
  to_commands (tenhou_command unquote so) strict es = Ok cmds ->
  exists b, holds_after cmds (Some p, PV_disconnected) (Some (VBool b)) /\ (b = true <-> leaves p e) /\ (b = false <-> announced p e).
Proof.
  intros unquote so strict es e p cmds P L NS H. destruct (to_commands_run _ _ _ _ _ H) as [x [R M]].
  assert (A : announced p e \/ leaves p e) by (destruct L as (? & ? & _ & T & _); exact T).
  assert (X : ~ (announced p e /\ leaves p e)) by (intros [[s [T _]] [T' _]]; rewrite T in T'; discriminate T').
  assert (G : forall b, (forall y raw y', handle unquote so e y = Ok (raw, y') -> deeds (SId p, PV_disconnected) raw = [(U_REPLACE, VBool b)]) -> holds_after cmds (Some p, PV_disconnected) (Some (VBool b))).
  { intros b V. pose proof (player_place _ _ p PV_disconnected M P eq_refl) as Q. erewrite (last_value _ _ _ _ _ _ (SId p) PV_disconnected (VBool b) L) in Q; [exact Q| | |exact R].
    - intros e' N I0. destruct (text_dec (tag e') (t_ "UN")) as [T|T].
      + apply keeps_deeds. intros y raw y' Hh. apply (proj1 (un_deeds _ _ _ _ _ _ _ T P Hh)). intro K. apply N. now left.
      + destruct (text_dec (tag e') (t_ "BYE")) as [T'|T']; [|apply keeps_view; now apply conn_view].
        unfold names_seats in NS. rewrite Forall_forall in NS. destruct (NS _ I0 T') as [w Hw]. apply keeps_deeds. intros y raw y' Hh. rewrite (bye_deeds _ _ _ _ _ _ _ _ T' Hh Hw).
        destruct (w =? p) eqn:Q0; [|reflexivity]. apply Z.eqb_eq in Q0. subst w. exfalso. apply N. right. split; assumption.
    - intros before c1 x1 i c2 x2 _ _ K. eapply set_after; [exact K|]. intros raw x3 Hh. exists U_REPLACE. split; [exact (V _ _ _ Hh)|now left]. }
  destruct A as [A|A].
  - exists false. split; [|split; [split; [discriminate|intro K; exfalso; apply X; auto]|tauto]]. apply G. intros y raw y' Hh. destruct A as [s A].
    exact (proj1 (proj2 (proj2 (un_deeds _ _ _ _ _ _ _ (proj1 A) P Hh) s A))).
  - exists true. split; [|split; [tauto|split; [discriminate|intro K; exfalso; apply X; auto]]]. apply G. intros y raw y' Hh. destruct A as [T A].
    rewrite (bye_deeds _ _ _ _ _ _ _ _ T Hh A), Z.eqb_refl. reflexivity.
Qed.

(** ** C76: a player is shown in riichi from the declaration until the next deal. *)
Theorem C76_riichi : forall unquote so strict before e after p cmds, seat p -> tag e = t_ "INIT" -> Forall (fun e' => tag e' <> t_ "INIT") after ->
  has_seat p (before ++ e :: after) -> names_seats (t_ "REACH") after ->
  to_commands (tenhou_command unquote so) strict (before ++ e :: after) = Ok cmds ->
  exists b, holds_after cmds (Some p, PV_in_richii) (Some (VBool b)) /\ (b = true <-> exists e', In e' after /\ declares p e').
Proof.
  intros unquote so strict before e after p cmds P T F HS NS H. destruct (to_commands_run _ _ _ _ _ H) as [x [R M]].
  assert (G : exists b, val_at x (SId p) PV_in_richii = Some (VBool b) /\ (b = true <-> exists e', In e' after /\ declares p e')).
  { clear M H. revert cmds x R. induction after as [|e' after IH] using rev_ind; intros cmds x R.
    - destruct (run_snoc _ _ _ _ _ _ _ R) as [c1 [x1 [i [c2 [H1 H2]]]]]. exists false. split; [|split; [discriminate|intros [e' [[] _]]]].
      eapply set_after; [exact H2|]. intros raw x3 Hh. exists U_REPLACE. split; [|now left].
      destruct (handle_deal _ _ _ _ _ _ T Hh) as (n & seed & oya & dd & dora & N & _ & _ & _ & _ & Pl & _).
      pose proof (counted_count _ _ _ (counted_all _ _ _ _ P _ _ _ (has_seat_before _ _ _ HS) H1) N) as Lt.
      destruct (Pl p) as (hand & score & _ & De); [unfold seat in P; lia|]. rewrite De by discriminate. reflexivity.
    - replace (before ++ e :: after ++ [e']) with ((before ++ e :: after) ++ [e']) in R, HS by now rewrite <- app_assoc.
      destruct (run_snoc _ _ _ _ _ _ _ R) as [c1 [x1 [i [c2 [H1 H2]]]]]. apply Forall_app in F. destruct F as [F1 F2]. inversion F2 as [|? ? F3 _]; subst.
      apply Forall_app in NS. destruct NS as [NS1 NS2]. inversion NS2 as [|? ? NS3 _]; subst.
      destruct (IH F1 (has_seat_before _ _ _ HS) NS1 _ _ H1) as [b [B1 B2]].
      assert (Same : keeps unquote so strict e' (SId p) PV_in_richii -> ~ declares p e' -> exists b, val_at x (SId p) PV_in_richii = Some (VBool b) /\ (b = true <-> exists e'0, In e'0 (after ++ [e']) /\ declares p e'0)).
      { intros K ND. exists b. split; [rewrite (K _ _ _ _ H2); exact B1|]. rewrite B2. split; intros [d [I0 D]]; exists d; (split; [|exact D]).
        - apply in_or_app. now left.
        - apply in_app_or in I0. destruct I0 as [I0|[<-|[]]]; [exact I0|contradiction]. }
      destruct (text_dec (tag e') (t_ "REACH")) as [T'|T'].
      + destruct (NS3 T') as [w Hw]. destruct (reach_ok _ _ _ _ _ _ _ _ T' H2) as [s Hs].
        destruct (text_eqb s (t_ "1") && (w =? p)) eqn:Q.
        * apply andb_true_iff in Q. destruct Q as [Q1 Q2]. apply text_eqb_iff in Q1. apply Z.eqb_eq in Q2. subst s w. exists true. split.
          -- eapply set_after; [exact H2|]. intros raw x3 Hh. exists U_REPLACE. split; [|now left]. rewrite (reach_flag _ _ _ _ _ _ _ _ _ T' Hh Hw Hs), text_eqb_refl, Z.eqb_refl. reflexivity.
          -- split; [intros _|reflexivity]. exists e'. split; [apply in_or_app; right; now left|]. split; [exact T'|]. split; [exact Hw|].
             unfold attr in Hs. unfold holds. destruct (lookup (t_ "step") (attrib e')); [apply Ok_inj in Hs; congruence|discriminate].
        * apply Same.
          -- apply keeps_deeds. intros y raw y' Hh. rewrite (reach_flag _ _ _ _ _ _ _ _ _ T' Hh Hw Hs), Q. reflexivity.
          -- intros [_ [Hw' Hs']]. rewrite (holds_attr _ _ _ Hs') in Hs. apply Ok_inj in Hs. subst s. rewrite text_eqb_refl in Q. cbn [andb] in Q.
             unfold holds in Hw, Hw'. rewrite Hw in Hw'. injection Hw' as Hw'. assert (E : w = p); [|subst w; rewrite Z.eqb_refl in Q; discriminate].
             assert (K : py_int (str_int w) = py_int (str_int p)) by now rewrite Hw'. rewrite !py_int_str in K. apply Ok_inj in K. congruence.
      + apply Same; [|intros [K _]; contradiction]. apply keeps_view. now apply riichi_view. }
  destruct G as [b [B1 B2]]. exists b. split; [|exact B2]. rewrite <- B1. now apply player_place.
Qed.

(** ** Cases: a game of east and south rounds for four with red fives, in its sixth deal. *)
Definition hd_tr := tenhou_command (fun s => s) (fun l => l).
Definition hd_go : event := ex_event (t_ "GO") [(t_ "type", t_ "169")].
Definition hd_shuffle : event := ex_event (t_ "SHUFFLE") [(t_ "seed", t_ "mt19937ar-sha512,abc"); (t_ "ref", [])].
Definition hd_un : event := ex_event (t_ "UN") [(t_ "n0", t_ "a"); (t_ "n1", t_ "b"); (t_ "n2", t_ "c"); (t_ "n3", t_ "d");
  (t_ "dan", t_ "16,12,9,0"); (t_ "rate", t_ "2010.50,1800.00,1502.44,1500.00"); (t_ "sx", t_ "M,M,F,M")].
Definition hd_oya : event := ex_event (t_ "TAIKYOKU") [(t_ "oya", t_ "0")].
Definition hd_deal : event :=
  ex_event (t_ "INIT") [(t_ "seed", t_ "5,2,1,2,5,77"); (t_ "ten", t_ "250,250,250,240"); (t_ "oya", t_ "1");
    (t_ "hai0", comma_list (ex_hands 0)); (t_ "hai1", comma_list (ex_hands 1));
    (t_ "hai2", comma_list (ex_hands 2)); (t_ "hai3", comma_list (ex_hands 3))].
Definition hd_reach : event := ex_event (t_ "REACH") [(t_ "who", t_ "2"); (t_ "step", t_ "1")].
Definition hd_bye : event := ex_event (t_ "BYE") [(t_ "who", t_ "3")].
Definition hd_back : event := ex_event (t_ "UN") [(t_ "n3", t_ "d")].
Definition hd_log : list event := [hd_shuffle; hd_go; hd_un; hd_oya; hd_deal; hd_reach; hd_bye].
Ltac last_at n := match goal with |- last_such ?P ?e ?es => exists (firstn n es), (skipn (S n) es); split; [reflexivity|]; split end.
Ltac none := cbn [skipn hd_log app]; repeat (apply Forall_cons; [|]); try apply Forall_nil.
Example hd_converts : exists cmds, to_commands hd_tr true (hd_log ++ [hd_back]) = Ok cmds.
Proof. destruct (to_commands hd_tr true (hd_log ++ [hd_back])) as [cmds|] eqn:E; [eauto|vm_compute in E; discriminate E]. Qed.
Lemma hd_seats p : has_seat p (hd_log ++ [hd_back]).
Proof.
  intros e I0 T. exists 169. repeat (destruct I0 as [<-|I0]; [first [discriminate T|split; [reflexivity|left; reflexivity]]|]). destruct I0.
Qed.
Example C72_example : exists cmds, to_commands hd_tr true (hd_log ++ [hd_back]) = Ok cmds /\
  holds_after cmds (None, RV_player_count) (Some (VInt 4)) /\ holds_after cmds (None, RV_play_wind_count) (Some (VInt 2)) /\
  holds_after cmds (None, RV_allow_tanyao_open) (Some (VBool true)) /\ holds_after cmds (None, RV_speed_up) (Some (VBool false)) /\
  holds_after cmds (None, RV_play_level) (Some (VStr [40179])) /\ holds_after cmds (None, RV_seed) (Some (VStr (t_ "mt19937ar-sha512,abc"))) /\
  holds_after cmds (None, RV_has_aka_dora) None.
Proof.
  destruct hd_converts as [cmds E]. exists cmds. split; [exact E|].
  destruct (C72_settings _ _ _ (hd_log ++ [hd_back]) hd_go 169 _ ltac:(last_at 1%nat; [reflexivity|none; discriminate]) eq_refl E) as (A & B & C & D & _ & [lv [F1 F2]] & _).
  split; [exact A|]. split; [exact B|]. split; [exact C|]. split; [exact D|]. split; [injection F1 as <-; exact F2|]. split.
  - exact (C72_seed _ _ _ (hd_log ++ [hd_back]) hd_shuffle _ _ ltac:(last_at 0%nat; [reflexivity|none; discriminate]) eq_refl E).
  - apply (C73_never _ _ _ _ _ _ (or_introl eq_refl) E).
Qed.
(** South 2, two repeats, one stick on the table, seat 1 deals. *)
Example C74_example : exists cmds, to_commands hd_tr true (hd_log ++ [hd_back]) = Ok cmds /\
  holds_after cmds (None, GV_wind) (Some (VInt 1)) /\ holds_after cmds (None, GV_round) (Some (VInt 1)) /\
  holds_after cmds (None, GV_sub_round) (Some (VInt 2)) /\ holds_after cmds (None, GV_richii_remain_scores) (Some (VInt 1000)) /\
  holds_after cmds (Some 1, PV_is_dealer) (Some (VBool true)) /\ holds_after cmds (Some 0, PV_is_dealer) (Some (VBool false)).
Proof.
  destruct hd_converts as [cmds E]. exists cmds. split; [exact E|].
  destruct (C74_deal _ _ _ (hd_log ++ [hd_back]) hd_deal 5 2 1 [2; 5; 77] _ ltac:(last_at 4%nat; [reflexivity|none; discriminate]) eq_refl ltac:(lia) E) as (A & B & C & D).
  split; [exact A|]. split; [exact B|]. split; [exact C|]. split; [exact D|].
  assert (L : last_such (fun e => tag e = t_ "INIT" \/ tag e = t_ "TAIKYOKU") hd_deal (hd_log ++ [hd_back])).
  { last_at 4%nat; [left; reflexivity|none; intros [K|K]; discriminate K]. }
  destruct (C74_dealer _ _ _ _ hd_deal 1 1 _ L eq_refl ltac:(unfold seat; lia) (hd_seats 1) E) as [b [V W]].
  destruct (C74_dealer _ _ _ _ hd_deal 1 0 _ L eq_refl ltac:(unfold seat; lia) (hd_seats 0) E) as [b' [V' W']].
  destruct b; [|destruct W as [_ W]; discriminate (W eq_refl)]. destruct b'; [destruct W' as [W' _]; specialize (W' eq_refl); discriminate W'|]. auto.
Qed.
Definition hd_late : event := ex_event (t_ "INIT") [(t_ "seed", t_ "12,0,0,1,1,1"); (t_ "ten", t_ "250,250,250,250"); (t_ "oya", t_ "0")].
Example C74_late_example : exists err, to_commands hd_tr true ([] ++ hd_go :: [hd_oya] ++ hd_late :: []) = Err err.
Proof.
  refine (C74_late _ _ _ [] hd_go [hd_oya] hd_late [] 169 12 [0; 0; 1; 1; 1] eq_refl eq_refl _ eq_refl eq_refl _); [constructor; [discriminate|constructor]|].
  change (flag 169 3) with true. cbv iota. lia.
Qed.
Lemma hd_announced p s e : tag e = t_ "UN" -> holds e (t_ "n" ++ str_int p) s -> not_blank s = true -> announced p e.
Proof. intros T H N. exists s. split; [exact T|]. split; [exact H|]. now apply not_blank_iff. Qed.
(** Seat 3 has left and come back; levels and rates stay those first announced. *)
Example C75_example : exists cmds, to_commands hd_tr true (hd_log ++ [hd_back]) = Ok cmds /\
  holds_after cmds (Some 3, PV_name) (Some (VStr (t_ "d"))) /\ holds_after cmds (Some 0, PV_level) (Some (VStr [19971; 27573])) /\
  holds_after cmds (Some 2, PV_extra_level) (Some (VNum (NDec 150244 2))) /\ holds_after cmds (Some 3, PV_disconnected) (Some (VBool false)) /\
  exists cmds0, to_commands hd_tr true hd_log = Ok cmds0 /\ holds_after cmds0 (Some 3, PV_disconnected) (Some (VBool true)).
Proof.
  destruct hd_converts as [cmds E]. exists cmds. split; [exact E|]. split; [|split; [|split; [|split]]].
  - refine (C75_name _ _ _ (hd_log ++ [hd_back]) hd_back 3 (t_ "d") _ ltac:(unfold seat; lia) _ eq_refl E). last_at 7%nat; [apply (hd_announced 3 (t_ "d")); reflexivity|none].
  - destruct (C75_level _ _ _ (hd_log ++ [hd_back]) hd_un 0 [16; 12; 9; 0] 16 cmds ltac:(unfold seat; lia)
      ltac:(last_at 2%nat; [split; [apply (hd_announced 0 (t_ "a")); reflexivity|eexists; reflexivity]|none; intros [_ [s K]]; discriminate K]) eq_refl eq_refl ltac:(lia) E) as [name [G V]].
    remember 16 as d eqn:Q. destruct G as [|k K|k c K N|]; try lia. assert (k = 7) by lia. subst k. injection N as <-. exact V.
  - destruct (C75_rate _ _ _ (hd_log ++ [hd_back]) hd_un 2 [t_ "2010.50"; t_ "1800.00"; t_ "1502.44"; t_ "1500.00"] (t_ "1502.44") cmds ltac:(unfold seat; lia)
      ltac:(last_at 2%nat; [split; [apply (hd_announced 2 (t_ "c")); reflexivity|eexists; reflexivity]|none; intros [_ [s K]]; discriminate K]) eq_refl
      ltac:(repeat constructor; vm_compute; intuition discriminate) eq_refl E) as [r [Q V]]. vm_compute in Q. injection Q as <-. exact V.
  - destruct (C75_connection _ _ _ (hd_log ++ [hd_back]) hd_back 3 cmds ltac:(unfold seat; lia)
      ltac:(last_at 7%nat; [left; apply (hd_announced 3 (t_ "d")); reflexivity|none])
      ltac:(repeat (constructor; [intro T; first [discriminate T|exists 3; reflexivity]|]); constructor) E) as [b [V [_ W]]].
    assert (b = false) by (apply W, (hd_announced 3 (t_ "d")); reflexivity). subst b. exact V.
  - destruct (to_commands hd_tr true hd_log) as [cmds0|] eqn:E0; [|vm_compute in E0; discriminate E0]. exists cmds0. split; [reflexivity|].
    destruct (C75_connection _ _ _ hd_log hd_bye 3 cmds0 ltac:(unfold seat; lia)
      ltac:(last_at 6%nat; [right; split; reflexivity|none])
      ltac:(repeat (constructor; [intro T; first [discriminate T|exists 3; reflexivity]|]); constructor) E0) as [b [V [W _]]].
    assert (b = true) by (apply W; split; reflexivity). subst b. exact V.
Qed.
Example C76_example : exists cmds, to_commands hd_tr true (hd_log ++ [hd_back]) = Ok cmds /\
  holds_after cmds (Some 2, PV_in_richii) (Some (VBool true)) /\ holds_after cmds (Some 1, PV_in_richii) (Some (VBool false)).
Proof.
  destruct hd_converts as [cmds E]. exists cmds. split; [exact E|].
  assert (NI : Forall (fun e' => tag e' <> t_ "INIT") [hd_reach; hd_bye; hd_back]) by (repeat (constructor; [discriminate|]); constructor).
  assert (NS : names_seats (t_ "REACH") [hd_reach; hd_bye; hd_back]) by (repeat (constructor; [intro T; first [discriminate T|exists 2; reflexivity]|]); constructor).
  change (hd_log ++ [hd_back]) with ([hd_shuffle; hd_go; hd_un; hd_oya] ++ hd_deal :: [hd_reach; hd_bye; hd_back]) in E.
  destruct (C76_riichi _ _ _ [hd_shuffle; hd_go; hd_un; hd_oya] hd_deal [hd_reach; hd_bye; hd_back] 2 cmds ltac:(unfold seat; lia) eq_refl NI (hd_seats 2) NS E) as [b [V W]].
  destruct (C76_riichi _ _ _ [hd_shuffle; hd_go; hd_un; hd_oya] hd_deal [hd_reach; hd_bye; hd_back] 1 cmds ltac:(unfold seat; lia) eq_refl NI (hd_seats 1) NS E) as [b' [V' W']].
  assert (b = true) by (apply W; exists hd_reach; split; [now left|split; [reflexivity|split; reflexivity]]). subst b.
  destruct b'; [exfalso|auto]. destruct W' as [W' _]. destruct (W' eq_refl) as [d [[<-|[<-|[<-|[]]]] [T [Hw _]]]]; try discriminate T. discriminate Hw.
Qed.
Print Assumptions C72_settings.
Print Assumptions C72_seed.
Print Assumptions C73_never.
Print Assumptions C74_deal.
Print Assumptions C74_late.
Print Assumptions C74_dealer.
Print Assumptions C75_name.
Print Assumptions C75_level.
Print Assumptions C75_rate.
Print Assumptions C75_connection.
Print Assumptions C76_riichi.
