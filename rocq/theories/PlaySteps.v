(** One event of a log: what it does to the values and to the right-most tile. *)
From Verif Require Import Base Category Tile Parse Text Tenhou TenhouProofs Spec_Tile Spec_Meld MeldProofs Prop_Meld Event Const Reader Spec_Log StateProofs Value Universe Translator TenhouCommands
  Transfer Spec_Transfer Spec_Universe UniverseProofs Prop_Executor CommandProofs Prop_Commands Spec_Play CommandState CommandPlay.
From Coq Require Import String List ZArith Lia Bool Permutation.
Import ListNotations.
Open Scope list_scope.
Open Scope Z_scope.

Section Steps.
Context (unquote : text -> text) (set_order : list Z -> list Z).
Local Notation tr := (tenhou_command unquote set_order).
Local Notation handle := (handle unquote set_order).

Definition val_at (x : ctx) (s : sub) (v : Universe.view) : option val := iget (x_vals x) (s, v).
Definition step_of (x x' : ctx) (s : sub) (v : Universe.view) (ds : list (update * val)) : Prop :=
  run_deeds v (val_at x s v) ds = Ok (val_at x' s v).
Lemma step_none x x' s v : step_of x x' s v [] -> val_at x' s v = val_at x s v.
Proof. unfold step_of. cbn [run_deeds]. intro H. congruence. Qed.
(** The seat exists as far as the log has said. *)
Definition counted_in (p : Z) (x : ctx) : Prop :=
  forall v, val_at x sub_all RV_player_count = Some v -> exists n, v = VInt n /\ p < n.
Lemma counted_count p x n : counted_in p x -> ctx_player_count x = Ok n -> p < n.
Proof.
  unfold counted_in, val_at, ctx_player_count. intros C H. destruct (iget (x_vals x) (sub_all, RV_player_count)) as [v|]; [|discriminate].
  destruct (C v eq_refl) as [m [-> L]]. apply Ok_inj in H. subst n. exact L.
Qed.

Lemma deed_self p v q u w (w' : Universe.view) : deeds (SId p, v) [cmd w' u (SId q) w None] = if (q =? p) && view_eqb w' v then [(u, w)] else [].
Proof. unfold deeds, about. cbn [filter cmd c_sub c_prop fst snd sub_eqb]. destruct ((q =? p) && view_eqb w' v); reflexivity. Qed.

(** The game type. *)
Lemma as_int_list : forall l zs, mapM as_int l = Ok zs -> map NInt zs = l.
Proof.
  induction l as [|n l IH]; intros zs H; cbn [mapM] in H; [apply Ok_inj in H; now subst|]. peelb H. apply Ok_inj in H. subst zs.
  destruct n; [|discriminate]. apply Ok_inj in E. subst v. cbn [map]. f_equal. now apply IH.
Qed.
Lemma py_nth_last {A} (l : list A) a : py_nth (l ++ [a]) (-1) = Ok a.
Proof.
  unfold py_nth. rewrite app_length. cbn [length]. cbv zeta. change (-1 <? 0) with true. cbv iota.
  replace (-1 + Z.of_nat (length l + 1)) with (Z.of_nat (length l)) by lia. rewrite Nat2Z.id.
  replace ((Z.of_nat (length l) <? 0) || (Z.of_nat (length l + 1) <=? Z.of_nat (length l))) with false by (symmetry; apply orb_false_iff; split; [apply Z.ltb_ge|apply Z.leb_gt]; lia).
  rewrite nth_error_app2, Nat.sub_diag by lia. reflexivity.
Qed.
Lemma go_step strict e i x cmds x' p : tag e = t_ "GO" -> call tr strict e i x = Ok (cmds, x') ->
  (exists v, holds e (t_ "type") (str_int v) /\ (flag v 4 = false \/ p < 3)) -> seat p -> counted_in p x'.
Proof.
  intros T H [v [Hv Pl]] P. destruct (call_inv unquote set_order _ _ _ _ _ _ H) as [raw [x1 [Hh [_ [_ [_ D]]]]]].
  unfold CommandProofs.handle in Hh. 
  replace (hfind (handlers unquote set_order) (tag e)) with (Some game_type_command) in Hh by (rewrite T; reflexivity).
  unfold game_type_command, default_event_type in Hh. rewrite (holds_attr _ _ _ Hv) in Hh. cbn [bindr] in Hh. rewrite py_int_str in Hh. cbn [bindr] in Hh.
  peelb Hh. apply Ok_inj in Hh. injection Hh as -> _. peelb E. cbv zeta in E. apply Ok_inj in E. subst v0. cbn [fst] in D.
  specialize (D (sub_all, RV_player_count)). rewrite typed_deeds in D. cbn [snd] in D.
  match type of D with _ = Ok ?o => assert (Q : o = Some (VInt (player_count v1))) by (apply Ok_inj in D; exact D) end.
  intros w Hw. unfold val_at in Hw. rewrite Q in Hw. injection Hw as <-. eexists. split; [reflexivity|].
  assert (R : 0 <= v < 65536).
  { destruct (Z_le_dec 0 v), (Z_lt_dec v 65536); try (split; assumption); exfalso; rewrite C28_rejected in E0 by lia; discriminate. }
  destruct (C28_flags v R) as [g [G [_ [_ [_ [PC _]]]]]]. assert (g = v1) by congruence. subst g. rewrite PC.
  unfold seat in P. destruct (flag v 4); [|lia]. destruct Pl as [|]; [discriminate|lia].
Qed.
Lemma count_kept x x' p : step_of x x' sub_all RV_player_count [] -> counted_in p x -> counted_in p x'.
Proof. intros S0 C v H. apply C. rewrite <- (step_none _ _ _ _ S0). exact H. Qed.

(** Properties of a player that only deals and play change. *)
Definition play_only (v : Universe.view) : Prop :=
  In v [PV_discard_tiles; PV_discard_from_hand; PV_fixed_meld; PV_meld_public_tiles; PV_bonus_tiles; PV_round].
Definition right_set (x x' : ctx) (p : Z) (t : option Z) : Prop :=
  forall r, rget (x_right x') r = if p =? r then Some t else rget (x_right x) r.

(** What the event of an action does, seen by seat [p]. *)
Definition act_step (p : Z) (a : action) (e : event) (x x' : ctx) : Prop :=
  match a with
  | Deal d => rget (x_right x') p = Some None /\ (exists dora, tile_str_list [d_dora d] = Ok dora /\ step_of x x' sub_all GV_dora_indicators [(U_REPLACE, dora)]) /\
      exists hand score, (d_hands d p <> [] -> tile_str_list (d_hands d p) = Ok hand) /\
        dealt e p hand score /\ forall v, v <> PV_is_dealer -> step_of x x' (SId p) v (init_deeds v hand score)
  | Draw q t => right_set x x' q (Some t) /\ step_of x x' sub_all GV_dora_indicators [] /\
      forall v, step_of x x' (SId p) v (if (q =? p) && view_eqb PV_hand v then [(U_ADD, VList [printed t])] else [])
  | Discard q t => exists dt, rget (x_right x) q = Some dt /\ right_set x x' q None /\ step_of x x' sub_all GV_dora_indicators [] /\
      forall v, step_of x x' (SId p) v
        (if q =? p then match v with
                        | PV_round => [(U_ADD, VInt 1)]
                        | PV_discard_from_hand => [(U_ADD, VList [VBool (negb (opt_Z_eqb t dt))])]
                        | PV_hand => [(U_REMOVE, VList [printed t])]
                        | PV_discard_tiles => [(U_ADD, VList [printed t])]
                        | _ => []
                        end else [])
  | Call q c => exists m own all, decoded q c m /\ tile_strs (set_order (m_self m)) = Ok own /\
      tile_strs (set_order (set_union (m_self m) (m_borrowed m))) = Ok all /\ right_set x x' q None /\ step_of x x' sub_all GV_dora_indicators [] /\
      forall v, step_of x x' (SId p) v
        (if q =? p then match v with
                        | PV_meld_public_tiles => [(U_ADD, texts own)]
                        | PV_bonus_tiles => match m_class m with CKita => [(U_ADD, texts all)] | _ => [] end
                        | PV_fixed_meld => match m_class m with CKita => [] | _ => [(U_ADD, VList [texts all])] end
                        | PV_hand => [(U_REMOVE, texts own)]
                        | _ => []
                        end else [])
  | NewDora t => x_right x' = x_right x /\ step_of x x' sub_all GV_dora_indicators [(U_ADD, VList [printed t])] /\
      forall v, step_of x x' (SId p) v []
  | Other => x_right x' = x_right x /\ step_of x x' sub_all GV_dora_indicators [] /\ forall v, play_only v -> step_of x x' (SId p) v []
  end.

Lemma play_step strict e i x cmds x' a p : seat p -> legal_action a -> writes a e -> counted_in p x ->
  (tag e = t_ "GO" -> exists v, holds e (t_ "type") (str_int v) /\ (flag v 4 = false \/ p < 3)) ->
  call tr strict e i x = Ok (cmds, x') -> act_step p a e x x' /\ counted_in p x'.
Proof.
  intros P L W C GO H. destruct (call_inv unquote set_order _ _ _ _ _ _ H) as [raw [x1 [Hh [_ [_ [RX D]]]]]].
  assert (DS : forall s v, step_of x x' s v (deeds (s, v) raw)) by (intros s v; exact (D (s, v))).
  destruct a as [d|q t|q t|q c|t|].
  - pose proof W as (T & Ws & Wh).
    destruct (handle_deal unquote set_order e x raw x1 T Hh) as [n [seed [oya [d0 [dora [PC [[s [S1 S2]] [ND [[d' [AI TD]] [R [G [_ [DO [RC _]]]]]]]]]]]]]].
    pose proof (counted_count p x n C PC) as Lp. split.
    + cbn [act_step]. split.
      { rewrite RX, R. replace (existsb (Z.eqb p) (zrange 0 n)) with true; [reflexivity|]. symmetry. apply existsb_exists. exists p.
        split; [|apply Z.eqb_refl]. apply in_zrange. unfold seat in P. lia. }
      split.
      { exists dora. split; [|pose proof (DS sub_all GV_dora_indicators) as K; rewrite DO in K; exact K].
        rewrite (holds_attr _ _ _ Ws) in S1. apply Ok_inj in S1. subst s.
        pose proof (int_list_comma (d_round d ++ [d_dora d]) ltac:(intro K; apply app_eq_nil in K; destruct K; discriminate)) as IL.
        unfold int_list in IL. rewrite S2 in IL. cbn [bindr] in IL.
        assert (Q : d' = d_dora d); [|subst d'; exact TD].
        destruct (as_int_list _ _ IL). rewrite map_app in ND. cbn [map] in ND. rewrite py_nth_last in ND. apply Ok_inj in ND. subst d0. apply Ok_inj in AI. exact AI. }
      destruct (G p ltac:(unfold seat in P; lia)) as [hand [score [Dl K]]]. exists hand, score. split; [|split].
      * intro NE. destruct Dl as [ten [scs [ht [rw [sc [_ [_ [A [B [B' _]]]]]]]]]]. rewrite (holds_attr _ _ _ (Wh p P)) in A. apply Ok_inj in A. subst ht.
        rewrite int_list_comma in B by exact NE. apply Ok_inj in B. subst rw. exact B'.
      * exact Dl.
      * intros v N. rewrite <- (K v N). apply DS.
    + apply (count_kept x); [|exact C]. rewrite <- (RC RV_player_count eq_refl). apply DS.
  - destruct L as [Sq V]. rewrite (handle_draw unquote set_order q t e x Sq V W) in Hh. apply Ok_inj in Hh. injection Hh as -> ->. split.
    + cbn [act_step]. split; [intro r; rewrite RX; apply rget_set|]. split; [exact (DS sub_all GV_dora_indicators)|].
      intro v. pose proof (DS (SId p) v) as K.
      change [with_event (cmd PV_hand U_ADD (SId q) (VList [printed t]) None) E_draw] with (map (fun c => with_event c E_draw) [cmd PV_hand U_ADD (SId q) (VList [printed t]) None]) in K.
      rewrite typed_deeds in K. rewrite <- (deed_self p v q U_ADD (VList [printed t]) PV_hand). exact K.
    + apply (count_kept x); [|exact C]. exact (DS sub_all RV_player_count).
  - destruct L as [Sq V]. destruct (handle_discard unquote set_order q t e x raw x1 Sq V W Hh) as [dt [RG [-> K]]]. split.
    + cbn [act_step]. exists dt. split; [exact RG|]. split; [intro r; rewrite RX; apply rget_set|].
      split; [pose proof (DS sub_all GV_dora_indicators) as K1; rewrite K in K1; exact K1|].
      intro v. pose proof (DS (SId p) v) as K1. rewrite K in K1. unfold deeds, about in K1. cbn [filter cmd c_sub c_prop fst snd sub_eqb] in K1.
      destruct (q =? p); cbn [andb map] in K1; [|exact K1]. destruct v; exact K1.
    + apply (count_kept x); [|exact C]. pose proof (DS sub_all RV_player_count) as K1. rewrite K in K1. exact K1.
  - destruct (handle_call unquote set_order q c e x raw x1 L W Hh) as [m [own [all [Dc [O1 [O2 [-> K]]]]]]]. split.
    + cbn [act_step]. exists m, own, all. split; [exact Dc|]. split; [exact O1|]. split; [exact O2|]. split; [intro r; rewrite RX; apply rget_set|].
      split; [pose proof (DS sub_all GV_dora_indicators) as K1; rewrite K in K1; destruct (m_class m); exact K1|].
      intro v. pose proof (DS (SId p) v) as K1. rewrite K in K1. unfold deeds, about in K1.
      destruct (m_class m); cbn [filter cmd c_sub c_prop fst snd sub_eqb] in K1;
      (destruct (q =? p); cbn [andb map] in K1; [|exact K1]); destruct v; exact K1.
    + apply (count_kept x); [|exact C]. pose proof (DS sub_all RV_player_count) as K1. rewrite K in K1. destruct (m_class m); exact K1.
  - pose proof W as (T & Wh). unfold CommandProofs.handle in Hh.
    replace (hfind (handlers unquote set_order) (tag e)) with (Some dora_command) in Hh by (rewrite T; reflexivity).
    unfold dora_command, default_event_type in Hh. rewrite (holds_attr _ _ _ Wh) in Hh. cbn [bindr] in Hh.
    change (str_int t) with (comma_list [t]) in Hh. rewrite int_list_comma in Hh by discriminate. cbn [bindr] in Hh.
    rewrite tile_str_list_valid in Hh by (constructor; [exact L|constructor]). cbn [bindr fst snd map] in Hh. apply Ok_inj in Hh. injection Hh as -> ->. split.
    + cbn [act_step]. split; [exact RX|]. split; [exact (DS sub_all GV_dora_indicators)|]. intro v. exact (DS (SId p) v).
    + apply (count_kept x); [|exact C]. exact (DS sub_all RV_player_count).
  - destruct (other_props unquote set_order e x raw x1 W Hh) as [F R].
    assert (NV : forall s v, ~ In v (views_for other_views (tag e)) -> step_of x x' s v []).
    { intros s v N. pose proof (DS s v) as K. rewrite deeds_none in K; [exact K|]. eapply Forall_impl; [|exact F]. intros c0 I0 Q. cbn beta in I0. cbn [snd] in Q. rewrite Q in I0. contradiction. }
    assert (VO : forall v, In v (GV_dora_indicators :: [PV_discard_tiles; PV_discard_from_hand; PV_fixed_meld; PV_meld_public_tiles; PV_bonus_tiles; PV_round]) -> forall t, ~ In v (views_for other_views t)).
    { intros v I0 t. unfold other_views. cbn [views_for].
      repeat (match goal with |- ~ In _ (if ?b then _ else _) => destruct b end; [cbn; cbn in I0; intuition congruence|]). intros []. }
    split.
    + cbn [act_step]. split; [congruence|]. split; [apply NV, VO; now left|]. intros v I0. apply NV, VO. now right.
    + destruct (text_eqb (tag e) (t_ "GO")) eqn:Q.
      * apply text_eqb_iff in Q. eapply go_step; eauto.
      * apply (count_kept x); [|exact C]. apply NV. unfold other_views. cbn [views_for].
        replace (text_eqb (t_ "GO") (tag e)) with false.
        2: { symmetry. apply not_true_iff_false. intro K. apply text_eqb_iff in K. rewrite <- K in Q. rewrite text_eqb_refl in Q. discriminate. }
        repeat (match goal with |- ~ In _ (if ?b then _ else _) => destruct b end; [cbn; intuition congruence|]). intros [].
Qed.
End Steps.
