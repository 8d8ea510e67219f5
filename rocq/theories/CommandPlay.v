(** The play events: the updates they make. *)
From Verif Require Import Base Category Tile Parse Text Tenhou TenhouProofs Spec_Tile Spec_Meld MeldProofs Prop_Meld Event Const Reader Spec_Log StateProofs Value Universe Translator TenhouCommands
  Transfer Spec_Transfer Spec_Universe UniverseProofs Prop_Executor CommandProofs Prop_Commands Spec_Play CommandState.
From Coq Require Import String List ZArith Lia Bool Permutation.
Import ListNotations.
Open Scope list_scope.
Open Scope Z_scope.


Section Handlers.
Context (unquote : text -> text) (set_order : list Z -> list Z).
Local Notation tr := (tenhou_command unquote set_order).
Local Notation handle := (handle unquote set_order).

(** ** Printed tiles *)
Definition ptext (t : Z) : text := [48 + (if is_red t then 0 else snd (face t)); suit_letter (fst (face t))].
Lemma printed_ptext t : printed t = VStr (ptext t). Proof. reflexivity. Qed.
Lemma tile_prints t : valid_tile t -> (do k <- tile_from_tenhou t; Ok (tile_str k)) = Ok (ptext t).
Proof.
  intro V.
  assert (G : (match (do k <- tile_from_tenhou t; Ok (tile_str k)) with Ok s => text_eqb s (ptext t) | Err _ => false end) = true).
  { revert t V. unfold valid_tile. apply forall_range; [lia|]. vm_compute. reflexivity. }
  destruct (do k <- tile_from_tenhou t; Ok (tile_str k)) as [s|]; [|discriminate]. apply text_eqb_iff in G. now subst.
Qed.
Lemma tile_strs_valid l : Forall valid_tile l -> tile_strs l = Ok (map ptext l).
Proof.
  unfold tile_strs. induction 1 as [|t l V F IH]; [reflexivity|]. cbn [mapM map]. rewrite (tile_prints t V). cbn [bindr]. rewrite IH. reflexivity.
Qed.
Lemma texts_printed l : texts (map ptext l) = VList (map printed l).
Proof. unfold texts. rewrite map_map. reflexivity. Qed.
Lemma tile_str_list_valid l : Forall valid_tile l -> tile_str_list l = Ok (VList (map printed l)).
Proof. intro V. unfold tile_str_list. rewrite (tile_strs_valid l V). cbn [bindr]. now rewrite texts_printed. Qed.
(** ** Play events *)
Lemma seat_cases p : seat p -> p = 0 \/ p = 1 \/ p = 2 \/ p = 3. Proof. unfold seat. lia. Qed.
Lemma tag_unnamed (a : action) e p t l : 84 <= l <= 87 \/ 68 <= l <= 71 -> 0 <= t -> tag e = l :: str_int t ->
  hfind (handlers unquote set_order) (tag e) = None /\ (p = 0 -> True).
Proof.
  intros L T E. split; [|auto]. destruct (hfind (handlers unquote set_order) (tag e)) as [h|] eqn:F; [|reflexivity].
  exfalso. apply hfind_in in F. apply (named_not_tile _ _ _ _ F). rewrite E. destruct (str_int_nonneg t T) as (A & B & _).
  destruct (str_int t) as [|c r]; [congruence|]. exists l, c, r. split; [reflexivity|]. split; [exact L|].
  cbn [forallb] in B. unfold ch_digit in B. rewrite !andb_true_iff, !Z.leb_le in B. lia.
Qed.
Lemma change_draw p t e : seat p -> valid_tile t -> writes (Draw p t) e -> tile_change DRAW_INDICATOR e = Some (p, t).
Proof.
  intros P V W. cbn [writes] in W. unfold tile_change. rewrite W. unfold valid_tile in V.
  rewrite regex_full_str; [|unfold draw_letter, DRAW_INDICATOR; destruct (seat_cases p P) as [->|[->|[->| ->]]]; cbn; tauto|lia].
  cbn [option_map fst snd]. rewrite (proj2 (proj2 (str_int_nonneg t ltac:(lia)))).
  destruct (seat_cases p P) as [->|[->|[->| ->]]]; reflexivity.
Qed.
Lemma change_discard p t e : seat p -> valid_tile t -> writes (Discard p t) e ->
  tile_change DISCARD_INDICATOR e = Some (p, t) /\ tile_change DRAW_INDICATOR e = None.
Proof.
  intros P V W. cbn [writes] in W. unfold tile_change. rewrite W. unfold valid_tile in V. split.
  - rewrite regex_full_str; [|unfold discard_letter, DISCARD_INDICATOR; destruct (seat_cases p P) as [->|[->|[->| ->]]]; cbn; tauto|lia].
    cbn [option_map fst snd]. rewrite (proj2 (proj2 (str_int_nonneg t ltac:(lia)))).
    destruct (seat_cases p P) as [->|[->|[->| ->]]]; reflexivity.
  - rewrite regex_full_other; [reflexivity|]. destruct (seat_cases p P) as [->|[->|[->| ->]]]; cbn; lia.
Qed.
Lemma handle_draw p t e x : seat p -> valid_tile t -> writes (Draw p t) e ->
  handle e x = Ok ([with_event (cmd PV_hand U_ADD (SId p) (VList [printed t]) None) E_draw], set_right x p (Some t)).
Proof.
  intros P V W. unfold CommandProofs.handle. 
  destruct (tag_unnamed (Draw p t) e p t (draw_letter p)) as [-> _]; [unfold draw_letter, seat in *; lia|unfold valid_tile in V; lia|exact W|].
  unfold default_handle, draw_command, default_event_type. rewrite (change_draw p t e P V W). unfold hand_update. cbn [bindr].
  rewrite tile_str_list_valid by (constructor; [exact V|constructor]). reflexivity.
Qed.
Lemma handle_discard p t e x raw x' : seat p -> valid_tile t -> writes (Discard p t) e -> handle e x = Ok (raw, x') ->
  exists dt, rget (x_right x) p = Some dt /\ x' = set_right x p None /\
  forall k, deeds k raw = deeds k
    [cmd PV_round U_ADD (SId p) (VInt 1) None;
     cmd PV_discard_from_hand U_ADD (SId p) (VList [VBool (negb (opt_Z_eqb t dt))]) None;
     cmd PV_hand U_REMOVE (SId p) (VList [printed t]) None;
     cmd PV_discard_tiles U_ADD (SId p) (VList [printed t]) None].
Proof.
  intros P V W H. unfold CommandProofs.handle in H.
  destruct (tag_unnamed (Discard p t) e p t (discard_letter p)) as [Q _]; [unfold discard_letter, seat in *; lia|unfold valid_tile in V; lia|exact W|].
  rewrite Q in H. clear Q. destruct (change_discard p t e P V W) as [A B].
  unfold default_handle, draw_command, discard_command, default_event_type in H. rewrite B in H. cbn [bindr fst snd map] in H. rewrite A in H.
  rewrite tile_str_list_valid in H by (constructor; [exact V|constructor]). cbn [bindr] in H.
  destruct (rget (x_right x) p) as [dt|]; [|discriminate H]. cbn [bindr] in H. unfold hand_update in H.
  rewrite tile_str_list_valid in H by (constructor; [exact V|constructor]). cbn [bindr fst snd app map] in H.
  apply Ok_inj in H. injection H as -> ->. exists dt. split; [reflexivity|]. split; [reflexivity|]. intro k. symmetry. rewrite <- (typed_deeds k E_discard). reflexivity.
Qed.
Lemma handle_call p v e x raw x' : legal_action (Call p v) -> writes (Call p v) e -> handle e x = Ok (raw, x') ->
  exists m own all, decoded p v m /\ tile_strs (set_order (m_self m)) = Ok own /\
  tile_strs (set_order (set_union (m_self m) (m_borrowed m))) = Ok all /\ x' = set_right x p None /\
  forall k, deeds k raw = deeds k
    [cmd PV_meld_public_tiles U_ADD (SId p) (texts own) None;
     match m_class m with
     | CKita => cmd PV_bonus_tiles U_ADD (SId p) (texts all) None
     | _ => cmd PV_fixed_meld U_ADD (SId p) (VList [texts all]) None
     end;
     cmd PV_hand U_REMOVE (SId p) (texts own) None].
Proof.
  intros L W H. unfold CommandProofs.handle in H. pose proof W as (T & Wh & _).
  replace (hfind (handlers unquote set_order) (tag e)) with (Some (open_hand set_order)) in H by (rewrite T; reflexivity).
  unfold open_hand, default_event_type in H. rewrite (meld_from_eq p v e W) in H. destruct (decode_call p v L) as [m [E D]]. rewrite E in H. cbn [bindr] in H.
  rewrite (holds_attr _ _ _ Wh) in H. cbn [bindr] in H. rewrite py_int_str in H. cbn [bindr] in H.
  peelb H. apply Ok_inj in H. injection H as -> ->. peelb E0. apply Ok_inj in E0. subst v0. cbn [fst snd].
  apply tile_str_list_texts in E1, E2. destruct E1 as [own [O1 ->]], E2 as [all [O2 ->]].
  unfold hand_update in E3. unfold tile_str_list in E3. rewrite O1 in E3. cbn [bindr app] in E3. apply Ok_inj in E3. subst v3. cbn [fst snd].
  exists m, own, all. split; [exact D|]. split; [exact O1|]. split; [exact O2|]. split; [reflexivity|].
  intro k. rewrite typed_deeds. reflexivity.
Qed.

(** ** The deal *)
Definition init_deeds (v : Universe.view) (hand score : val) : list (update * val) :=
  match v with
  | PV_discard_tiles | PV_fixed_meld | PV_meld_public_tiles | PV_bonus_tiles | PV_round | PV_discard_from_hand => [(U_RESET_DEFAULT, VNone)]
  | PV_in_richii => [(U_REPLACE, VBool false)]
  | PV_hand => [(U_REPLACE, hand)]
  | PV_score => [(U_ASSERT_EQUAL_OR_SET, score)]
  | _ => []
  end.
Definition dealt (e : event) (p : Z) (hand score : val) : Prop :=
  exists ten scs ht raw sc, attr e (t_ "ten") = Ok ten /\ number_list ten = Ok scs /\ attr e (t_ "hai" ++ str_int p) = Ok ht /\ int_list ht = Ok raw /\
    tile_str_list raw = Ok hand /\ py_nth scs p = Ok sc /\ score = VNum (num_scale sc 100).
Lemma init_player_deeds e q x l x' : init_player e q x = Ok (l, x') ->
  x' = set_right x q None /\ exists hand score, dealt e q hand score /\
  (forall p v, deeds (SId p, v) l = if q =? p then init_deeds v hand score else []) /\ (forall v, deeds (sub_all, v) l = []).
Proof.
  unfold init_player. intro H. peelb H. apply Ok_inj in H. injection H as -> ->. unfold hand_update in E3. peelb E3.
  apply Ok_inj in E3. subst v3. cbn [fst snd]. match goal with K : Ok None = Ok _ |- _ => apply Ok_inj in K; subst end.
  split; [reflexivity|]. exists v6, (VNum (num_scale v4 100)). split.
  - exists v, v0, v1, v2, v4. repeat split; assumption.
  - split; [|intro w; reflexivity]. intros p w. unfold deeds, about. cbn [app filter c_sub c_prop cmd fst snd sub_eqb]. destruct (q =? p); cbn [andb map]; [|reflexivity].
    destruct w; reflexivity.
Qed.
Lemma rget_rput l p t q : rget (rput l p t) q = if p =? q then Some t else rget l q.
Proof.
  induction l as [|[r s] l IH]; cbn [rput rget].
  - reflexivity.
  - destruct (r =? p) eqn:E; cbn [rget].
    + apply Z.eqb_eq in E. subst r. destruct (p =? q); reflexivity.
    + destruct (r =? q) eqn:E2; [|exact IH]. apply Z.eqb_eq in E2. subst r. rewrite Z.eqb_sym, E. reflexivity.
Qed.
Lemma rget_set x p t q : rget (x_right (set_right x p t)) q = if p =? q then Some t else rget (x_right x) q.
Proof. apply rget_rput. Qed.
Lemma init_players_deeds e : forall ps x l x', NoDup ps -> init_players e ps x = Ok (l, x') ->
  (forall p, rget (x_right x') p = if existsb (Z.eqb p) ps then Some None else rget (x_right x) p) /\
  forall p, (In p ps -> exists hand score, dealt e p hand score /\ forall v, deeds (SId p, v) l = init_deeds v hand score) /\
            (~ In p ps -> forall v, deeds (SId p, v) l = []) /\ (forall v, deeds (sub_all, v) l = []).
Proof.
  induction ps as [|q ps IH]; intros x l x' N H; cbn [init_players] in H.
  - apply Ok_inj in H. injection H as -> ->. split; [reflexivity|]. intro p. split; [intros []|split; reflexivity].
  - peelb H. destruct v as [a y], v0 as [b z]. cbn [fst snd] in *. apply Ok_inj in H. injection H as -> ->. inversion N as [|? ? N1 N2]; subst.
    destruct (init_player_deeds _ _ _ _ _ E) as [-> [hand [score [D [K K0]]]]]. destruct (IH _ _ _ N2 E0) as [R G]. split.
    + intro p. rewrite R. rewrite rget_set. cbn [existsb]. rewrite (Z.eqb_sym p q). destruct (q =? p), (existsb (Z.eqb p) ps); reflexivity.
    + intro p. destruct (G p) as [G1 [G2 G3]]. split; [|split].
      * intros [->|I0].
        -- exists hand, score. split; [exact D|]. intro v. rewrite deeds_app, K, (G2 N1), Z.eqb_refl, app_nil_r. reflexivity.
        -- destruct (G1 I0) as [h' [s' [D' K']]]. exists h', s'. split; [exact D'|]. intro v. rewrite deeds_app, K, K'.
           replace (q =? p) with false; [reflexivity|]. symmetry. apply Z.eqb_neq. intros ->. contradiction.
      * intros I0 v. rewrite deeds_app, K. replace (q =? p) with false; [apply G2; intro; apply I0; now right|].
        symmetry. apply Z.eqb_neq. intros ->. apply I0. now left.
      * intro v. rewrite deeds_app, K0, G3. reflexivity.
Qed.
Lemma zrange_nodup a b : NoDup (zrange a b).
Proof. unfold zrange. apply FinFun.Injective_map_NoDup; [|apply seq_NoDup]. intros i j. lia. Qed.
Lemma handle_deal e x raw x' : tag e = t_ "INIT" -> handle e x = Ok (raw, x') ->
  exists n seed oya d dora, ctx_player_count x = Ok n /\
  (exists s, attr e (t_ "seed") = Ok s /\ number_list s = Ok seed) /\ py_nth seed (-1) = Ok d /\ (exists d', as_int d = Ok d' /\ tile_str_list [d'] = Ok dora) /\
  (forall p, rget (x_right x') p = if existsb (Z.eqb p) (zrange 0 n) then Some None else rget (x_right x) p) /\
  (forall p, 0 <= p < n -> exists hand score, dealt e p hand score /\ forall v, v <> PV_is_dealer -> deeds (SId p, v) raw = init_deeds v hand score) /\
  (forall p, ~ (0 <= p < n) -> forall v, v <> PV_is_dealer -> deeds (SId p, v) raw = []) /\
  deeds (sub_all, GV_dora_indicators) raw = [(U_REPLACE, dora)] /\
  (forall v, scope_of v = SRecord -> deeds (sub_all, v) raw = []) /\
  (exists o, attr e (t_ "oya") = Ok o /\ py_int o = Ok oya) /\
  (forall p, deeds (SId p, PV_is_dealer) raw = if existsb (Z.eqb p) (zrange 0 n) then [(U_REPLACE, VBool (oya =? p))] else []).
Proof.
  intros T H. unfold CommandProofs.handle in H.
  replace (hfind (handlers unquote set_order) (tag e)) with (Some (game_init_command)) in H by (rewrite T; reflexivity).
  unfold game_init_command, default_event_type in H. peelb H. apply Ok_inj in H. injection H as -> ->. peelb E.
  match type of E with (match ?l with _ => _ end) = _ => destruct l as [|prevailing [|game_index [|]]]; try discriminate E end.
  peelb E. apply Ok_inj in E. subst v.
  match goal with K : init_players _ _ _ = Ok ?ps |- _ => destruct ps as [lp xp]; rename K into IP end.
  match goal with K : set_oya_command_yield _ _ = Ok ?o |- _ => rename K into OY; rename o into oyas end.
  match goal with K : ctx_player_count x = Ok ?n |- _ => rename K into PC; rename n into n0 end.
  destruct (init_players_deeds _ _ _ _ _ (zrange_nodup 0 n0) IP) as [R G]. cbn [fst snd] in *.
  exists n0. do 4 eexists. split; [reflexivity|]. split; [eexists; split; [reflexivity|eassumption]|]. split; [eassumption|]. split; [eexists; split; eassumption|].
  split; [exact R|].
  assert (OD : forall k, snd k <> PV_is_dealer -> deeds k oyas = []).
  { intros k K. apply deeds_none. apply oya_props in OY. eapply Forall_impl; [|exact OY]. intros c [Q|[]]. congruence. }
  assert (ZR : forall p, In p (zrange 0 n0) <-> 0 <= p < n0) by (intro p; apply in_zrange).
  split; [|split; [|split; [|split; [|split]]]].
  - intros p Hp. destruct (G p) as [G1 _]. destruct (G1 (proj2 (ZR p) Hp)) as [hand [score [D K]]]. exists hand, score. split; [exact D|].
    intros v N. rewrite typed_deeds, !deeds_app, (OD (SId p, v) N), K. reflexivity.
  - intros p Hp v N. destruct (G p) as [_ [G2 _]]. rewrite typed_deeds, !deeds_app, (OD (SId p, v) N), G2 by (rewrite ZR; exact Hp). reflexivity.
  - destruct (G 0) as [_ [_ G3]]. rewrite typed_deeds, !deeds_app, OD, G3 by discriminate. reflexivity.
  - intros w S0. destruct (G 0) as [_ [_ G3]]. rewrite typed_deeds, !deeds_app, (OD (sub_all, w)), G3 by (intros K; cbn [snd] in K; rewrite K in S0; discriminate).
    destruct w; try discriminate S0; reflexivity.
  - eexists. split; [reflexivity|eassumption].
  - intro p. rewrite typed_deeds, !deeds_app.
    assert (LP : deeds (SId p, PV_is_dealer) lp = []).
    { destruct (G p) as [G1 [G2 _]]. destruct (in_dec Z.eq_dec p (zrange 0 n0)) as [I0|I0]; [|exact (G2 I0 _)].
      destruct (G1 I0) as [hand [score [_ K]]]. apply K. }
    rewrite LP, app_nil_r. unfold set_oya_command_yield in OY. rewrite PC in OY. cbn [bindr] in OY. apply Ok_inj in OY. subst oyas.
    change (deeds (SId p, PV_is_dealer) (map (fun p_id => cmd PV_is_dealer U_REPLACE (SId p_id) (VBool (v9 =? p_id)) None) (zrange 0 n0)) =
      (if existsb (Z.eqb p) (zrange 0 n0) then [(U_REPLACE, VBool (v9 =? p))] else [])).
    generalize (zrange_nodup 0 n0). generalize (zrange 0 n0). clear. intros l N. induction N as [|q l N1 N2 IH]; [reflexivity|].
    cbn [map existsb]. rewrite deeds_cons, IH. unfold deeds, about. cbn [filter cmd c_sub c_prop fst snd sub_eqb]. rewrite (Z.eqb_sym p q).
    destruct (q =? p) eqn:Q; [|reflexivity]. apply Z.eqb_eq in Q. subst q. cbn [orb].
    replace (existsb (Z.eqb p) l) with false; [reflexivity|]. symmetry. apply not_true_iff_false. rewrite existsb_exists. intros [z [I0 E]].
    apply Z.eqb_eq in E. subst z. contradiction.

Qed.
End Handlers.
