(** C41 and C58: what the universal format shows of the play since the last deal. *)
From Verif Require Import Base Category Tile Parse Text Tenhou TenhouProofs Spec_Tile Spec_Meld MeldProofs Prop_Meld Event Const Reader State Spec_Log StateProofs Prop_State Value Universe Translator TenhouCommands
  Transfer Spec_Transfer Spec_Universe UniverseProofs Prop_Executor CommandProofs Prop_Commands Spec_Play CommandState CommandPlay PlaySteps PlayProofs.
From Coq Require Import String List ZArith Lia Bool Permutation.
Import ListNotations.
Open Scope list_scope.
Open Scope Z_scope.

Lemma step_run x x' s v ds o : step_of x x' s v ds -> val_at x s v = o -> run_deeds v o ds = Ok (val_at x' s v).
Proof. unfold step_of. now intros H <-. Qed.
Lemma step_keep x x' s v o : step_of x x' s v [] -> val_at x s v = o -> val_at x' s v = o.
Proof. intros H <-. now apply step_none. Qed.

Section Tracked.
Context (unquote : text -> text) (so : list Z -> list Z) (SO : forall l, Permutation (so l) l) (strict : bool) (p : Z).
Local Notation tr := (tenhou_command unquote so).

Definition since (before : list action) (d : deal) (after : list action) (x : ctx) : Prop :=
  (exists fs, flags p (before ++ [Deal d]) after fs /\ val_at x (SId p) PV_discard_from_hand = Some (VList (map VBool fs))) /\
  val_at x (SId p) PV_discard_tiles = Some (VList (map printed (discards_of p after))) /\
  val_at x (SId p) PV_round = Some (VInt (Z.of_nat (length (discards_of p after)))) /\
  (exists ms, Forall2 shown_meld (filter (fun v => negb (is_kita v)) (calls_of p after)) ms /\ val_at x (SId p) PV_fixed_meld = Some (VList ms)) /\
  (exists ls, Forall2 (fun v l => tiles_of (laid_down v) l) (calls_of p after) ls /\
     val_at x (SId p) PV_meld_public_tiles = Some (VList (map printed (concat ls)))) /\
  (exists ls, Forall2 (fun v l => tiles_of (laid_down v) l) (filter is_kita (calls_of p after)) ls /\
     val_at x (SId p) PV_bonus_tiles = Some (VList (map printed (concat ls)))) /\
  exists w, tile_str_list [d_dora d] = Ok (VList [w]) /\ val_at x sub_all GV_dora_indicators = Some (VList (w :: map printed (new_doras after))).
Record tracked (acts : list action) (x : ctx) : Prop := mkTracked {
  tk_count : counted_in p x;
  tk_right : forall t, rget (x_right x) p = Some (Some t) <-> just_drew p t acts;
  tk_since : forall before d after, acts = before ++ Deal d :: after -> no_deal after -> since before d after x }.

Lemma perm_tiles (P : Z -> Prop) l : tiles_of P l -> tiles_of P (so l).
Proof.
  intros [N H]. split; [eapply Permutation_NoDup; [apply Permutation_sym, SO|exact N]|]. intro t. rewrite <- H.
  split; apply Permutation_in; [apply SO|apply Permutation_sym, SO].
Qed.
Lemma flat_snoc {A B} (f : A -> list B) l a : flat_map f (l ++ [a]) = flat_map f l ++ f a.
Proof. rewrite flat_map_app. cbn. now rewrite app_nil_r. Qed.
Lemma forall2_snoc {A B} (R : A -> B -> Prop) l m a b : Forall2 R l m -> R a b -> Forall2 R (l ++ [a]) (m ++ [b]).
Proof. intros. apply Forall2_app; auto. Qed.
Lemma concat_snoc {A} (l : list (list A)) a : concat (l ++ [a]) = concat l ++ a.
Proof. rewrite concat_app. cbn. now rewrite app_nil_r. Qed.

Lemma tracked_step acts a e i x x' cmds : seat p -> legal_action a -> writes a e ->
  (tag e = t_ "GO" -> exists v, holds e (t_ "type") (str_int v) /\ (flag v 4 = false \/ p < 3)) ->
  tracked acts x -> call tr strict e i x = Ok (cmds, x') -> tracked (acts ++ [a]) x'.
Proof.
  intros P L W GO [C R S0] H. destruct (play_step _ _ _ _ _ _ _ _ _ _ P L W C GO H) as [A C']. constructor; [exact C'| |].
  - intro t. rewrite just_drew_snoc. rewrite <- R. destruct a as [d|q u|q u|q c|u|]; cbn [act_step concerns] in *.
    + destruct A as [-> _]. split; [discriminate|]. intros [K|[[] _]]; [discriminate|reflexivity].
    + destruct A as [A _]. rewrite A. destruct (q =? p) eqn:Q.
      * apply Z.eqb_eq in Q. subst q. split; [intro K; left; congruence|]. intros [K|[K _]]; [congruence|exfalso; apply K; reflexivity].
      * apply Z.eqb_neq in Q. split; [auto|]. intros [K|[_ K]]; [congruence|exact K].
    + destruct A as [dt [_ [A _]]]. rewrite A. destruct (q =? p) eqn:Q.
      * apply Z.eqb_eq in Q. subst q. split; [discriminate|]. intros [K|[K _]]; [discriminate|exfalso; apply K; reflexivity].
      * apply Z.eqb_neq in Q. split; [auto|]. intros [K|[_ K]]; [discriminate|exact K].
    + destruct A as [m [own [all [_ [_ [_ [A _]]]]]]]. rewrite A. destruct (q =? p) eqn:Q.
      * apply Z.eqb_eq in Q. subst q. split; [discriminate|]. intros [K|[K _]]; [discriminate|exfalso; apply K; reflexivity].
      * apply Z.eqb_neq in Q. split; [auto|]. intros [K|[_ K]]; [discriminate|exact K].
    + destruct A as [-> _]. split; [auto|]. intros [K|[_ K]]; [discriminate|exact K].
    + destruct A as [-> _]. split; [auto|]. intros [K|[_ K]]; [discriminate|exact K].
  - intros before d after Eq N. destruct (last_deal_snoc _ _ _ _ _ Eq N) as [[-> [-> ->]]|[NA [after' [-> [-> N']]]]].
    + cbn [act_step] in A. destruct A as [_ [[dora [TD KD]] [hand [score [_ [_ K]]]]]]. unfold since.
      pose proof (K PV_discard_from_hand ltac:(discriminate)) as K1. pose proof (K PV_discard_tiles ltac:(discriminate)) as K2.
      pose proof (K PV_round ltac:(discriminate)) as K3. pose proof (K PV_fixed_meld ltac:(discriminate)) as K4.
      pose proof (K PV_meld_public_tiles ltac:(discriminate)) as K5. pose proof (K PV_bonus_tiles ltac:(discriminate)) as K6.
      unfold step_of in K1, K2, K3, K4, K5, K6, KD.
      apply Ok_inj in K1. apply Ok_inj in K2. apply Ok_inj in K3. apply Ok_inj in K4. apply Ok_inj in K5. apply Ok_inj in K6. apply Ok_inj in KD.
      split; [exists []; split; [constructor|exact K1]|]. split; [exact K2|]. split; [exact K3|]. split; [exists []; split; [constructor|exact K4]|].
      split; [exists []; split; [constructor|exact K5]|]. split; [exists []; split; [constructor|exact K6]|].
      apply tile_str_list_texts in TD. destruct TD as [ts [TS ->]]. unfold tile_strs in TS. cbn [mapM] in TS. peelb TS. apply Ok_inj in TS. subst ts.
      exists (VStr v). split; [|exact KD]. unfold tile_str_list, tile_strs. cbn [mapM]. rewrite E. reflexivity.
    + destruct (S0 before d after' eq_refl N') as [[fs [S1 V1]] [V2 [V3 [[ms [S4 V4]] [[ls [S5 V5]] [[ks [S6 V6]] [w [S7 V7]]]]]]]]. unfold since.
      unfold discards_of, calls_of, new_doras in *. rewrite !flat_snoc.
      destruct a as [d'|q u|q u|q c|u|]; cbn [act_step] in A; [exfalso; apply NA; exact I| | | | |].
      * destruct A as [_ [KD K]]. rewrite !app_nil_r.
        assert (K' : forall v, v <> PV_hand -> step_of x x' (SId p) v []).
        { intros v Nv. pose proof (K v) as Kv. replace (view_eqb PV_hand v) with false in Kv; [rewrite andb_false_r in Kv; exact Kv|].
          symmetry. apply not_true_iff_false. rewrite view_eqb_iff. congruence. }
        split; [exists fs; split; [apply flags_snoc; [exact S1|discriminate]|apply (step_keep x); [apply K'; discriminate|exact V1]]|].
        split; [apply (step_keep x); [apply K'; discriminate|exact V2]|]. split; [apply (step_keep x); [apply K'; discriminate|exact V3]|].
        split; [exists ms; split; [exact S4|apply (step_keep x); [apply K'; discriminate|exact V4]]|].
        split; [exists ls; split; [exact S5|apply (step_keep x); [apply K'; discriminate|exact V5]]|].
        split; [exists ks; split; [exact S6|apply (step_keep x); [apply K'; discriminate|exact V6]]|].
        exists w. split; [exact S7|]. apply (step_keep x); [exact KD|exact V7].
      * destruct A as [dt [RG [_ [KD K]]]]. destruct (q =? p) eqn:Q.
        -- apply Z.eqb_eq in Q. subst q. rewrite !app_nil_r.
           pose proof (step_run _ _ _ _ _ _ (K PV_discard_from_hand) V1) as K1. pose proof (step_run _ _ _ _ _ _ (K PV_discard_tiles) V2) as K2.
           pose proof (step_run _ _ _ _ _ _ (K PV_round) V3) as K3. apply Ok_inj in K1. apply Ok_inj in K2. apply Ok_inj in K3.
           split; [exists (fs ++ [negb (opt_Z_eqb u dt)]); split|].
           ++ apply flags_snoc_discard; [exact S1|]. rewrite <- app_assoc. cbn [app]. rewrite <- R. rewrite RG. unfold opt_Z_eqb. destruct dt as [t|].
              ** rewrite negb_false_iff, Z.eqb_eq. split; congruence.
              ** split; discriminate.
           ++ rewrite K1, map_app. reflexivity.
           ++ rewrite map_app, app_length. split; [exact K2|]. split.
              ** etransitivity; [exact K3|]. cbn [length num_add]. rewrite Nat2Z.inj_add. reflexivity.
              ** split; [exists ms; split; [exact S4|apply (step_keep x); [exact (K PV_fixed_meld)|exact V4]]|].
                 split; [exists ls; split; [exact S5|apply (step_keep x); [exact (K PV_meld_public_tiles)|exact V5]]|].
                 split; [exists ks; split; [exact S6|apply (step_keep x); [exact (K PV_bonus_tiles)|exact V6]]|].
                 exists w. split; [exact S7|]. apply (step_keep x); [exact KD|exact V7].
        -- rewrite !app_nil_r. apply Z.eqb_neq in Q.
           split; [exists fs; split; [apply flags_snoc; [exact S1|congruence]|apply (step_keep x); [apply K|exact V1]]|].
           split; [apply (step_keep x); [apply K|exact V2]|]. split; [apply (step_keep x); [apply K|exact V3]|].
           split; [exists ms; split; [exact S4|apply (step_keep x); [apply K|exact V4]]|].
           split; [exists ls; split; [exact S5|apply (step_keep x); [apply K|exact V5]]|].
           split; [exists ks; split; [exact S6|apply (step_keep x); [apply K|exact V6]]|].
           exists w. split; [exact S7|]. apply (step_keep x); [exact KD|exact V7].
      * destruct A as [m [own [all [Dc [O1 [O2 [_ [KD K]]]]]]]]. destruct (q =? p) eqn:Q.
        -- apply Z.eqb_eq in Q. subst q. rewrite !app_nil_r, !filter_app.
           pose proof Dc as [Ck [Ls [Ln [Bs [Bn _]]]]].
           destruct (call_texts so p c m (m_self m) own SO L Dc (fun x I0 => or_introl (proj1 (Ls x) I0)) O1) as [-> _].
           destruct (call_texts so p c m (set_union (m_self m) (m_borrowed m)) all SO L Dc) as [-> _]; [|exact O2|].
           { intros t I0. apply in_set_union in I0. rewrite Ls, Bs in I0. exact I0. }
           assert (T1 : tiles_of (laid_down c) (so (m_self m))) by (apply perm_tiles; split; [exact Ln|exact Ls]).
           assert (T2 : tiles_of (fun t => laid_down c t \/ taken c t) (so (set_union (m_self m) (m_borrowed m)))).
           { apply perm_tiles. split; [apply nodup_set_union; assumption|]. intro t. rewrite in_set_union, Ls, Bs. reflexivity. }
           assert (T3 : call_kind c = CKita -> tiles_of (laid_down c) (so (set_union (m_self m) (m_borrowed m)))).
           { intro Kk. destruct T2 as [N2 M2]. split; [exact N2|]. intro t. rewrite M2. unfold taken. rewrite Kk. tauto. }
           rewrite !texts_printed in K.
           assert (Cv : forall v, v <> PV_hand -> v <> PV_meld_public_tiles -> v <> PV_bonus_tiles -> v <> PV_fixed_meld -> step_of x x' (SId p) v []).
           { intros v N1 N2 N3 N4. pose proof (K v) as Kv. destruct v; try congruence; exact Kv. }
           split; [exists fs; split; [apply flags_snoc; [exact S1|discriminate]|apply (step_keep x); [apply Cv; discriminate|exact V1]]|].
           split; [apply (step_keep x); [apply Cv; discriminate|exact V2]|]. split; [apply (step_keep x); [apply Cv; discriminate|exact V3]|].
           pose proof (step_run _ _ _ _ _ _ (K PV_meld_public_tiles) V5) as K5. apply Ok_inj in K5.
           assert (G5 : exists ls0, Forall2 (fun v l => tiles_of (laid_down v) l) (flat_map (fun a => match a with Call q v => if q =? p then [v] else [] | _ => [] end) after' ++ [c]) ls0 /\
              val_at x' (SId p) PV_meld_public_tiles = Some (VList (map printed (concat ls0)))).
           { exists (ls ++ [so (m_self m)]). split; [apply forall2_snoc; assumption|]. rewrite concat_snoc, map_app. exact K5. }
           assert (G7 : exists w0, tile_str_list [d_dora d] = Ok (VList [w0]) /\ val_at x' sub_all GV_dora_indicators = Some (VList (w0 :: map printed (flat_map (fun a => match a with NewDora t => [t] | _ => [] end) after')))).
           { exists w. split; [exact S7|]. apply (step_keep x); [exact KD|exact V7]. }
           cbn [filter]. unfold is_kita in *. rewrite <- Ck in *. destruct (m_class m) eqn:MC; cbn [negb app]; rewrite ?app_nil_r.
           5: { split; [exists ms; split; [exact S4|apply (step_keep x); [exact (K PV_fixed_meld)|exact V4]]|]. split; [exact G5|]. split; [|exact G7].
                pose proof (step_run _ _ _ _ _ _ (K PV_bonus_tiles) V6) as K6. apply Ok_inj in K6.
                exists (ks ++ [so (set_union (m_self m) (m_borrowed m))]). split; [apply forall2_snoc; [exact S6|apply T3; reflexivity]|]. rewrite concat_snoc, map_app. exact K6. }
           all: split; [pose proof (step_run _ _ _ _ _ _ (K PV_fixed_meld) V4) as K4; apply Ok_inj in K4; 
                exists (ms ++ [VList (map printed (so (set_union (m_self m) (m_borrowed m))))]); split; [apply forall2_snoc; [exact S4|]; eexists; split; [exact T2|reflexivity]|exact K4]|].
           all: split; [exact G5|]; split; [|exact G7]; exists ks; split; [exact S6|apply (step_keep x); [exact (K PV_bonus_tiles)|exact V6]].
        -- rewrite !app_nil_r. apply Z.eqb_neq in Q.
           split; [exists fs; split; [apply flags_snoc; [exact S1|congruence]|apply (step_keep x); [apply K|exact V1]]|].
           split; [apply (step_keep x); [apply K|exact V2]|]. split; [apply (step_keep x); [apply K|exact V3]|].
           split; [exists ms; split; [exact S4|apply (step_keep x); [apply K|exact V4]]|].
           split; [exists ls; split; [exact S5|apply (step_keep x); [apply K|exact V5]]|].
           split; [exists ks; split; [exact S6|apply (step_keep x); [apply K|exact V6]]|].
           exists w. split; [exact S7|]. apply (step_keep x); [exact KD|exact V7].
      * destruct A as [_ [KD K]]. rewrite !app_nil_r.
        split; [exists fs; split; [apply flags_snoc; [exact S1|congruence]|apply (step_keep x); [apply K|exact V1]]|].
        split; [apply (step_keep x); [apply K|exact V2]|]. split; [apply (step_keep x); [apply K|exact V3]|].
        split; [exists ms; split; [exact S4|apply (step_keep x); [apply K|exact V4]]|].
        split; [exists ls; split; [exact S5|apply (step_keep x); [apply K|exact V5]]|].
        split; [exists ks; split; [exact S6|apply (step_keep x); [apply K|exact V6]]|].
        pose proof (step_run _ _ _ _ _ _ KD V7) as K7. apply Ok_inj in K7. exists w. split; [exact S7|]. rewrite map_app. exact K7.
      * destruct A as [_ [KD K]]. rewrite !app_nil_r. unfold play_only in K.
        split; [exists fs; split; [apply flags_snoc; [exact S1|congruence]|apply (step_keep x); [apply K; cbn; tauto|exact V1]]|].
        split; [apply (step_keep x); [apply K; cbn; tauto|exact V2]|]. split; [apply (step_keep x); [apply K; cbn; tauto|exact V3]|].
        split; [exists ms; split; [exact S4|apply (step_keep x); [apply K; cbn; tauto|exact V4]]|].
        split; [exists ls; split; [exact S5|apply (step_keep x); [apply K; cbn; tauto|exact V5]]|].
        split; [exists ks; split; [exact S6|apply (step_keep x); [apply K; cbn; tauto|exact V6]]|].
        exists w. split; [exact S7|]. apply (step_keep x); [exact KD|exact V7].
Qed.
Lemma tracked_run acts es cmds x : seat p -> log acts es -> has_seat p es -> call_all tr strict 0 es empty_ctx = Ok (cmds, x) -> tracked acts x.
Proof.
  intros P Lg HS. apply (log_ind unquote so strict tracked); [|exact Lg|].
  - constructor.
    + intros v Q. discriminate.
    + intro t. split; [discriminate|]. intros [u [v [E _]]]. destruct u; discriminate.
    + intros before d after E. destruct before; discriminate.
  - intros acts' a es' e more Ea Ee Ef L W i x0 x' cs T H. eapply tracked_step; try eassumption.
    intro G. apply HS; [eapply nth_error_In; exact Ee|exact G].
Qed.
End Tracked.

(** ** C41. The flags of the discards since the last deal. *)
Theorem C41_flags : forall unquote so strict before d after es cmds p,
  (forall l, Permutation (so l) l) -> seat p -> log (before ++ Deal d :: after) es -> no_deal after -> has_seat p es ->
  to_commands (tenhou_command unquote so) strict es = Ok cmds ->
  exists fs, flags p (before ++ [Deal d]) after fs /\
    holds_after cmds (Some p, PV_discard_from_hand) (Some (VList (map VBool fs))).
Proof.
  intros unquote so strict before d after es cmds p SO P Lg N HS H. destruct (to_commands_run _ _ _ _ _ H) as [x [R M]].
  destruct (tracked_run unquote so SO strict p _ _ _ _ P Lg HS R) as [_ _ S0].
  destruct (S0 _ _ _ eq_refl N) as [[fs [F V]] _]. exists fs. split; [exact F|]. rewrite <- V. apply player_place; auto.
Qed.
(** ** C58. Discards, their number, melds, laid down tiles, north tiles and dora indicators. *)
Theorem C58_play : forall unquote so strict before d after es cmds p,
  (forall l, Permutation (so l) l) -> seat p -> log (before ++ Deal d :: after) es -> no_deal after -> has_seat p es ->
  to_commands (tenhou_command unquote so) strict es = Ok cmds ->
  holds_after cmds (Some p, PV_discard_tiles) (Some (VList (map printed (discards_of p after)))) /\
  holds_after cmds (Some p, PV_round) (Some (VInt (Z.of_nat (length (discards_of p after))))) /\
  (exists ms, Forall2 shown_meld (filter (fun v => negb (is_kita v)) (calls_of p after)) ms /\
     holds_after cmds (Some p, PV_fixed_meld) (Some (VList ms))) /\
  (exists ls, Forall2 (fun v l => tiles_of (laid_down v) l) (calls_of p after) ls /\
     holds_after cmds (Some p, PV_meld_public_tiles) (Some (VList (map printed (concat ls))))) /\
  (exists ls, Forall2 (fun v l => tiles_of (laid_down v) l) (filter is_kita (calls_of p after)) ls /\
     holds_after cmds (Some p, PV_bonus_tiles) (Some (VList (map printed (concat ls))))) /\
  (valid_tile (d_dora d) ->
     holds_after cmds (None, GV_dora_indicators) (Some (VList (map printed (d_dora d :: new_doras after))))).
Proof.
  intros unquote so strict before d after es cmds p SO P Lg N HS H. destruct (to_commands_run _ _ _ _ _ H) as [x [R M]].
  destruct (tracked_run unquote so SO strict p _ _ _ _ P Lg HS R) as [_ _ S0].
  destruct (S0 _ _ _ eq_refl N) as [_ [V2 [V3 [[ms [S4 V4]] [[ls [S5 V5]] [[ks [S6 V6]] [w [S7 V7]]]]]]]].
  split; [rewrite <- V2; apply player_place; auto|]. split; [rewrite <- V3; apply player_place; auto|].
  split; [exists ms; split; [exact S4|rewrite <- V4; apply player_place; auto]|].
  split; [exists ls; split; [exact S5|rewrite <- V5; apply player_place; auto]|].
  split; [exists ks; split; [exact S6|rewrite <- V6; apply player_place; auto]|].
  intro Vd. rewrite tile_str_list_valid in S7 by (constructor; [exact Vd|constructor]). injection S7 as <-. cbn [map].
  rewrite <- V7. apply table_place; [exact M|discriminate].
Qed.
