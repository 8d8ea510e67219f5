(** C44 and C59-C61: what the universal format says about the outcome of a deal. *)
From Verif Require Import Base Category CategoryProofs Tile Parse Text Tenhou TenhouProofs Spec_Tile Spec_Meld MeldProofs Prop_Meld Event Const Reader State Spec_Log StateProofs Prop_State Value Universe Translator TenhouCommands
  Transfer Spec_Transfer Spec_Universe UniverseProofs Prop_Executor CommandProofs Prop_Commands Spec_Play CommandState CommandPlay PlaySteps PlayProofs FinishProofs Spec_Score Prop_Play Prop_Score Prop_Hand.
From Coq Require Import String List ZArith Lia Bool Permutation.
Import ListNotations.
Open Scope list_scope.
Open Scope Z_scope.

Section Outcomes.
Context (unquote : text -> text) (so : list Z -> list Z) (strict : bool).
Local Notation tr := (tenhou_command unquote so).

Lemma win_values es e n w f cmds : table_size es n -> wins e w f -> to_commands tr strict (es ++ [e]) = Ok cmds ->
  exists yt ns yaku, yaku_text e = Some yt /\ number_list yt = Ok ns /\ mapM pattern_name ns = Ok yaku /\
  holds_after cmds (None, GV_nobody_win) (Some (VBool false)) /\
  forall p, 0 <= p < n ->
    holds_after cmds (Some p, PV_is_win) (Some (VBool (w =? p))) /\
    holds_after cmds (Some p, PV_is_self_win) (Some (VBool (w =? f))) /\
    holds_after cmds (Some p, PV_is_discard_lose_game) (Some (VBool (negb (w =? f) && (p =? f)))) /\
    holds_after cmds (Some p, PV_faans) (Some (texts (if (w =? f) || (p =? f) || (w =? p) then yaku else []))).
Proof.
  intros TS [T [Hw Hf]] H. destruct (to_commands_run _ _ _ _ _ H) as [x [R M]].
  destruct (run_snoc _ _ _ _ _ _ _ R) as [c1 [x1 [i [c2 [H1 H2]]]]]. pose proof (table_count _ _ _ _ _ _ _ TS H1) as C.
  destruct (call_inv unquote so _ _ _ _ _ _ H2) as [raw [x2 [Hh [_ [_ [_ D]]]]]].
  destruct (agari_inv _ _ _ _ _ _ T Hh) as (wt & w' & ft & f' & st & sc & yt & ns & yaku & m & rest & A1 & A2 & A3 & A4 & _ & _ & Y1 & Y2 & Y3 & _ & GF & Dd & Dn).
  rewrite (holds_attr _ _ _ Hw) in A1. apply Ok_inj in A1. subst wt. rewrite py_int_str in A2. apply Ok_inj in A2. subst w'.
  rewrite (holds_attr _ _ _ Hf) in A3. apply Ok_inj in A3. subst ft. rewrite py_int_str in A4. apply Ok_inj in A4. subst f'.
  exists yt, ns, yaku. split; [exact Y1|]. split; [exact Y2|]. split; [exact Y3|]. split.
  - pose proof (table_place _ _ GV_nobody_win M ltac:(discriminate)) as P. unfold val_at in P. specialize (D (sub_all, GV_nobody_win)). rewrite Dn in D.
    cbn [run_deeds execute_new_value c_update c_value bindr snd] in D. apply Ok_inj in D. rewrite D in P. exact P.
  - intros p P.
    assert (St : seat p).
    { destruct TS as (b0 & e0 & a0 & v0 & _ & _ & _ & _ & ->). unfold seat. destruct (flag v0 4); lia. }
    destruct (finish_deeds _ _ _ _ _ _ _ _ p GF C P) as [r [fin [R1 [R2 R3]]]]. destruct (final_deeds _ _ _ _ R2) as [F _].
    destruct (finish_player_deeds _ _ _ _ _ _ R1) as (_ & B1 & B2 & B3 & B4 & _). cbn [id_eqb] in B1, B2, B3, B4.
    assert (G : forall v o, scope_of v = SPlayer -> ~ In v [PV_hand; PV_final_score; PV_final_point; PV_rank] -> deeds (SId p, v) r = [(U_REPLACE, o)] -> holds_after cmds (Some p, v) (Some o)).
    { intros v o Sc Nv Dr. pose proof (player_place _ _ p v M St Sc) as Pl. unfold val_at in Pl. specialize (D (SId p, v)).
      rewrite Dd, R3, Dr, F in D by (intro K; apply Nv; first [subst v; cbn; tauto | cbn in K |- *; tauto]).
      cbn [app run_deeds execute_new_value c_update c_value bindr snd] in D. apply Ok_inj in D. rewrite D in Pl. exact Pl. }
    split; [apply G; [reflexivity|cbn; intros [K|[K|[K|[K|[]]]]]; discriminate|exact B1]|].
    split; [apply G; [reflexivity|cbn; intros [K|[K|[K|[K|[]]]]]; discriminate|exact B2]|].
    split; [apply G; [reflexivity|cbn; intros [K|[K|[K|[K|[]]]]]; discriminate|exact B3]|].
    apply G; [reflexivity|cbn; intros [K|[K|[K|[K|[]]]]]; discriminate|].
    rewrite B4. do 3 f_equal. destruct (w =? f), (p =? f); reflexivity.
Qed.
End Outcomes.

(** ** C59: who won and who dealt in *)
Theorem C59_win : forall unquote so strict es e n w f cmds, table_size es n -> wins e w f ->
  to_commands (tenhou_command unquote so) strict (es ++ [e]) = Ok cmds ->
  holds_after cmds (None, GV_nobody_win) (Some (VBool false)) /\
  forall p, 0 <= p < n ->
    (exists b, holds_after cmds (Some p, PV_is_win) (Some (VBool b)) /\ (b = true <-> p = w)) /\
    (exists b, holds_after cmds (Some p, PV_is_discard_lose_game) (Some (VBool b)) /\ (b = true <-> p = f /\ w <> f)).
Proof.
  intros unquote so strict es e n w f cmds TS W H. destruct (win_values _ _ _ _ _ _ _ _ _ TS W H) as (yt & ns & yaku & _ & _ & _ & N & G).
  split; [exact N|]. intros p P. destruct (G p P) as (A & _ & B & _). split; eexists; (split; [eassumption|]).
  - rewrite Z.eqb_eq. split; congruence.
  - rewrite andb_true_iff, negb_true_iff, Z.eqb_eq, Z.eqb_neq. tauto.
Qed.
Theorem C59_draw : forall unquote so strict es e n cmds, table_size es n -> tag e = t_ "RYUUKYOKU" ->
  to_commands (tenhou_command unquote so) strict (es ++ [e]) = Ok cmds ->
  holds_after cmds (None, GV_nobody_win) (Some (VBool true)) /\
  forall p, 0 <= p < n ->
    holds_after cmds (Some p, PV_is_win) (Some (VBool false)) /\ holds_after cmds (Some p, PV_is_self_win) (Some (VBool false)) /\
    holds_after cmds (Some p, PV_is_discard_lose_game) (Some (VBool false)) /\ holds_after cmds (Some p, PV_faans) (Some (VList [])).
Proof.
  intros unquote so strict es e n cmds TS T H. destruct (to_commands_run _ _ _ _ _ H) as [x [R M]].
  destruct (run_snoc _ _ _ _ _ _ _ R) as [c1 [x1 [i [c2 [H1 H2]]]]]. pose proof (table_count _ _ _ _ _ _ _ TS H1) as C.
  destruct (call_inv unquote so _ _ _ _ _ _ H2) as [raw [x2 [Hh [_ [_ [_ D]]]]]].
  destruct (nowin_inv _ _ _ _ _ _ T Hh) as (sc & m & rest & _ & GF & _ & Dd & Dn). split.
  - pose proof (table_place _ _ GV_nobody_win M ltac:(discriminate)) as P. unfold val_at in P. specialize (D (sub_all, GV_nobody_win)). rewrite Dn in D.
    cbn [run_deeds execute_new_value c_update c_value bindr snd] in D. apply Ok_inj in D. rewrite D in P. exact P.
  - intros p P.
    assert (St : seat p).
    { destruct TS as (b0 & e0 & a0 & v0 & _ & _ & _ & _ & ->). unfold seat. destruct (flag v0 4); lia. }
    destruct (finish_deeds _ _ _ _ _ _ _ _ p GF C P) as [r [fin [R1 [R2 R3]]]]. destruct (final_deeds _ _ _ _ R2) as [F _].
    destruct (finish_player_deeds _ _ _ _ _ _ R1) as (_ & B1 & B2 & B3 & B4 & _). cbn [id_eqb negb andb orb] in B1, B2, B3, B4.
    assert (G : forall v o, scope_of v = SPlayer -> ~ In v [PV_hand; PV_final_score; PV_final_point; PV_rank] -> deeds (SId p, v) r = [(U_REPLACE, o)] -> holds_after cmds (Some p, v) (Some o)).
    { intros v o Sc Nv Dr. pose proof (player_place _ _ p v M St Sc) as Pl. unfold val_at in Pl. specialize (D (SId p, v)).
      rewrite Dd, R3, Dr, F in D by (intro K; apply Nv; cbn in K |- *; tauto).
      cbn [app run_deeds execute_new_value c_update c_value bindr snd] in D. apply Ok_inj in D. rewrite D in Pl. exact Pl. }
    split; [apply G; [reflexivity|cbn; intros [K|[K|[K|[K|[]]]]]; discriminate|exact B1]|].
    split; [apply G; [reflexivity|cbn; intros [K|[K|[K|[K|[]]]]]; discriminate|exact B2]|].
    split; [apply G; [reflexivity|cbn; intros [K|[K|[K|[K|[]]]]]; discriminate|exact B3]|].
    apply G; [reflexivity|cbn; intros [K|[K|[K|[K|[]]]]]; discriminate|exact B4].
Qed.

(** ** C60: wins by own draw. [is_self_win] only says whether the winner drew the tile; it is
    set for every player, and so are the yaku. *)
Theorem C60_self_win_partial : forall unquote so strict es e n w f cmds, table_size es n -> wins e w f ->
  to_commands (tenhou_command unquote so) strict (es ++ [e]) = Ok cmds ->
  forall p, 0 <= p < n -> exists b, holds_after cmds (Some p, PV_is_self_win) (Some (VBool b)) /\ (b = true <-> w = f).
Proof.
  intros unquote so strict es e n w f cmds TS W H p P. destruct (win_values _ _ _ _ _ _ _ _ _ TS W H) as (yt & ns & yaku & _ & _ & _ & N & G).
  destruct (G p P) as (_ & A & _). eexists. split; [exact A|]. apply Z.eqb_eq.
Qed.
Theorem C60_bystander_partial : forall unquote so strict es e n w f cmds, table_size es n -> wins e w f -> w <> f ->
  to_commands (tenhou_command unquote so) strict (es ++ [e]) = Ok cmds ->
  forall p, 0 <= p < n -> p <> w -> p <> f -> holds_after cmds (Some p, PV_faans) (Some (VList [])).
Proof.
  intros unquote so strict es e n w f cmds TS W N0 H p P Nw Nf. destruct (win_values _ _ _ _ _ _ _ _ _ TS W H) as (yt & ns & yaku & _ & _ & _ & N & G).
  destruct (G p P) as (_ & _ & _ & A). apply Z.eqb_neq in N0, Nw, Nf. rewrite N0, Nf in A. rewrite (Z.eqb_sym w p), Nw in A. exact A.
Qed.

(** ** C44: the yaku *)
Lemma mapM_forall2 {A B} (f : A -> res B) : forall l r, mapM f l = Ok r -> Forall2 (fun a b => f a = Ok b) l r.
Proof.
  induction l as [|a l IH]; intros r H; cbn [mapM] in H; [apply Ok_inj in H; subst; constructor|].
  peelb H. apply Ok_inj in H. subst r. constructor; [exact E|]. now apply IH.
Qed.
Lemma names_of l yaku : Forall (fun i => 0 <= i) l -> mapM pattern_name (map NInt l) = Ok yaku ->
  Forall2 (fun i name => nth_error SCORE_PATTERN (Z.to_nat i) = Some name) l yaku.
Proof.
  intros F H. apply mapM_forall2 in H. remember (map NInt l) as m eqn:Em. revert l F Em. induction H as [|a b m r R H IH]; intros l F Em.
  - destruct l; [constructor|discriminate].
  - destruct l as [|i l]; [discriminate|]. injection Em as -> ->. inversion F; subst. constructor; [|now apply IH]. cbn [pattern_name] in R. now apply py_nth_some in R.
Qed.
Lemma faans_listed es e n w f cmds l unquote so strict : table_size es n -> wins e w f -> 0 <= w < n -> Forall (fun i => 0 <= i) l ->
  yaku_text e = Some (comma_list l) -> l <> [] ->
  to_commands (tenhou_command unquote so) strict (es ++ [e]) = Ok cmds ->
  exists names, holds_after cmds (Some w, PV_faans) (Some (texts names)) /\
    Forall2 (fun i name => nth_error SCORE_PATTERN (Z.to_nat i) = Some name) l names.
Proof.
  intros TS W P F Y Ne H. destruct (win_values _ _ _ _ _ _ _ _ _ TS W H) as (yt & ns & yaku & Y1 & Y2 & Y3 & _ & G).
  assert (yt = comma_list l) by congruence. subst yt. rewrite number_list_comma in Y2 by exact Ne. apply Ok_inj in Y2. subst ns.
  exists yaku. split; [|now apply names_of]. destruct (G w P) as (_ & _ & _ & A). rewrite Z.eqb_refl, orb_true_r in A. exact A.
Qed.
(** A limit hand: the names of the listed ids. *)
Theorem C44_yakuman_partial : forall unquote so strict es e n w f l cmds, table_size es n -> wins e w f -> 0 <= w < n ->
  yakuman_listed e l -> l <> [] -> Forall (fun i => 0 <= i) l ->
  to_commands (tenhou_command unquote so) strict (es ++ [e]) = Ok cmds ->
  exists names, holds_after cmds (Some w, PV_faans) (Some (VList (map VStr names))) /\
    Forall2 (fun i name => nth_error SCORE_PATTERN (Z.to_nat i) = Some name) l names.
Proof.
  intros unquote so strict es e n w f l cmds TS W P [Y1 Y2] Ne F H. eapply faans_listed; try eassumption. unfold yaku_text. rewrite Y1. exact Y2.
Qed.
(** Otherwise: the names of the ids, each followed by the name that has the han count for its id. *)
Theorem C44_yaku_partial : forall unquote so strict es e n w f l cmds, table_size es n -> wins e w f -> 0 <= w < n ->
  yaku_listed e l -> l <> [] -> Forall (fun y => 0 <= fst y /\ 0 <= snd y) l ->
  to_commands (tenhou_command unquote so) strict (es ++ [e]) = Ok cmds ->
  exists names, holds_after cmds (Some w, PV_faans) (Some (VList (flat_map (fun p => [VStr (fst p); VStr (snd p)]) names))) /\
    Forall2 (fun y name => nth_error SCORE_PATTERN (Z.to_nat (fst y)) = Some (fst name) /\ nth_error SCORE_PATTERN (Z.to_nat (snd y)) = Some (snd name)) l names.
Proof.
  intros unquote so strict es e n w f l cmds TS W P Y Ne F H.
  destruct (faans_listed es e n w f cmds (flat_map (fun y => [fst y; snd y]) l) unquote so strict TS W P) as [names [A B]].
  - clear -F. induction F as [|y l [A B] F IH]; [constructor|]. cbn. auto.
  - unfold yaku_text. unfold yaku_listed, holds in Y. rewrite Y. reflexivity.
  - destruct l; [congruence|discriminate].
  - exact H.
  - clear -A B. assert (G : exists ps, names = flat_map (fun p => [fst p; snd p]) ps /\
      Forall2 (fun y name => nth_error SCORE_PATTERN (Z.to_nat (fst y)) = Some (fst name) /\ nth_error SCORE_PATTERN (Z.to_nat (snd y)) = Some (snd name)) l ps).
    { clear A. revert names B. induction l as [|y l IH]; intros names B; cbn [flat_map app] in B.
      - inversion B; subst. exists []. split; [reflexivity|constructor].
      - inversion B as [|? a ? r B1 B2]; subst. inversion B2 as [|? b ? r' B3 B4]; subst. destruct (IH _ B4) as [ps [-> F]].
        exists ((a, b) :: ps). split; [reflexivity|]. constructor; [split; assumption|exact F]. }
    destruct G as [ps [-> F]]. exists ps. split; [|exact F]. unfold texts in A. replace (flat_map (fun p => [VStr (fst p); VStr (snd p)]) ps) with (map VStr (flat_map (fun p => [fst p; snd p]) ps)); [exact A|].
    clear. induction ps as [|p ps IH]; [reflexivity|]. cbn. now rewrite IH.
Qed.

(** ** The statements that are false *)
Definition out_go : event := ex_event (t_ "GO") [(t_ "type", t_ "169")].
Definition out_es : list event := out_go :: ex_log.
(** Seat 1 wins by its own draw; seats 1 and 2 win off the same discard of seat 0. *)
Definition out_tsumo : event :=
  ex_event (t_ "AGARI") [(t_ "who", t_ "1"); (t_ "fromWho", t_ "1"); (t_ "machi", t_ "104"); (t_ "sc", t_ "250,-20,250,60,250,-20,250,-20");
    (t_ "hai", t_ "5,6,41,45,49,61,65,101,104,105"); (t_ "yaku", t_ "0,1"); (t_ "ten", t_ "30,2000,0")].
Definition out_second : event :=
  ex_event (t_ "AGARI") [(t_ "who", t_ "2"); (t_ "fromWho", t_ "0"); (t_ "machi", t_ "104"); (t_ "sc", t_ "170,-80,330,0,250,80,250,0");
    (t_ "hai", t_ "5,6,41,45,49,61,65,101,104,105"); (t_ "yaku", t_ "1,1"); (t_ "ten", t_ "30,2000,0")].
Lemma out_size : table_size out_es 4.
Proof.
  exists [], out_go, ex_log, 169. split; [reflexivity|]. split; [reflexivity|]. split; [|split; reflexivity].
  repeat (constructor; [discriminate|]). constructor.
Qed.
Lemma out_wins_ron : wins ex_win 1 0. Proof. repeat split; reflexivity. Qed.
Lemma out_wins_tsumo : wins out_tsumo 1 1. Proof. repeat split; reflexivity. Qed.
Lemma out_wins_second : wins out_second 2 0. Proof. repeat split; reflexivity. Qed.
Definition out_tr := tenhou_command (fun s => s) (fun l => l).

(** The recorded yaku are not the listed ones: the han counts are read as yaku, too. *)
Theorem C44_yaku_refuted : exists es e n w f l cmds, table_size es n /\ wins e w f /\ 0 <= w < n /\ yaku_listed e l /\
  to_commands out_tr false (es ++ [e]) = Ok cmds /\
  ~ exists names, holds_after cmds (Some w, PV_faans) (Some (VList (map VStr names))) /\
      Forall2 (fun y name => nth_error SCORE_PATTERN (Z.to_nat (fst y)) = Some name) l names.
Proof.
  destruct (to_commands out_tr false (out_es ++ [ex_win])) as [cmds|] eqn:E; [|vm_compute in E; discriminate E].
  exists out_es, ex_win, 4, 1, 0, [(1, 1); (52, 1)], cmds.
  assert (Y : yaku_listed ex_win [(1, 1); (52, 1)]) by (vm_compute; reflexivity).
  split; [exact out_size|]. split; [exact out_wins_ron|]. split; [lia|]. split; [exact Y|]. split; [exact E|].
  intros [names [H F]].
  destruct (C44_yaku_partial _ _ _ _ _ _ _ _ _ _ out_size out_wins_ron ltac:(lia) Y ltac:(discriminate) ltac:(repeat constructor; cbn; lia) E) as [ps [H' F']].
  pose proof (holds_det _ _ _ _ H H') as Q. injection Q as Q. apply (f_equal (@length val)) in Q. rewrite map_length in Q.
  apply forall2_len in F, F'. destruct ps as [|a [|b [|]]]; try discriminate F'. cbn in Q, F. rewrite Q in F. discriminate F.
Qed.
(** On a win by own draw the other players are marked as having won by their own draw, and have yaku. *)
Theorem C60_self_win_refuted : exists es e n w f p cmds ys, table_size es n /\ wins e w f /\ 0 <= p < n /\ p <> w /\
  to_commands out_tr false (es ++ [e]) = Ok cmds /\
  holds_after cmds (Some p, PV_is_self_win) (Some (VBool true)) /\ holds_after cmds (Some p, PV_faans) (Some (VList ys)) /\ ys <> [].
Proof.
  destruct (to_commands out_tr false (out_es ++ [out_tsumo])) as [cmds|] eqn:E; [|vm_compute in E; discriminate E].
  destruct (win_values _ _ _ _ _ _ _ _ _ out_size out_wins_tsumo E) as (yt & ns & yaku & Y1 & Y2 & Y3 & _ & G).
  destruct (G 3 ltac:(lia)) as (_ & A & _ & B). cbn in A, B.
  exists out_es, out_tsumo, 4, 1, 1, 3, cmds, (map VStr yaku). split; [exact out_size|]. split; [exact out_wins_tsumo|]. split; [lia|]. split; [lia|].
  split; [exact E|]. split; [exact A|]. split; [exact B|].
  vm_compute in Y1. injection Y1 as <-. vm_compute in Y2. injection Y2 as <-. vm_compute in Y3. injection Y3 as <-. discriminate.
Qed.
(** Of two players who win the same deal only the last one listed is shown as winner. *)
Theorem C61_winners_refuted : exists es e1 e2 n w1 w2 f cmds, table_size es n /\ wins e1 w1 f /\ wins e2 w2 f /\ 0 <= w1 < n /\
  to_commands out_tr false (es ++ [e1; e2]) = Ok cmds /\ holds_after cmds (Some w1, PV_is_win) (Some (VBool false)).
Proof.
  destruct (to_commands out_tr false ((out_es ++ [ex_win]) ++ [out_second])) as [cmds|] eqn:E; [|vm_compute in E; discriminate E].
  assert (TS : table_size (out_es ++ [ex_win]) 4).
  { exists [], out_go, (ex_log ++ [ex_win]), 169. split; [reflexivity|]. split; [reflexivity|]. split; [|split; reflexivity].
    repeat (constructor; [discriminate|]). constructor. }
  destruct (win_values _ _ _ _ _ _ _ _ _ TS out_wins_second E) as (yt & ns & yaku & _ & _ & _ & _ & G).
  destruct (G 1 ltac:(lia)) as (A & _). rewrite <- app_assoc in E.
  exists out_es, ex_win, out_second, 4, 1, 2, 0, cmds. split; [exact out_size|]. split; [exact out_wins_ron|]. split; [exact out_wins_second|]. split; [lia|].
  split; [exact E|]. exact A.
Qed.
(** What holds: after every win the players shown as winners are exactly the winner of that event. *)
Theorem C61_winners_partial : forall unquote so strict es e n w f cmds, table_size es n -> wins e w f ->
  to_commands (tenhou_command unquote so) strict (es ++ [e]) = Ok cmds ->
  forall p, 0 <= p < n -> (holds_after cmds (Some p, PV_is_win) (Some (VBool true)) <-> p = w).
Proof.
  intros unquote so strict es e n w f cmds TS W H p P. destruct (C59_win _ _ _ _ _ _ _ _ _ TS W H) as [_ G]. destruct (G p P) as [[b [A B]] _].
  split; [|intro Q; apply B in Q; subst b; exact A]. intro K. pose proof (holds_det _ _ _ _ A K) as Q. injection Q as ->. now apply B.
Qed.

(** ** Cases *)
Example C59_win_example : exists cmds, to_commands out_tr true (out_es ++ [ex_win]) = Ok cmds /\
  holds_after cmds (Some 1, PV_is_win) (Some (VBool true)) /\ holds_after cmds (Some 0, PV_is_discard_lose_game) (Some (VBool true)) /\
  holds_after cmds (Some 3, PV_faans) (Some (VList [])).
Proof.
  destruct (to_commands out_tr true (out_es ++ [ex_win])) as [cmds|] eqn:E; [|vm_compute in E; discriminate E].
  destruct (win_values _ _ _ _ _ _ _ _ _ out_size out_wins_ron E) as (yt & ns & yaku & _ & _ & _ & _ & G). exists cmds. split; [reflexivity|].
  split; [exact (proj1 (G 1 ltac:(lia)))|]. split; [exact (proj1 (proj2 (proj2 (G 0 ltac:(lia)))))|exact (proj2 (proj2 (proj2 (G 3 ltac:(lia)))))].
Qed.
Definition out_draw : event := ex_event (t_ "RYUUKYOKU") [(t_ "sc", t_ "240,15,250,15,250,-15,250,-15"); (t_ "owari", t_ "255,30.5,265,51.5,235,-26.5,235,-55.5")].
Definition out_stick : event := ex_event (t_ "REACH") [(t_ "who", t_ "0"); (t_ "step", t_ "2")].
Example C59_draw_example : exists cmds, to_commands out_tr false (out_es ++ [out_draw]) = Ok cmds /\ holds_after cmds (None, GV_nobody_win) (Some (VBool true)).
Proof.
  destruct (to_commands out_tr false (out_es ++ [out_draw])) as [cmds|] eqn:E; [|vm_compute in E; discriminate E].
  exists cmds. split; [reflexivity|]. exact (proj1 (C59_draw _ _ _ out_es out_draw 4 cmds out_size eq_refl E)).
Qed.
(** The final ranks of that event: seat 1, seat 0, and seats 2 and 3 with equal scores. *)
Example C43_example : exists cmds rank, to_commands out_tr false (out_es ++ [out_draw]) = Ok cmds /\
  (forall p, 0 <= p < 4 -> holds_after cmds (Some p, PV_rank) (Some (VInt (rank p)))) /\ rank 1 < rank 0 < rank 2 /\ rank 2 < rank 3.
Proof.
  destruct (to_commands out_tr false (out_es ++ [out_draw])) as [cmds|] eqn:E; [|vm_compute in E; discriminate E].
  pose (results := [(255, t_ "30.5"); (265, t_ "51.5"); (235, t_ "-26.5"); (235, t_ "-55.5")]).
  assert (F : final_results out_draw results).
  { split; [right; reflexivity|]. split; [vm_compute; reflexivity|]. split; [discriminate|]. repeat constructor; vm_compute; lia. }
  destruct (C43_rank _ _ _ _ _ _ _ _ out_size F E) as [rank [A [_ B]]]. exists cmds, rank. split; [reflexivity|].
  split; [intros p P; exact (proj1 (A p P))|].
  assert (B1 : rank 1 < rank 0) by (apply B; [lia|lia|left; vm_compute; reflexivity]).
  assert (B2 : rank 0 < rank 2) by (apply B; [lia|lia|left; vm_compute; reflexivity]).
  assert (B3 : rank 2 < rank 3) by (apply B; [lia|lia|right; split; [vm_compute; reflexivity|lia]]). lia.
Qed.
(** Scores: 25000 dealt, a stick of 1000, then 24000 + 1500. *)
Example C42_example : score_after 0 (out_es ++ [out_stick]) 24000 /\ score_after 0 ((out_es ++ [out_stick]) ++ [out_draw]) 25500 /\
  exists cmds, to_commands out_tr false (out_es ++ [out_stick]) = Ok cmds /\ holds_after cmds (Some 0, PV_score) (Some (VInt 24000)).
Proof.
  assert (A : score_after 0 (out_es ++ [out_stick]) (25000 - 1000)).
  { apply sa_stick; [|repeat split; reflexivity].
    change out_es with (((((((([out_go] ++ [ex_init]) ++ [ex_event (t_ "T7") []]) ++ [ex_event (t_ "D0") []]) ++ [ex_event (t_ "N") [(t_ "who", t_ "1"); (t_ "m", str_int ex_pon)]]) ++
      [ex_event (t_ "E109") []]) ++ [ex_event (t_ "REACH") [(t_ "who", t_ "2"); (t_ "step", t_ "1")]]) ++ [ex_event (t_ "N") [(t_ "who", t_ "1"); (t_ "m", str_int ex_added)]]) ++
      [ex_event (t_ "DORA") [(t_ "hai", t_ "131")]]).
    assert (K : forall t a, t <> t_ "INIT" -> t <> t_ "AGARI" -> t <> t_ "RYUUKYOKU" -> t <> t_ "REACH" -> keeps_score 0 (ex_event t a)).
    { intros t a K1 K2 K3 K4. split; [exact K1|]. split; [intros [Q|Q]; contradiction|intro Q; contradiction]. }
    do 7 (apply sa_same; [|first [apply K; discriminate | split; [discriminate|]; split; [intros [Q|Q]; discriminate|]; intros _; left; exists 2; split; [reflexivity|lia]]]).
    apply (sa_deal 0 [out_go] ex_init [250; 250; 250; 250] 250); vm_compute; reflexivity. }
  split; [exact A|]. split.
  - apply (sa_end 0 _ _ [240; 15; 250; 15; 250; -15; 250; -15] 240 15); try (vm_compute; reflexivity). right. reflexivity.
  - destruct (to_commands out_tr false (out_es ++ [out_stick])) as [cmds|] eqn:E; [|vm_compute in E; discriminate E]. exists cmds. split; [reflexivity|].
    refine (C42_score _ _ _ _ _ _ _ _ _ A E); [unfold seat; lia|].
    intros e I0 T. destruct I0 as [<-|I0].
    + exists 169. split; [reflexivity|]. left. reflexivity.
    + exfalso. cbn in I0. repeat (destruct I0 as [<-|I0]; [discriminate T|]). destruct I0.
Qed.
Print Assumptions C42_score.
Print Assumptions C43_rank.
Print Assumptions C59_win.
