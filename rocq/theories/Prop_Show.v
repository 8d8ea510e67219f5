(** C79-C83: the texts by which settings, players, deals, records and events are shown. *)
From Verif Require Import Base Category Tile TileSet Parse Text Tenhou Event Reader Url Value Const TenhouCommands Paifu.
From Verif Require Import Spec_Meld Prop_Meld StateProofs PaifuProofs Spec_Log Spec_Header Spec_Paifu Prop_Header Prop_Reader Spec_Read Prop_Read Spec_Url Prop_Url Prop_Paifu.
From Verif Require Import TenhouProofs TileSetOps WaitingTop WinFacts CheckerHand Spec_Win Spec_Tile Spec_Hand Spec_Play TileSetFacts Prop_Tile Prop_Parse CommandState CommandPlay PlaySteps PlayProofs Prop_Score Show Spec_Show ShowProofs.
From Coq Require Import String List ZArith Lia Bool Permutation Sorted.
Import ListNotations.
Open Scope list_scope.
Open Scope Z_scope.

(** ** C79: the settings *)
Theorem C79_text : forall v, 0 <= v < 65536 -> exists g, new_game_type v = Ok g /\ game_type_str g = Ok (settings_text v).
Proof.
  intros v R. destruct (C28_flags v R) as [g [G [F1 [F2 [F3 [F4 [F5 [F6 [F7 [F8 [F9 _]]]]]]]]]]]. exists g. split; [exact G|].
  pose proof (field_bounds v 5 1 ltac:(lia)) as B5. pose proof (field_bounds v 7 1 ltac:(lia)) as B7. change (2 ^ 1) with 2 in *.
  destruct (level_at (2 * field v 5 1 + field v 7 1) (flag v 9) ltac:(lia)) as [c0 [L1 L2]].
  unfold game_type_str, settings_text. rewrite F1, F2, F3, F4, F5, F6, F7, F8, F9, L1. rewrite (nth_error_nth _ _ _ L2).
  unfold mark, if_value. destruct (flag v 3), (flag v 4), (flag v 9), (flag v 10); reflexivity.
Qed.
(** The text of a record's settings. *)
Lemma record_type head ds events r go v : good_log head ds events -> new_record events = Ok r ->
  first_with (t_ "GO") head go -> holds go (t_ "type") (str_int v) -> new_game_type v = Ok (r_type r).
Proof.
  intros G H Fg Hv. pose proof (record_meta _ _ _ _ G H) as M. apply new_record_events in H. unfold read_events in H.
  destruct (event_groups events) as [[|head' chunks]|]; try discriminate. cbn [bindr] in H. cbv zeta in H. destruct (rev events); [discriminate|].
  peel H. apply Ok_inj in H. subst r. cbn [r_meta r_type] in *. unfold config_attr in E. rewrite M, (config_first _ _ _ Fg) in E.
  unfold holds in Hv. rewrite Hv in E. apply Ok_inj in E. subst. rewrite py_int_str in E0. apply Ok_inj in E0. subst. assumption.
Qed.
Theorem C79_record : forall head ds events go v, good_log head ds events -> first_with (t_ "GO") head go -> holds go (t_ "type") (str_int v) ->
  exists r, new_record events = Ok r /\ game_type_str (r_type r) = Ok (settings_text v).
Proof.
  intros head ds events go v G Fg Hv. destruct (C71_reads _ _ _ G) as (r & H & _). exists r. split; [exact H|].
  pose proof (record_type _ _ _ _ _ _ G H Fg Hv) as T.
  assert (R : 0 <= v < 65536). { destruct (Z_le_dec 0 v), (Z_lt_dec v 65536); try (split; assumption); exfalso; rewrite C28_rejected in T by lia; discriminate. }
  destruct (C79_text v R) as (g & G1 & G2). congruence.
Qed.
(** The settings that the text shows: all nine, and the amount of the tips where there are any. *)
Definition same_settings (v w : Z) : Prop :=
  (forall i, 1 <= i <= 9 -> flag v i = flag w i) /\ (flag v 9 = true -> flag v 10 = flag w 10).
Definition has (c : Z) (s : text) : bool := existsb (Z.eqb c) s.
Definition reads_back (s : text) : list bool :=
  [negb (has 36196 s); negb (has 21936 s); has 21335 s; has 19977 s;
   has 29305 s || has 40179 s || has 29733 s || has 23380 s; has 36895 s;
   has 19978 s || has 40179 s || has 37504 s || has 23380 s; has 26263 s; has 31069 s; has 53 s].
Lemma field_flag v i : field v i 1 = if flag v i then 1 else 0.
Proof. unfold flag. pose proof (field_bounds v i 1 ltac:(lia)) as B. change (2 ^ 1) with 2 in B. destruct (Z.eqb_spec (field v i 1) 1); lia. Qed.
Lemma settings_read v : reads_back (settings_text v) =
  [flag v 1; flag v 2; flag v 3; flag v 4; flag v 5; flag v 6; flag v 7; flag v 8; flag v 9; flag v 9 && flag v 10].
Proof.
  unfold settings_text. rewrite !field_flag.
  destruct (flag v 1), (flag v 2), (flag v 3), (flag v 4), (flag v 5), (flag v 6), (flag v 7), (flag v 8), (flag v 9), (flag v 10); reflexivity.
Qed.
Theorem C79_identifies : forall v w, settings_text v = settings_text w <-> same_settings v w.
Proof.
  intros v w. split.
  - intro E. apply (f_equal reads_back) in E. rewrite !settings_read in E. injection E as E1 E2 E3 E4 E5 E6 E7 E8 E9 E10. split.
    + intros i B. assert (X : i = 1 \/ i = 2 \/ i = 3 \/ i = 4 \/ i = 5 \/ i = 6 \/ i = 7 \/ i = 8 \/ i = 9) by lia.
      repeat (destruct X as [->|X]; [assumption|]). now subst i.
    + intro T. rewrite <- E9, T in E10. exact E10.
  - intros [A B]. unfold settings_text. rewrite !field_flag.
    rewrite <- !(A 1), <- !(A 2), <- !(A 3), <- !(A 4), <- !(A 5), <- !(A 6), <- !(A 7), <- !(A 8), <- !(A 9) by lia.
    destruct (flag v 9) eqn:T; [now rewrite (B eq_refl)|reflexivity].
Qed.
(** Equal types have the same text; but two types can have the same text and not be equal. *)
Theorem C79_equal : forall a b ga gb, new_game_type a = Ok ga -> new_game_type b = Ok gb -> gt_eqb ga gb = true ->
  game_type_str ga = game_type_str gb.
Proof.
  assert (R : forall v g, new_game_type v = Ok g -> game_type_str g = Ok (settings_text v)).
  { intros v g E. assert (R : 0 <= v < 65536). { destruct (Z_le_dec 0 v), (Z_lt_dec v 65536); try (split; assumption); exfalso; rewrite C28_rejected in E by lia; discriminate. }
    destruct (C79_text v R) as (g' & G1 & G2). congruence. }
  intros a b ga gb A B E. rewrite (R _ _ A), (R _ _ B). f_equal. apply C79_identifies. pose proof (proj1 (C28_equality a b ga gb A B) E) as F.
  split; [intros i I0; apply F; lia|intros _; apply F; lia].
Qed.
Theorem C79_converse_refuted : exists a b, new_game_type 9 = Ok a /\ new_game_type 1033 = Ok b /\
  game_type_str a = game_type_str b /\ gt_eqb a b = false.
Proof. eexists _, _. split; [vm_compute; reflexivity|]. split; [vm_compute; reflexivity|]. split; vm_compute; reflexivity. Qed.
(** Type 137 = 1 + 8 + 128: four players, level 1, two winds, open tanyao, no red fives. *)
Example C79_case : new_game_type 137 <> Err ValueError /\ settings_text 137 = [22235; 19978; 21335; 21936] ++ [36196].
Proof. split; [vm_compute; discriminate|]. vm_compute. reflexivity. Qed.

(** ** C80: the players *)
Lemma numbers_at : forall ts l i t, mapM py_number ts = Ok l -> nth_error ts i = Some t -> exists n, py_number t = Ok n /\ nth_error l i = Some n.
Proof.
  induction ts as [|x ts IH]; intros l i t M N; [destruct i; discriminate|]. cbn [mapM] in M. peel M. apply Ok_inj in M. subst l.
  destruct i as [|i]; cbn [nth_error] in *; [injection N as <-; eauto|]. eapply IH; eauto.
Qed.
Theorem C80_player : forall head ds events r un i p s name ls d ts t m, good_log head ds events -> new_record events = Ok r ->
  first_with (t_ "UN") head un -> nth_error (r_players r) i = Some p ->
  holds un (t_ "n" ++ str_int (Z.of_nat i)) s -> quotes name s ->
  holds un (t_ "dan") (comma_list ls) -> nth_error ls i = Some d -> 0 <= d ->
  holds un (t_ "rate") (join (t_ ",") ts) -> Forall (fun t => ~ In 44 t) ts -> nth_error ts i = Some t -> denotes 2 m t ->
  (d <= 20 -> exists grade rate, grade_name d grade /\ spelled 2 m rate /\
    player_str p = Ok (name ++ t_ " " ++ grade ++ t_ " R" ++ rate)) /\
  (20 < d -> player_str p = Err IndexError).
Proof.
  intros head ds events r un i p s name ls d ts t m G H Fu N Hs Q Hd Nd D0 Hr Nc Nt Dm.
  pose proof (C77_players _ _ _ _ _ _ _ _ _ G H Fu N Hs Q) as Nm.
  destruct (C57_players _ _ _ _ H N) as (_ & _ & un' & dan & dans & rate & rates & sx & C & _ & L1 & L2 & L3 & L4 & L5 & L6 & _).
  rewrite (record_meta _ _ _ _ G H), (config_first _ _ _ Fu) in C. injection C as <-. unfold holds in Hd, Hr.
  assert (dan = comma_list ls) by congruence. assert (rate = join (t_ ",") ts) by congruence. subst dan rate.
  rewrite number_list_comma in L2 by (intros ->; destruct i; discriminate). apply Ok_inj in L2. subst dans. rewrite nth_error_map, Nd in L3. cbn in L3. injection L3 as L3.
  unfold number_list in L5. change (t_ ",") with [44] in L5. rewrite split_join in L5; [|intros ->; destruct i; discriminate|exact Nc].
  destruct (numbers_at _ _ _ _ L5 Nt) as (n & P & L6'). assert (n = pl_rate p) by congruence. subst n.
  destruct (number_shown 1 m t Dm) as (n & P' & Sp). assert (n = pl_rate p) by congruence. subst n.
  unfold player_str, level_str. rewrite <- L3, Nm. split; intro D.
  - destruct (py_nth RANKS d) as [grade|x] eqn:R.
    + exists grade, (fixed 2 (pl_rate p)). split; [exact (grade_of _ _ D0 R)|]. split; [exact Sp|reflexivity].
    + exfalso. revert R. assert (K : forallb (fun d => match py_nth RANKS d with Ok _ => true | Err _ => false end) (map Z.of_nat (seq 0 21)) = true) by (vm_compute; reflexivity).
      rewrite forallb_forall in K. specialize (K d). intro R. rewrite R in K. discriminate K. apply in_map_iff. exists (Z.to_nat d). split; [lia|]. apply in_seq. lia.
  - replace (py_nth RANKS d) with (@Err text IndexError); [reflexivity|]. symmetry. unfold py_nth. change (Z.of_nat (length RANKS)) with 21.
    destruct (Z.ltb_spec d 0); [lia|]. destruct (Z.leb_spec 21 d); [|lia]. rewrite orb_true_r. reflexivity.
Qed.
(** With more decimals: a nearest hundredth. *)
Theorem C80_rounded : forall head ds events r un i p s name ls d ts t q m, good_log head ds events -> new_record events = Ok r ->
  first_with (t_ "UN") head un -> nth_error (r_players r) i = Some p ->
  holds un (t_ "n" ++ str_int (Z.of_nat i)) s -> quotes name s ->
  holds un (t_ "dan") (comma_list ls) -> nth_error ls i = Some d -> 0 <= d ->
  holds un (t_ "rate") (join (t_ ",") ts) -> Forall (fun t => ~ In 44 t) ts -> nth_error ts i = Some t -> denotes q m t -> 0 <= m -> 0 <= d <= 20 ->
  exists grade rate k, grade_name d grade /\ spelled 2 k rate /\ 2 * Z.abs (m * 10 ^ 2 - k * 10 ^ Z.of_nat q) <= 10 ^ Z.of_nat q /\
    player_str p = Ok (name ++ t_ " " ++ grade ++ t_ " R" ++ rate).
Proof.
  intros head ds events r un i p s name ls d ts t q m G H Fu N Hs Q Hd Nd D0 Hr Nc Nt Dm Mm D.
  pose proof (C77_players _ _ _ _ _ _ _ _ _ G H Fu N Hs Q) as Nm.
  destruct (C57_players _ _ _ _ H N) as (_ & _ & un' & dan & dans & rate & rates & sx & C & _ & L1 & L2 & L3 & L4 & L5 & L6 & _).
  rewrite (record_meta _ _ _ _ G H), (config_first _ _ _ Fu) in C. injection C as <-. unfold holds in Hd, Hr.
  assert (dan = comma_list ls) by congruence. assert (rate = join (t_ ",") ts) by congruence. subst dan rate.
  rewrite number_list_comma in L2 by (intros ->; destruct i; discriminate). apply Ok_inj in L2. subst dans. rewrite nth_error_map, Nd in L3. cbn in L3. injection L3 as L3.
  unfold number_list in L5. change (t_ ",") with [44] in L5. rewrite split_join in L5; [|intros ->; destruct i; discriminate|exact Nc].
  destruct (numbers_at _ _ _ _ L5 Nt) as (n & P & L6'). assert (n = pl_rate p) by congruence. subst n.
  destruct (number_rounded 1 q m t Dm Mm) as (n & k & P' & Sp & Nr). assert (n = pl_rate p) by congruence. subst n.
  unfold player_str, level_str. rewrite <- L3, Nm.
  destruct (py_nth RANKS d) as [grade|x] eqn:R.
    + exists grade, (fixed 2 (pl_rate p)), k. split; [exact (grade_of _ _ D0 R)|]. split; [exact Sp|]. split; [exact Nr|reflexivity].
    + exfalso. revert R. assert (K : forallb (fun d => match py_nth RANKS d with Ok _ => true | Err _ => false end) (map Z.of_nat (seq 0 21)) = true) by (vm_compute; reflexivity).
      rewrite forallb_forall in K. specialize (K d). intro R. rewrite R in K. discriminate K. apply in_map_iff. exists (Z.to_nat d). split; [lia|]. apply in_seq. lia.
Qed.

(** ** C81: the deals *)
Lemma record_games head ds events r : good_log head ds events -> new_record events = Ok r -> mapM new_game ds = Ok (r_games r).
Proof.
  intros (E & (Hh & (go & v & Fg & _) & _) & D & _) H. destruct (record_inv _ _ H) as (h & chunks & Eg & _ & _ & M).
  assert (Nh : head <> []) by (intros ->; inversion Fg). rewrite E, groups_found in Eg by auto. assert (X : chunks = ds) by congruence. now rewrite <- X.
Qed.
Lemma games_at : forall ls gs j l, mapM new_game ls = Ok gs -> nth_error ls j = Some l -> exists g, new_game l = Ok g /\ nth_error gs j = Some g.
Proof.
  induction ls as [|x ts IH]; intros l i t M N; [destruct i; discriminate|]. cbn [mapM] in M. peel M. apply Ok_inj in M. subst l.
  destruct i as [|i]; cbn [nth_error] in *; [injection N as <-; eauto|]. eapply IH; eauto.
Qed.
(** The name of seat [w] according to the players of the record and the event [un]. *)
Definition called (r : record) (un : event) (w : Z) (name : text) : Prop :=
  0 <= w /\ exists p s, nth_error (r_players r) (Z.to_nat w) = Some p /\ holds un (t_ "n" ++ str_int w) s /\ quotes name s.
Lemma called_player head ds events r un w name : good_log head ds events -> new_record events = Ok r -> first_with (t_ "UN") head un ->
  called r un w name -> exists p, py_nth (r_players r) w = Ok p /\ player_name p = name.
Proof.
  intros G H Fu (W & p & s & N & Hs & Q). exists p. split; [apply py_nth_some; [exact W|exact N]|].
  refine (C77_players _ _ _ _ _ _ _ _ s G H Fu N _ Q). now rewrite Z2Nat.id.
Qed.
Lemma nth_at {A} (l : list A) i a : 0 <= i -> nth_error l (Z.to_nat i) = Some a -> py_nth l i = Ok a.
Proof. intros B N. apply py_nth_some; assumption. Qed.
Lemma cut_int n : cut_off (NInt n) = str_int n.
Proof. unfold cut_off. cbn [num_m num_k]. change (p10 0) with 1. now rewrite Z.quot_1_r. Qed.
Lemma ending_shown (nm : Z -> text -> Prop) players e t : (forall w name, nm w name -> exists p, py_nth players w = Ok p /\ player_name p = name) ->
  ending nm e t -> is_game_end e = true /\ end_stringify players e = Ok t.
Proof.
  intros P E. unfold is_game_end. destruct E as [e w n fu points l T Hw Hf Ht Nw|e w f n n' fu points l T Hw Hf Ne Ht Nw Nf|e T Hn|e k rs T Hk I0].
  - assert (W : is_somebody_win_game e = true) by (unfold is_somebody_win_game, has_tag; rewrite T; reflexivity). rewrite W. split; [reflexivity|].
    unfold end_stringify. rewrite W. unfold attr. unfold holds in Hw, Hf, Ht. rewrite Hw, Hf, Ht. cbn [bindr]. rewrite !py_int_str. cbn [bindr].
    rewrite number_list_comma by discriminate. cbn [bindr map]. rewrite (nth_at _ 1 _ ltac:(lia) (eq_refl : nth_error (NInt fu :: NInt points :: map NInt l) (Z.to_nat 1) = Some (NInt points))).
    cbn [bindr]. destruct (P _ _ Nw) as (p & -> & <-). cbn [bindr]. rewrite Z.eqb_refl, cut_int. reflexivity.
  - assert (W : is_somebody_win_game e = true) by (unfold is_somebody_win_game, has_tag; rewrite T; reflexivity). rewrite W. split; [reflexivity|].
    unfold end_stringify. rewrite W. unfold attr. unfold holds in Hw, Hf, Ht. rewrite Hw, Hf, Ht. cbn [bindr]. rewrite !py_int_str. cbn [bindr].
    rewrite number_list_comma by discriminate. cbn [bindr map]. rewrite (nth_at _ 1 _ ltac:(lia) (eq_refl : nth_error (NInt fu :: NInt points :: map NInt l) (Z.to_nat 1) = Some (NInt points))).
    cbn [bindr]. destruct (P _ _ Nw) as (p & -> & <-). cbn [bindr]. rewrite (proj2 (Z.eqb_neq w f) Ne). destruct (P _ _ Nf) as (p' & -> & <-). cbn [bindr]. rewrite cut_int. reflexivity.
  - assert (W : is_somebody_win_game e = false) by (unfold is_somebody_win_game, has_tag; rewrite T; reflexivity).
    assert (D : is_nobody_win_game e = true) by (unfold is_nobody_win_game, has_tag; rewrite T; reflexivity). rewrite W, D. split; [reflexivity|].
    unfold end_stringify. rewrite W, D, Hn. reflexivity.
  - assert (W : is_somebody_win_game e = false) by (unfold is_somebody_win_game, has_tag; rewrite T; reflexivity).
    assert (D : is_nobody_win_game e = true) by (unfold is_nobody_win_game, has_tag; rewrite T; reflexivity). rewrite W, D. split; [reflexivity|].
    unfold end_stringify. rewrite W, D. unfold holds in Hk. rewrite Hk.
    repeat (destruct I0 as [I0|I0]; [injection I0 as <- <-; reflexivity|]). destruct I0.
Qed.
Lemma endings_shown (nm : Z -> text -> Prop) players es ts : (forall w name, nm w name -> exists p, py_nth players w = Ok p /\ player_name p = name) ->
  endings nm es ts -> mapM (end_stringify players) (filter is_game_end es) = Ok ts.
Proof.
  intros P E. induction E as [|e t es ts En E IH|e es ts N1 N2 E IH]; [reflexivity| |].
  - destruct (ending_shown _ _ _ _ P En) as [A B]. cbn [filter]. rewrite A. cbn [mapM]. rewrite B. cbn [bindr]. rewrite IH. reflexivity.
  - cbn [filter]. replace (is_game_end e) with false; [exact IH|]. unfold is_game_end, is_somebody_win_game, is_nobody_win_game, has_tag.
    rewrite !text_eqb_neq by assumption. reflexivity.
Qed.
Lemma seeds_read i p g n honba rest : new_game (i :: p) = Ok g -> deals i -> holds i (t_ "seed") (comma_list (n :: honba :: rest)) ->
  g_seeds g = map NInt (n :: honba :: rest) /\ g_end_events g = filter is_game_end p.
Proof.
  intros H D Hs. unfold new_game in H. pose proof (first_end p) as F. destruct (first_end_index p) as [k|]; [|discriminate]. cbn [bindr] in H. cbv zeta in H.
  unfold config_attr in H. rewrite config_cons, get_setattr in H. unfold deals in D. rewrite D, text_eqb_refl in H. unfold holds in Hs. rewrite Hs in H. cbn [bindr] in H.
  rewrite number_list_comma in H by discriminate. cbn [bindr] in H. peel H. apply Ok_inj in H. subst g. cbn [g_seeds g_end_events]. split; [reflexivity|exact (proj1 F)].
Qed.
Lemma winds_shown n k : 1 <= k <= 2 -> 0 <= n < 4 * (k + 1) -> exists w, nth_error wind_names (Z.to_nat (n / 4)) = Some w /\ py_nth WIND_NAMES (n / 4) = Ok w.
Proof.
  intros K B. assert (D : 0 <= n / 4 <= 2) by (split; [apply Z.div_pos; lia|apply Z.lt_succ_r, Z.div_lt_upper_bound; lia]).
  assert (X : n / 4 = 0 \/ n / 4 = 1 \/ n / 4 = 2) by lia. destruct X as [->|[->| ->]]; eexists; split; reflexivity.
Qed.
Theorem C81_caption : forall head ds events r go v un j init playing n honba rest texts, good_log head ds events -> new_record events = Ok r ->
  first_with (t_ "GO") head go -> holds go (t_ "type") (str_int v) -> first_with (t_ "UN") head un ->
  nth_error ds j = Some (init :: playing) -> holds init (t_ "seed") (comma_list (n :: honba :: rest)) -> 0 <= n ->
  endings (called r un) playing texts ->
  exists g, nth_error (r_games r) j = Some g /\ g_events g = init :: playing /\
    (n < 4 * ((if flag v 3 then 2 else 1) + 1) -> exists s, caption n honba texts s /\ game_caption (r_type r) (r_players r) g = Ok s) /\
    (4 * ((if flag v 3 then 2 else 1) + 1) <= n -> exists err, game_caption (r_type r) (r_players r) g = Err err).
Proof.
  intros head ds events r go v un j init playing n honba rest texts G H Fg Hv Fu Nj Hs N0 En.
  destruct (games_at _ _ _ _ (record_games _ _ _ _ G H) Nj) as (g & Hg & Ng). exists g. split; [exact Ng|]. split; [exact (new_game_events _ _ Hg)|].
  pose proof (record_type _ _ _ _ _ _ G H Fg Hv) as T.
  assert (R : 0 <= v < 65536). { destruct (Z_le_dec 0 v), (Z_lt_dec v 65536); try (split; assumption); exfalso; rewrite C28_rejected in T by lia; discriminate. }
  destruct (C28_flags v R) as [g' [G' [_ [_ [F3 _]]]]]. assert (g' = r_type r) by congruence. subst g'.
  assert (D : deals init). { destruct G as (_ & _ & D & _). rewrite Forall_forall in D. destruct (D _ (nth_error_In _ _ Nj)) as (i & p & s & o & E & Di & _). injection E as -> ->. exact Di. }
  destruct (seeds_read _ _ _ _ _ _ Hg D Hs) as [Sd Ee]. unfold game_caption, game_index, sub_game_index. rewrite Sd, Ee. cbn [map].
  rewrite (nth_at _ 0 _ ltac:(lia) (eq_refl : nth_error (NInt n :: NInt honba :: map NInt rest) (Z.to_nat 0) = Some (NInt n))).
  rewrite (nth_at _ 1 _ ltac:(lia) (eq_refl : nth_error (NInt n :: NInt honba :: map NInt rest) (Z.to_nat 1) = Some (NInt honba))).
  cbn [bindr as_int]. rewrite <- F3. split; intro B.
  - destruct (index_ok _ n (wind_count_cases (r_type r)) ltac:(lia)) as [I1 I2].
    destruct (winds_shown n (play_wind_count (r_type r))) as (w & W1 & W2); [rewrite F3; destruct (flag v 3); lia|lia|].
    destruct (new_subcat [play_wind_count (r_type r) + 1; 4]) as [c|]; [|discriminate]. cbn [bindr] in *. rewrite I1. cbn [bindr fst snd]. rewrite W2. cbn [bindr].
    rewrite (endings_shown _ _ _ _ (fun w nm K => called_player _ _ _ _ _ _ _ G H Fu K) En). cbn [bindr]. eexists. split; [|reflexivity].
    exists w. split; [exact W1|]. rewrite cut_int. reflexivity.
  - destruct (new_subcat [play_wind_count (r_type r) + 1; 4]) as [c|err] eqn:C; [|cbn [bindr]; eauto]. cbn [bindr].
    destruct (sub_category c n) as [l|err] eqn:K; [|cbn [bindr]; eauto]. exfalso.
    destruct (round_of (play_wind_count (r_type r) + 1) c n l) as [Lt _]; [rewrite F3; destruct (flag v 3); lia|exact C|lia|exact K|]. lia.
Qed.
(** Captions tell deals apart: by their round, and by their counter. *)
Lemma digits_end : forall a b x y c, forallb ch_digit a = true -> forallb ch_digit b = true -> ch_digit c = false -> a ++ c :: x = b ++ c :: y -> a = b /\ x = y.
Proof.
  induction a as [|d a IH]; intros [|e b] x y c A B C E; cbn [app] in E.
  - injection E as ->. auto.
  - injection E as -> _. cbn [forallb] in B. rewrite C in B. discriminate.
  - injection E as -> _. cbn [forallb] in A. rewrite C in A. discriminate.
  - injection E as -> E. cbn [forallb] in A, B. apply andb_true_iff in A, B. destruct (IH b x y c (proj2 A) (proj2 B) C E) as [-> ->]. auto.
Qed.
Lemma str_int_end a b x y c : ch_digit c = false -> c <> 45 -> str_int a ++ c :: x = str_int b ++ c :: y -> a = b /\ x = y.
Proof.
  intros C N E.
  assert (I0 : forall a b, str_int a = str_int b -> a = b) by (intros p q K; apply (f_equal py_int) in K; rewrite !py_int_str in K; congruence).
  destruct (Z.neg_nonneg_cases a) as [A|A], (Z.neg_nonneg_cases b) as [B|B].
  - destruct (str_int_neg a A) as (d1 & E1 & _ & D1 & _), (str_int_neg b B) as (d2 & E2 & _ & D2 & _). rewrite E1, E2 in E. cbn [app] in E. injection E as E.
    destruct (digits_end _ _ _ _ _ D1 D2 C E) as [-> ->]. split; [apply I0; congruence|reflexivity].
  - exfalso. destruct (str_int_neg a A) as (d1 & E1 & _ & D1 & _), (str_int_nonneg b B) as (_ & D2 & _). rewrite E1 in E. destruct (str_int b) as [|z zs]; cbn [app] in E; injection E as Q _; [congruence|].
    subst z. discriminate D2.
  - exfalso. destruct (str_int_neg b B) as (d1 & E1 & _ & D1 & _), (str_int_nonneg a A) as (_ & D2 & _). rewrite E1 in E. destruct (str_int a) as [|z zs]; cbn [app] in E; injection E as Q _; [congruence|].
    subst z. discriminate D2.
  - destruct (str_int_nonneg a A) as (_ & D1 & _), (str_int_nonneg b B) as (_ & D2 & _). destruct (digits_end _ _ _ _ _ D1 D2 C E) as [K ->]. split; [now apply I0|reflexivity].
Qed.
Theorem C81_distinct : forall n honba ends n' honba' ends' s, 0 <= n -> 0 <= n' -> caption n honba ends s -> caption n' honba' ends' s ->
  n = n' /\ honba = honba' /\ join (t_ ",") ends = join (t_ ",") ends'.
Proof.
  intros n h es n' h' es' s N N' (w & W & ->) (w' & W' & E). cbn [app] in E. injection E as Ew E. subst w'.
  apply str_int_end in E; [|reflexivity|discriminate]. destruct E as [Em E]. apply str_int_end in E; [|reflexivity|discriminate]. destruct E as [Eh E]. injection E as E.
  split; [|split; [exact Eh|exact E]].
  assert (Q : n / 4 = n' / 4).
  { assert (X : NoDup wind_names) by (repeat constructor; cbn; intuition discriminate). rewrite NoDup_nth_error in X.
    assert (Y : Z.to_nat (n / 4) = Z.to_nat (n' / 4)) by (apply X; [apply nth_error_Some; congruence|congruence]).
    pose proof (Z.div_pos n 4 N ltac:(lia)). pose proof (Z.div_pos n' 4 N' ltac:(lia)). lia. }
  rewrite (Z.div_mod n 4), (Z.div_mod n' 4) by lia. lia.
Qed.

(** ** C82: the records *)
Section Order.
Context {A : Type}.
Variables (st : nat -> A) (lt : A -> A -> bool) (score : nat -> Z) (ins : A -> list A -> list A).
Hypothesis ins_nil : forall x, ins x [] = [x].
Hypothesis ins_cons : forall x y r, ins x (y :: r) = if lt y x then x :: y :: r else y :: ins x r.
Hypothesis lt_score : forall i j, lt (st i) (st j) = (score i <? score j).
Fixpoint place_in (x : nat) (l : list nat) : list nat :=
  match l with [] => [x] | y :: r => if score y <? score x then x :: l else y :: place_in x r end.
Lemma ins_map x l : ins (st x) (map st l) = map st (place_in x l).
Proof.
  induction l as [|y l IH]; cbn [map place_in]; [apply ins_nil|]. rewrite ins_cons, lt_score. destruct (score y <? score x); [reflexivity|]. cbn [map]. now rewrite IH.
Qed.
Lemma place_perm x l : Permutation (place_in x l) (x :: l).
Proof.
  induction l as [|y l IH]; cbn [place_in]; [reflexivity|]. destruct (score y <? score x); [reflexivity|]. rewrite IH. apply perm_swap.
Qed.
Lemma place_sorted x l : Forall (fun y => (y < x)%nat) l -> StronglySorted (before score) l -> StronglySorted (before score) (place_in x l).
Proof.
  intros F Sd. induction Sd as [|y l Sd IH Fy]; cbn [place_in]; [constructor; constructor|]. inversion F as [|? ? Yx F']; subst. specialize (IH F').
  destruct (Z.ltb_spec (score y) (score x)) as [L|L].
  - constructor; [constructor; assumption|]. constructor; [left; exact L|]. eapply Forall_impl; [|exact Fy]. unfold before. intros z Z0. lia.
  - constructor; [exact IH|]. apply (Permutation_Forall (Permutation_sym (place_perm x l))). constructor; [|exact Fy]. unfold before. lia.
Qed.
Lemma fold_sorted : forall k, exists order, fold_left (fun a x => ins x a) (map st (seq 0 k)) [] = map st order /\ Permutation order (seq 0 k) /\ StronglySorted (before score) order.
Proof.
  induction k as [|k (o & E & P & Sd)]; [exists []; split; [reflexivity|split; constructor]|].
  exists (place_in k o). rewrite seq_S, map_app, fold_left_app, E. cbn [map fold_left]. split; [apply ins_map|]. split.
  - rewrite place_perm. rewrite P. cbn [Nat.add]. apply Permutation_cons_append.
  - apply place_sorted; [|exact Sd]. apply Forall_forall. intros y Y. apply (Permutation_in _ P) in Y. apply in_seq in Y. lia.
Qed.
End Order.
Lemma zip3_at {A B C} (dx : A) (f : list (B * C)) d : forall (players : list A), (length players <= length f)%nat ->
  zip3 players (map fst f) (map snd f) = map (fun i => (nth i players dx, fst (nth i f d), snd (nth i f d))) (seq 0 (length players)).
Proof.
  induction f as [|[b c] f IH]; intros [|p ps] L; cbn [length] in L; try reflexivity; [lia|]. cbn [map zip3 length seq nth fst snd]. f_equal.
  rewrite IH by lia. rewrite <- seq_shift, map_map. reflexivity.
Qed.
Lemma every_pairs {A} : forall f : list (A * A), every_other (flat_map (fun x => [fst x; snd x]) f) = map fst f /\
  (every_other (tl (flat_map (fun x => [fst x; snd x]) f)) = map snd f).
Proof.
  induction f as [|[a b] f [I1 I2]]; [split; reflexivity|]. cbn [flat_map app fst snd map tl]. split; [cbn [every_other]; now rewrite I1|].
  destruct f as [|[c d] f]; [reflexivity|]. cbn [flat_map app fst snd map tl every_other] in *. now rewrite I2.
Qed.
Lemma denotes_no_comma p m t : denotes p m t -> ~ In 44 t.
Proof.
  intros (neg & i & f & tail & -> & T & _ & D & _). apply Forall_app in D. destruct D as [Di Df]. pose proof (proj2 (digit_not_point _ Di)) as Pi. pose proof (proj2 (digit_not_point _ Df)) as Pf.
  rewrite !in_app_iff. intros [H|[H|H]]; [destruct neg; [destruct H as [H|[]]; discriminate|destruct H]|contradiction|].
  destruct T as [[_ ->]|[_ ->]]; [destruct H|]. apply in_app_iff in H. destruct H as [[H|[]]|H]; [discriminate|contradiction].
Qed.
Lemma both_length {A B} (R : A -> B -> Prop) l m : Forall2 R l m -> length l = length m.
Proof. induction 1; cbn [length]; congruence. Qed.
Lemma finals_read finals pts : finals <> [] -> Forall2 (fun x m => denotes 1 m (snd x)) finals pts ->
  exists f, number_list (finals_text finals) = Ok (flat_map (fun x => [fst x; snd x]) f) /\
    Forall2 (fun x y => fst y = NInt (fst x)) finals f /\ Forall2 (fun m y => spelled 1 m (fixed 1 (snd y))) pts f.
Proof.
  intros N F. unfold number_list, finals_text. change (t_ ",") with [44]. rewrite split_join.
  - clear N. induction F as [|[s t] m finals pts D F (f & M & A & B)]; [exists []; split; [reflexivity|split; constructor]|].
    destruct (number_shown 0 m t D) as (n & P & Sp). exists ((NInt s, n) :: f). cbn [flat_map app fst snd mapM]. rewrite py_number_str. cbn [bindr]. rewrite P. cbn [bindr].
    rewrite M. cbn [bindr]. split; [reflexivity|]. split; constructor; [reflexivity|exact A|exact Sp|exact B].
  - destruct finals as [|[s t] fs]; [congruence|discriminate].
  - clear N. induction F as [|[s t] m finals pts D F IH]; [constructor|]. cbn [flat_map app fst snd]. constructor; [apply str_int_no_comma|]. constructor; [exact (denotes_no_comma _ _ _ D)|exact IH].
Qed.
Lemma texts_at : forall l i place s, nth_error l place = Some s ->
  nth_error (standing_texts i l) place = Some (str_int (i + Z.of_nat place + 1) ++ [20301; 58] ++ player_name (fst (fst s)) ++ t_ "(" ++ fixed 1 (snd s) ++ t_ ")").
Proof.
  induction l as [|[[p sc] e] l IH]; intros i [|place] s N; cbn [nth_error standing_texts] in *; try discriminate.
  - injection N as <-. cbn [fst snd]. now rewrite Z.add_0_r.
  - rewrite (IH _ _ _ N). do 2 f_equal. f_equal. lia.
Qed.
Lemma texts_length : forall l i, length (standing_texts i l) = length l.
Proof. induction l as [|[[p sc] e] l IH]; intro i; cbn [standing_texts length]; [reflexivity|]. now rewrite IH. Qed.
Theorem C82_record : forall head ds earlier last r go v un names finals pts, good_log head ds (earlier ++ [last]) -> new_record (earlier ++ [last]) = Ok r ->
  first_with (t_ "GO") head go -> holds go (t_ "type") (str_int v) -> first_with (t_ "UN") head un ->
  (forall i, (i < length (r_players r))%nat -> called r un (Z.of_nat i) (names i)) ->
  holds last (t_ "owari") (finals_text finals) -> Forall2 (fun x m => denotes 1 m (snd x)) finals pts -> (length (r_players r) <= length finals)%nat -> finals <> [] ->
  exists order texts, Permutation order (seq 0 (length (r_players r))) /\
    StronglySorted (before (fun i => fst (nth i finals (0, [])))) order /\
    record_str r = Ok (settings_text v ++ t_ " " ++ join (t_ ",") texts) /\ length texts = length order /\
    forall place seat, nth_error order place = Some seat -> exists points,
      spelled 1 (nth seat pts 0) points /\ nth_error texts place = Some (place_text place (names seat) points).
Proof.
  intros head ds earlier last r go v un names finals pts G H Fg Hv Fu Nm Hl Dp Lk Nf.
  destruct (finals_read _ _ Nf Dp) as (f & Rf & A & B). pose proof (both_length _ _ _ A) as LA. pose proof (both_length _ _ _ B) as LB.
  assert (Fin : r_end_score r = map fst f /\ r_end_point r = map snd f).
  { clear - H Hl Rf. apply new_record_events in H. unfold read_events in H. destruct (event_groups (earlier ++ [last])) as [[|head' chunks]|]; try discriminate. cbn [bindr] in H.
    cbv zeta in H. rewrite rev_unit in H. peel H. apply Ok_inj in H. subst r. cbn [r_end_score r_end_point]. unfold attr in *. unfold holds in Hl.
    rewrite Hl in *. match goal with K : Ok (finals_text finals) = Ok ?x |- _ => apply Ok_inj in K; subst x end.
    match goal with K : number_list (finals_text finals) = Ok ?x |- _ => assert (X : x = flat_map (fun x => [fst x; snd x]) f) by congruence; rewrite X end. apply every_pairs. }
  destruct Fin as [Fs Fp].
  pose (pd := mkPlayer 0 [] (NInt 0) (NInt 0) []).
  pose (st := fun i => (nth i (r_players r) pd, fst (nth i f (NInt 0, NInt 0)), snd (nth i f (NInt 0, NInt 0))) : standing).
  destruct (C79_record _ _ _ _ _ G Fg Hv) as (r' & H' & Ts). assert (r' = r) by congruence. subst r'.
  destruct (@fold_sorted standing st (fun y x => num_ltb (standing_score y) (standing_score x)) (fun i => fst (nth i finals (0, []))) insert_standing) with (k := length (r_players r)) as (order & E & P & Sd).
  - reflexivity.
  - reflexivity.
  - intros i j. unfold st, standing_score. cbn [fst snd].
    assert (X : forall i, fst (nth i f (NInt 0, NInt 0)) = NInt (fst (nth i finals (0, [])))).
    { clear - A. induction A as [|x y finals f A0 A IH]; intros [|i]; cbn [nth]; try reflexivity; [exact A0|apply IH]. }
    rewrite !X. unfold num_ltb. cbn. lia.
  - exists order, (standing_texts 0 (map st order)). split; [exact P|]. split; [exact Sd|]. split; [|split].
    + unfold record_str. cbv zeta. rewrite Ts. cbn [bindr]. do 4 f_equal. unfold sort_standings. rewrite Fs, Fp.
      rewrite (zip3_at pd f (NInt 0, NInt 0)) by lia. exact (f_equal (standing_texts 0) E).
    + rewrite texts_length, map_length. reflexivity.
    + intros place seat N. assert (K : (seat < length (r_players r))%nat) by (apply nth_error_In in N; apply (Permutation_in _ P) in N; apply in_seq in N; lia).
      exists (fixed 1 (snd (nth seat f (NInt 0, NInt 0)))). split.
      * assert (L : (seat < length pts)%nat) by lia. clear - B L. revert seat L. induction B as [|m y pts f B0 B IH]; intros [|i] L; cbn [nth length] in *; try lia; [exact B0|apply IH; lia].
      * assert (N' : nth_error (map st order) place = Some (st seat)) by (rewrite nth_error_map, N; reflexivity). rewrite (texts_at _ 0 _ _ N'). unfold place_text, st. cbn [fst snd]. rewrite Z.add_0_l. do 4 f_equal.
        destruct (nth_error (r_players r) seat) as [p|] eqn:Np; [|apply nth_error_None in Np; lia]. rewrite (nth_error_nth _ _ pd Np).
        destruct (called_player _ _ _ _ _ _ _ G H Fu (Nm seat K)) as (p' & Q1 & Q2). apply py_nth_some in Q1; [|lia]. rewrite Nat2Z.id in Q1. congruence.
Qed.

(** ** C83: the events *)
Section Described.
Context (so : list Z -> list Z) (SO : forall l, Permutation (so l) l).
Lemma tiles_shown l : Forall valid_tile l -> exists s, tile_set_from_tenhou l = Ok s /\ stands_for (ts_str s) l.
Proof.
  intro V. unfold tile_set_from_tenhou.
  assert (M : exists ts, mapM tile_from_tenhou l = Ok ts /\ map view ts = map face l /\ Forall legal_tile ts).
  { induction V as [|i l V0 V (ts & E & A & B)]; [exists []; repeat split; constructor|]. destruct (C05_tile_of_number i V0) as (t & Et & Lt & Vt & _).
    exists (t :: ts). cbn [mapM map]. rewrite Et. cbn [bindr]. rewrite E. cbn [bindr]. split; [reflexivity|]. split; [now rewrite Vt, A|constructor; assumption]. }
  destruct M as (ts & -> & Vw & Lg). cbn [bindr]. eexists. split; [reflexivity|]. intro k.
  destruct (C10_parsed_set (ts_str (of_tiles ts)) k) as [_ <-].
  assert (W : wf (of_tiles ts)) by apply wf_of_tiles.
  rewrite C09_print_parse_any; [|split; [exact W|exact (of_tiles_keys _ _ Lg)]]. rewrite face_count_getk by exact W. rewrite getk_of_tiles, occ_count. rewrite Vw.
  apply Z.max_r. unfold count_kind. apply sumZ_nonneg. intros x. destruct (same_kind x k); lia.
Qed.
Lemma call_described p v e : legal_action (Call p v) -> writes (Call p v) e -> complete (Call p v) e -> exists t, base_str so e = Ok t /\ described (Call p v) e t.
Proof.
  intros L W C. pose proof W as (T & Hw & Hm). destruct (decode_call p v L) as (m & Dm & D).
  destruct D as (Kd & Se & Nse & Bo & Nbo & Fr). destruct L as (Ps & V & TF). cbn [complete] in C.
  assert (Nt : tile_change DRAW_INDICATOR e = None /\ tile_change DISCARD_INDICATOR e = None) by (unfold tile_change; rewrite T; split; reflexivity).
  unfold base_str. destruct Nt as [-> ->]. unfold is_open_hand, has_tag. rewrite T. change (text_eqb (t_ "N") (t_ "N")) with true. cbv iota.
  rewrite (holds_attr _ _ _ Hw). cbn [bindr]. rewrite (meld_from_eq p v e W), Dm. cbn [bindr]. unfold meld_str.
  assert (V1 : Forall valid_tile (so (m_self m))) by (apply Forall_forall; intros x I0; apply C, Se; eapply Permutation_in; [apply SO|exact I0]).
  assert (V2 : Forall valid_tile (so (m_borrowed m))).
  { apply Forall_forall; intros x I0. apply (taken_valid v); [exact V|exact TF|]. apply Bo. eapply Permutation_in; [apply SO|exact I0]. }
  destruct (tiles_shown _ V1) as (a & -> & A). destruct (tiles_shown _ V2) as (b & -> & B). cbn [bindr]. eexists. split; [reflexivity|].
  rewrite Fr. assert (Kn : class_name (m_class m) = call_title v).
  { unfold call_title. rewrite Kd. unfold call_kind. repeat (match goal with |- context [if ?b then _ else _] => destruct b end; [reflexivity|]). reflexivity. }
  rewrite Kn. pose proof (dc_call p v e _ _ _ _ (so_tiles so SO _ _ Nse Se) (so_tiles so SO _ _ Nbo Bo) A B) as Dc.
  repeat rewrite <- app_assoc in Dc |- *. exact Dc.
Qed.
Lemma repr_int n : Json.num_repr (NInt n) = str_int n.
Proof. reflexivity. Qed.
Theorem C83_described : forall a e, legal_action a -> writes a e -> complete a e -> exists t, base_str so e = Ok t /\ described a e t.
Proof.
  intros a e L W C. destruct a as [d|p t|p t|p v|t|].
  - destruct W as (T & _).
    assert (Nt : tile_change DRAW_INDICATOR e = None /\ tile_change DISCARD_INDICATOR e = None) by (unfold tile_change; rewrite T; split; reflexivity).
    unfold base_str. destruct Nt as [-> ->]. unfold is_open_hand, is_richii, is_dora_indicator_event, is_somebody_win_game, is_nobody_win_game, has_tag. rewrite T.
    eexists. split; [reflexivity|]. apply dc_deal.
  - destruct L as [P V]. unfold base_str. rewrite (change_draw p t e P V W). rewrite one_tile_valid by exact V. cbn [bindr]. eexists. split; [reflexivity|]. apply dc_draw.
  - destruct L as [P V]. unfold base_str. destruct (change_discard p t e P V W) as [-> ->]. rewrite one_tile_valid by exact V. cbn [bindr]. eexists. split; [reflexivity|]. apply dc_discard.
  - apply call_described; assumption.
  - destruct W as [T H].
    assert (Nt : tile_change DRAW_INDICATOR e = None /\ tile_change DISCARD_INDICATOR e = None) by (unfold tile_change; rewrite T; split; reflexivity).
    unfold base_str. destruct Nt as [-> ->]. unfold is_open_hand, is_richii, is_dora_indicator_event, has_tag. rewrite T. cbn [text_eqb].
    change (text_eqb (t_ "DORA") (t_ "N")) with false. change (text_eqb (t_ "DORA") (t_ "REACH")) with false. change (text_eqb (t_ "DORA") (t_ "DORA")) with true. cbv iota.
    rewrite (holds_attr _ _ _ H). cbn [bindr]. rewrite py_int_str. cbn [bindr]. rewrite one_tile_valid by exact L. cbn [bindr]. eexists. split; [reflexivity|]. apply dc_dora.
  - pose proof W as (T1 & T2 & T3 & Tt). destruct C as (C1 & C2 & C3). destruct (tile_tag_full (tag e) Tt) as [A B]. unfold base_str, tile_change. rewrite A, B. cbn [option_map].
    unfold is_open_hand. assert (Tag : forall t, has_tag e t = true <-> tag e = t_ t) by (intro; unfold has_tag; apply text_eqb_iff).
    destruct (has_tag e "N") eqn:N1; [apply Tag in N1; contradiction|].
    destruct (is_richii e) eqn:R.
    { apply Tag in R. destruct (C1 R) as ((w & Hw) & _). rewrite (holds_attr _ _ _ Hw). cbn [bindr]. eexists. split; [reflexivity|]. exact (dc_riichi e _ R Hw). }
    destruct (is_dora_indicator_event e) eqn:Dr; [apply Tag in Dr; contradiction|].
    destruct (is_somebody_win_game e) eqn:Wn.
    { apply Tag in Wn. destruct (C2 Wn) as ((w & Hw) & (f & Hf) & (l & Hl & Ln)).
      rewrite (holds_attr _ _ _ Hw), (holds_attr _ _ _ Hf), (holds_attr _ _ _ Hl). cbn [bindr].
      destruct l as [|x [|y l]]; [cbn in Ln; lia|cbn in Ln; lia|]. rewrite number_list_comma by discriminate. cbn [bindr map].
      replace (py_nth (NInt x :: NInt y :: map NInt l) 1) with (Ok (NInt y)) by (symmetry; apply py_nth_some; [lia|reflexivity]). cbn [bindr].
      eexists. split; [reflexivity|]. rewrite repr_int. exact (dc_win e _ _ _ _ _ Wn Hw Hf Hl). }
    destruct (is_nobody_win_game e) eqn:N.
    { apply Tag in N. destruct (lookup (t_ "type") (attrib e)) as [k|] eqn:Lk.
      - destruct (C3 N k Lk) as [r Ir]. assert (Lr : lookup k DRAWN_TYPES = Some r).
        { cbn [draw_reasons In] in Ir. repeat (destruct Ir as [Ir|Ir]; [injection Ir as <- <-; reflexivity|]). destruct Ir. }
        rewrite Lr. cbn [bindr]. eexists. split; [reflexivity|]. exact (dc_aborted e k r N Lk Ir).
      - cbn [bindr]. eexists. split; [reflexivity|]. exact (dc_exhausted e N Lk). }
    eexists. split; [reflexivity|]. apply dc_other. intros [K|[K|[K|[]]]]; symmetry in K; apply Tag in K; unfold is_richii, is_somebody_win_game, is_nobody_win_game in *; congruence.
Qed.
End Described.

(** Red fives are not shown faithfully: own tiles 16 (red) and 17 are shown as two red fives, or
    as none, by the order in which Python happens to iterate over the set. *)
Theorem C83_red_refuted : exists e v, writes (Call 0 v) e /\ legal_action (Call 0 v) /\ (forall t, laid_down v t <-> t = 16 \/ t = 17) /\
  base_str (fun l => l) e = Ok (t_ "player 0 claimed 'Triplet' using '00m' to get '5m' from player 1") /\
  base_str (@rev Z) e = Ok (t_ "player 0 claimed 'Triplet' using '55m' to get '5m' from player 1").
Proof.
  exists (ev "N" [("who", "0"); ("m", "7273")]%string), 7273. split; [split; [reflexivity|split; reflexivity]|].
  split; [split; [unfold seat; lia|split; [lia|vm_compute; reflexivity]]|]. split; [|split; vm_compute; reflexivity].
  intro t. unfold laid_down. change (call_kind 7273) with CTriplet. change (pon_position 7273) with 2. cbv iota. split.
  - intros (i & B & N & ->). assert (X : i = 0 \/ i = 1) by lia. destruct X as [->| ->]; [left|right]; reflexivity.
  - intros [->| ->]; [exists 0|exists 1]; (split; [lia|split; [lia|reflexivity]]).
Qed.
(** [repr] of an event never returns. *)
Theorem C83_repr : forall event_text, event_repr event_text = Err TypeError.
Proof. intro s. unfold event_repr. cbn. reflexivity. Qed.

(** ** All seats are there if the lists of the player event are long enough. *)
Lemma mapM_same_length {A B} (f : A -> res B) : forall l r, mapM f l = Ok r -> length r = length l.
Proof. induction l as [|x l IH]; intros r M; cbn [mapM] in M; [apply Ok_inj in M; now subst r|]. peel M. apply Ok_inj in M. subst r. cbn [length]. f_equal. now apply IH. Qed.
Theorem C80_all : forall head ds events r go v un dan dl rate rl sx, good_log head ds events -> new_record events = Ok r ->
  first_with (t_ "GO") head go -> holds go (t_ "type") (str_int v) -> first_with (t_ "UN") head un ->
  holds un (t_ "dan") dan -> number_list dan = Ok dl -> holds un (t_ "rate") rate -> number_list rate = Ok rl -> holds un (t_ "sx") sx ->
  (4 <= length dl)%nat -> (4 <= length rl)%nat -> (4 <= length (split_on 44 sx))%nat ->
  length (r_players r) = if flag v 4 then 3%nat else 4%nat.
Proof.
  intros head ds events r go v un dan dl rate rl sx G H Fg Hv Fu Hd Nd Hr Nr Hx Ld Lr Lx. pose proof (record_type _ _ _ _ _ _ G H Fg Hv) as T.
  assert (R : 0 <= v < 65536). { destruct (Z_le_dec 0 v), (Z_lt_dec v 65536); try (split; assumption); exfalso; rewrite C28_rejected in T by lia; discriminate. }
  destruct (C28_flags v R) as [g' [G' [_ [_ [_ [F4 _]]]]]]. assert (g' = r_type r) by congruence. subst g'.
  pose proof (record_meta _ _ _ _ G H) as M. apply new_record_events in H. unfold read_events in H.
  destruct (event_groups events) as [[|head' chunks]|]; try discriminate. cbn [bindr] in H. cbv zeta in H. destruct (rev events); [discriminate|].
  peel H. apply Ok_inj in H. subst r. cbn [r_meta r_type r_players] in *. unfold config_attr in *. rewrite M, (config_first _ _ _ Fu) in *. unfold holds in Hd, Hr, Hx. rewrite Hd, Hr, Hx in *.
  repeat match goal with K : Ok _ = Ok _ |- _ => apply Ok_inj in K; subst end. rewrite Nd in *. rewrite Nr in *.
  repeat match goal with K : Ok _ = Ok _ |- _ => apply Ok_inj in K; subst end. rewrite F4.
  match goal with K : mapM _ [_; _; _; _] = Ok ?l |- _ => pose proof (mapM_same_length _ _ _ K) as L4 end. cbn [length] in L4.
  clear - Ld Lr Lx L4. revert Ld Lr Lx L4. generalize (split_on 44 sx). intros sl Ld Lr Lx L4.
  assert (Z0 : forall n i names (d2 r2 : list num) s2, (n <= length names)%nat -> (n <= length d2)%nat -> (n <= length r2)%nat -> (n <= length s2)%nat -> length (zip_players i n names d2 r2 s2) = n).
  { induction n as [|n IH]; intros i [|] [|] [|] [|] A B C D; cbn [length zip_players] in *; try lia; try reflexivity. f_equal. apply IH; lia. }
  destruct (flag v 4); apply Z0; lia.
Qed.

(** ** A log whose texts are shown *)
Definition sh_go : event := ev "GO" [("type", "9"); ("lobby", "0")].
Definition sh_un : event := ev "UN" [("n0", "%E3%81%82"); ("n1", "b"); ("n2", "c"); ("n3", "d"); ("dan", "10,11,12,20");
  ("rate", "1500.00,1620.55,1700.5,1444"); ("sx", "M,F,M,M")].
Definition sh_init1 : event := ev "INIT" [("seed", "0,0,0,2,5,77"); ("oya", "0")].
Definition sh_win : event := ev "AGARI" [("who", "1"); ("fromWho", "0"); ("ten", "30,1000,0")].
Definition sh_init2 : event := ev "INIT" [("seed", "5,2,0,2,5,77"); ("oya", "1")].
Definition sh_last : event := ev "RYUUKYOKU" [("type", "yao9"); ("owari", "200,-5.0,350,20.0,250,-10.0,200,-5.0")].
Definition sh_head : list event := [ev "SHUFFLE" []; sh_go; sh_un; ev "TAIKYOKU" [("oya", "0")]].
Definition sh_log : list event := (sh_head ++ [sh_init1; ev "T5" []; sh_win; sh_init2; ev "U9" []]) ++ [sh_last].
Definition sh_finals : list (Z * text) := [(200, t_ "-5.0"); (350, t_ "20.0"); (250, t_ "-10.0"); (200, t_ "-5.0")].
Lemma denotes_dec p neg i f m s : f <> [] -> i <> [] -> forallb ch_digit (i ++ f) = true -> (length f <=? p)%nat = true ->
  m = (if neg : bool then -1 else 1) * (digits_val (i ++ f) * 10 ^ Z.of_nat (p - length f)) -> s = (if neg then t_ "-" else []) ++ i ++ t_ "." ++ f -> denotes p m s.
Proof.
  intros F N D L -> ->. exists neg, i, f, (t_ "." ++ f). split; [reflexivity|]. split; [right; split; [exact F|reflexivity]|]. split; [exact N|]. split; [apply digits_forall; exact D|].
  split; [now apply Nat.leb_le|reflexivity].
Qed.
Ltac dec neg i f := apply (denotes_dec _ neg (t_ i) (t_ f)); [discriminate|discriminate|vm_compute; reflexivity|vm_compute; reflexivity|vm_compute; reflexivity|vm_compute; reflexivity].
Lemma sh_good : good_log sh_head [[sh_init1; ev "T5" []; sh_win]; [sh_init2; ev "U9" []; sh_last]] sh_log.
Proof.
  assert (Dg : forall s, match s with [] => false | _ => forallb ch_digit s end = true -> digits s) by exact digits_check.
  split; [reflexivity|]. split; [|split; [|split]].
  - split; [repeat (constructor; [discriminate|]); constructor|]. split.
    + exists sh_go, 9. split; [apply fw_later; [discriminate|apply fw_here; reflexivity]|]. split; [reflexivity|lia].
    + exists sh_un, (comma_list [10; 11; 12; 20]), (t_ "1500.00,1620.55,1700.5,1444").
      split; [do 2 (apply fw_later; [discriminate|]); apply fw_here; reflexivity|]. split; [|split; [reflexivity|split; [apply ints_text; discriminate|split; [reflexivity|]]]].
      * intros i I. repeat (destruct I as [<-|I]; [eexists; reflexivity|]). destruct I.
      * exists [t_ "1500.00"; t_ "1620.55"; t_ "1700.5"; t_ "1444"]. split; [discriminate|]. split; [|reflexivity].
        constructor; [apply (decimal_text _ (t_ "1500") (t_ "00")); try reflexivity; now apply Dg|].
        constructor; [apply (decimal_text _ (t_ "1620") (t_ "55")); try reflexivity; now apply Dg|].
        constructor; [apply (decimal_text _ (t_ "1700") (t_ "5")); try reflexivity; now apply Dg|].
        constructor; [left; exists 1444; reflexivity|]. constructor.
  - constructor; [|constructor; [|constructor]].
    + exists sh_init1, [ev "T5" []; sh_win], (comma_list [0; 0; 0; 2; 5; 77]), 0. split; [reflexivity|]. split; [reflexivity|]. split; [reflexivity|]. split; [apply ints_text; discriminate|].
      split; [reflexivity|]. split; [repeat (constructor; [discriminate|]); constructor|right; left; left; reflexivity].
    + exists sh_init2, [ev "U9" []; sh_last], (comma_list [5; 2; 0; 2; 5; 77]), 1. split; [reflexivity|]. split; [reflexivity|]. split; [reflexivity|]. split; [apply ints_text; discriminate|].
      split; [reflexivity|]. split; [repeat (constructor; [discriminate|]); constructor|right; left; right; reflexivity].
  - repeat (constructor; [first [apply no_tile; reflexivity | apply (one_tile_tag _ 84 5); [reflexivity|lia] | apply (one_tile_tag _ 85 9); [reflexivity|lia]]|]). constructor.
  - exists (sh_head ++ [sh_init1; ev "T5" []; sh_win; sh_init2; ev "U9" []]), sh_last, (finals_text sh_finals). split; [reflexivity|]. split; [reflexivity|].
    exists [t_ "200"; t_ "-5.0"; t_ "350"; t_ "20.0"; t_ "250"; t_ "-10.0"; t_ "200"; t_ "-5.0"]. split; [discriminate|]. split; [|reflexivity].
    constructor; [left; exists 200; reflexivity|]. constructor; [apply (minus_text _ (t_ "5") (t_ "0")); try reflexivity; now apply Dg|].
    constructor; [left; exists 350; reflexivity|]. constructor; [apply (decimal_text _ (t_ "20") (t_ "0")); try reflexivity; now apply Dg|].
    constructor; [left; exists 250; reflexivity|]. constructor; [apply (minus_text _ (t_ "10") (t_ "0")); try reflexivity; now apply Dg|].
    constructor; [left; exists 200; reflexivity|]. constructor; [apply (minus_text _ (t_ "5") (t_ "0")); try reflexivity; now apply Dg|]. constructor.
Qed.
Definition sh_names (i : nat) : text := nth i [[12354]; t_ "b"; t_ "c"; t_ "d"] [].
Lemma sh_called r i : new_record sh_log = Ok r -> (i < 4)%nat -> called r sh_un (Z.of_nat i) (sh_names i).
Proof.
  intros H L. assert (Q : quotes [12354] (t_ "%E3%81%82")).
  { pose proof (C77_all_names [12354]) as A. apply A. constructor; [left; lia|constructor]. }
  assert (P : forall c, c <> 37 -> quotes [c] [c]) by (intros c N; apply q_plain; [exact N|constructor]).
  assert (X : exists r', new_record sh_log = Ok r' /\ length (r_players r') = 4%nat) by (eexists; split; [vm_compute; reflexivity|reflexivity]).
  destruct X as (r' & H' & L4). assert (r' = r) by congruence. subst r'.
  split; [lia|]. rewrite Nat2Z.id. destruct (nth_error (r_players r) i) as [p|] eqn:N; [|apply nth_error_None in N; lia]. exists p.
  destruct i as [|[|[|[|i]]]]; [| | | |lia]; eexists; (split; [reflexivity|]); (split; [reflexivity|]); [exact Q|apply P; discriminate..].
Qed.
Example C80_case : exists r p, new_record sh_log = Ok r /\ nth_error (r_players r) 2 = Some p /\ denotes 2 170050 (t_ "1700.5") /\
  player_str p = Ok (t_ "c " ++ [19977; 27573] ++ t_ " R1700.50").
Proof.
  eexists _, _. split; [vm_compute; reflexivity|]. split; [reflexivity|]. split; [|vm_compute; reflexivity].
  dec false "1700"%string "5"%string.
Qed.
Example C81_case : exists r, new_record sh_log = Ok r /\
  endings (called r sh_un) [ev "T5" []; sh_win] [t_ "b<-" ++ [12354; 58; 12525; 12531; 40] ++ t_ "1000)"] /\
  map (game_caption (r_type r) (r_players r)) (r_games r) =
    [Ok ([26481; 49; 23616; 48; 26412; 32] ++ t_ "b<-" ++ [12354; 58; 12525; 12531; 40] ++ t_ "1000)");
     Ok [21335; 50; 23616; 50; 26412; 32; 27969; 23616; 32; 20061; 31278; 20061; 29260]].
Proof.
  assert (X : exists r', new_record sh_log = Ok r' /\ map (game_caption (r_type r') (r_players r')) (r_games r') =
    [Ok ([26481; 49; 23616; 48; 26412; 32] ++ t_ "b<-" ++ [12354; 58; 12525; 12531; 40] ++ t_ "1000)");
     Ok [21335; 50; 23616; 50; 26412; 32; 27969; 23616; 32; 20061; 31278; 20061; 29260]]) by (eexists; split; [vm_compute; reflexivity|vm_compute; reflexivity]).
  destruct X as (r & H & E). exists r. split; [exact H|]. split; [|exact E].
  apply ed_other; [discriminate|discriminate|]. apply ed_end; [|constructor].
  exact (en_ron _ sh_win 1 0 (t_ "b") [12354] 30 1000 [0] eq_refl eq_refl eq_refl ltac:(discriminate) eq_refl (sh_called r 1 H ltac:(lia)) (sh_called r 0 H ltac:(lia))).
Qed.
Example C82_case : exists r order texts, new_record sh_log = Ok r /\ Permutation order (seq 0 4) /\
  StronglySorted (before (fun i => fst (nth i sh_finals (0, [])))) order /\ record_str r = Ok (settings_text 9 ++ t_ " " ++ join (t_ ",") texts) /\
  record_str r = Ok ([22235; 33324; 21335; 21936; 36196; 32] ++ t_ "1" ++ [20301] ++ t_ ":b(20.0),2" ++ [20301] ++ t_ ":c(-10.0),3" ++ [20301; 58; 12354] ++ t_ "(-5.0),4" ++ [20301] ++ t_ ":d(-5.0)").
Proof.
  assert (X : exists r', new_record sh_log = Ok r' /\ length (r_players r') = 4%nat /\
    record_str r' = Ok ([22235; 33324; 21335; 21936; 36196; 32] ++ t_ "1" ++ [20301] ++ t_ ":b(20.0),2" ++ [20301] ++ t_ ":c(-10.0),3" ++ [20301; 58; 12354] ++ t_ "(-5.0),4" ++ [20301] ++ t_ ":d(-5.0)"))
    by (eexists; split; [vm_compute; reflexivity|split; [reflexivity|vm_compute; reflexivity]]).
  destruct X as (r & H & L4 & Rs).
  destruct (C82_record sh_head _ _ _ r sh_go 9 sh_un sh_names sh_finals [-50; 200; -100; -50] sh_good H) as (order & texts & P & Sd & R & _).
  - apply fw_later; [discriminate|apply fw_here; reflexivity].
  - reflexivity.
  - do 2 (apply fw_later; [discriminate|]); apply fw_here; reflexivity.
  - intros i L. apply sh_called; [exact H|lia].
  - reflexivity.
  - constructor; [dec true "5"%string "0"%string|].
    constructor; [dec false "20"%string "0"%string|].
    constructor; [dec true "10"%string "0"%string|].
    constructor; [dec true "5"%string "0"%string|]. constructor.
  - rewrite L4. cbn. lia.
  - discriminate.
  - exists r, order, texts. rewrite L4 in P. split; [exact H|]. split; [exact P|]. split; [exact Sd|]. split; [exact R|exact Rs].
Qed.
Example C83_case : let e := ev "N" [("who", "2"); ("m", "7273")]%string in writes (Call 2 7273) e /\ legal_action (Call 2 7273) /\ complete (Call 2 7273) e.
Proof.
  split; [split; [reflexivity|split; reflexivity]|]. split; [split; [unfold seat; lia|split; [lia|vm_compute; reflexivity]]|].
  intros t. unfold laid_down. change (call_kind 7273) with CTriplet. change (pon_position 7273) with 2. cbv iota.
  intros (i & B & N & ->). assert (X : i = 0 \/ i = 1) by lia. destruct X as [->| ->]; vm_compute; split; discriminate || reflexivity.
Qed.

Print Assumptions C79_text.
Print Assumptions C79_record.
Print Assumptions C79_identifies.
Print Assumptions C79_equal.
Print Assumptions C79_converse_refuted.
Print Assumptions C80_player.
Print Assumptions C80_rounded.
Print Assumptions C80_all.
Print Assumptions C81_caption.
Print Assumptions C81_distinct.
Print Assumptions C82_record.
Print Assumptions C83_described.
Print Assumptions C83_red_refuted.
Print Assumptions C83_repr.
