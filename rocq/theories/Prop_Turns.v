(** C115: the report on a deal that a player plays by the rules. *)
From Coq Require Import String.
From Verif Require Import Base Tile Spec_Tile Spec_Win Spec_Waiting Parse Text Tenhou TenhouProofs Spec_Meld MeldProofs Prop_Meld Event State Spec_Log StateProofs Prop_State Checker Spec_Checker.
From Verif Require Import WinFacts WaitingBrute CheckerHand CheckerRows CheckerReport CheckerGame Prop_Checker CheckerTexts Spec_Mixed Prop_Red Prop_Count Spec_Turns TurnsFacts CheckerErrors.
From Coq Require Import List ZArith QArith Lia Bool Permutation.
Import ListNotations.
Open Scope list_scope.
Open Scope Z_scope.

Lemma pairs_length {A B} (R : A -> B -> Prop) l m : Forall2 R l m -> length l = length m.
Proof. induction 1; cbn [length]; congruence. Qed.
Lemma pairs_mono {A B} (R Q : A -> B -> Prop) : (forall x y, R x y -> Q x y) -> forall l m, Forall2 R l m -> Forall2 Q l m.
Proof. intros M l m. induction 1; constructor; auto. Qed.
Lemma same_place {A} (a : list A) : forall c x y b d, a ++ x :: b = c ++ y :: d -> length c = length a -> a = c /\ x = y.
Proof.
  induction a as [|z a IH]; intros [|w c] x y b d E L; try discriminate; cbn [app] in E; injection E as -> E; [auto|].
  destruct (IH c x y b d E) as [-> ->]; [now injection L|]. auto.
Qed.
Lemma log_parts before t after p es : log (before ++ Discard p t :: after) es ->
  exists es1 e es2, es = es1 ++ e :: es2 /\ length es1 = length before /\ log before es1 /\ writes (Discard p t) e.
Proof.
  intros [L W]. apply Forall2_app_inv_l in W. destruct W as (es1 & es2 & W1 & W2 & ->). inversion W2 as [|? e ? es3 W3 W4]; subst.
  apply Forall_app in L. destruct L as [L _]. exists es1, e, es3. split; [reflexivity|]. split; [symmetry; eapply pairs_length; exact W1|]. split; [|exact W3]. now split.
Qed.
Lemma legal_discard p players acts b es before t after es1 e : seat p -> players = 3 \/ players = 4 -> playing p acts b ->
  acts = before ++ Discard p t :: after -> log acts es -> log before es1 -> writes (Discard p t) e ->
  exists hand s ms, passed_events (SHand p []) es1 = Ok (SHand p hand) /\
    passed_events (SInvisible players (initial_invisible players)) es1 = Ok (SInvisible players (Some s)) /\
    passed_events (SMeld p []) es1 = Ok (SMeld p ms) /\
    discards e p hand ms t /\ NoDup s /\ hand_at p before hand /\ Spec_Checker.table_melds ms = melds_made p before /\
    (players = 4 -> ~ zero_discarded before -> forall u, valid_tile u -> (hidden hand s u <-> unseen_at p before u)) /\
    tiles_only s /\ (forall u, valid_tile u -> (hidden hand s u <-> taken_for_unseen p players before u)) /\ melds_after p before ms.
Proof.
  intros P Pl H -> LG L1 W. destruct (playing_point _ _ _ _ _ H) as [Hb It].
  destruct (C32_player_hand p [] before es1 P L1 (playing_plays _ _ _ Hb)) as (hand & Eh & Ih).
  destruct (C27_player_melds p before es1 P L1) as (ms & Em & Im & _).
  destruct (C34_partial players before es1 Pl L1) as (s & Es & Is).
  destruct (playing_deals _ _ _ Hb) as (d & rest & Ed & Nd & _).
  assert (LD : last_deal before d rest) by (exists []; auto).
  pose proof (proj1 L1) as LB. destruct (playing_melds p before true d rest ms P Hb LB Ed (Im d rest LD)) as [Tm Vm].
  assert (HA : hand_at p before hand) by (split; [eapply hand_nodup; exact Eh|exact Ih]).
  destruct (playing_hand p before true P Hb LB) as (h & Hh & Vh & Lh). pose proof (hand_at_same _ _ _ _ Hh HA) as PM.
  exists hand, s, ms. do 3 (split; [assumption|]). split; [|split; [eapply invisible_nodup; eassumption|split; [exact HA|split; [exact Tm|split; [|split; [|split]]]]]].
  - split; [exact P|]. split; [|split; [exact W|exact Vm]]. split; [apply HA|]. split; [eapply Permutation_Forall; eassumption|].
    rewrite Tm. rewrite (Permutation_length PM) in Lh. split; [|split; [exact Lh|now apply Ih]]. unfold melds_made in *. lia.
  - intros -> Nz u Vu. unfold hidden, unseen_at. rewrite Ih.
    assert (Q : In (ITile u) s <-> u <> d_dora d /\ Forall (fun a => ~ shows u a) rest).
    { destruct (Z.eq_dec u 0) as [->|N].
      - destruct (C34_tile_zero before es1 d rest L1 LD) as (s' & Es' & Z). rewrite Es in Es'. injection Es' as <-. rewrite Z, Forall_forall. split.
        + intros [A B]. split; [congruence|]. intros a Ia. apply B; [exact Ia|]. intros q ->. apply Nz. exists q. rewrite Ed. now right.
        + intros [A B]. split; [congruence|]. intros a Ia _. now apply B.
      - destruct (Is u) as [Q _]; [exact N|]. rewrite (Q d rest LD). unfold in_game. split; [tauto|]. intros [A B]. split; [|tauto]. split; [exact Vu|lia]. }
    rewrite Q, <- Forall_Exists_neg. split.
    + intros [[A B] C]. split; [exact C|]. rewrite Ed. split; [constructor; [now intros []|exact B]|]. intros d' [X|X]; [injection X as <-; congruence|].
      exfalso. unfold no_deal in Nd. rewrite Forall_forall in Nd. now apply (Nd _ X).
    + intros (C & B & A). split; [|exact C]. rewrite Ed in A, B. split; [intro X; apply (A d); [now left|congruence]|]. now inversion B.
  - intros u U. destruct (Z.eq_dec u 0) as [->|N]; [unfold valid_tile; lia|]. destruct Pl as [-> | ->].
    + destruct (C34_three_players before es1 L1) as (s' & Es' & Z3). rewrite Es in Es'. injection Es' as <-.
      assert (36 <= u) by (destruct (Z_lt_le_dec u 36) as [X|X]; [exfalso; now apply (Z3 u X)|exact X]).
      destruct (Is u) as [Q _]; [cbn; lia|]. apply (Q d rest LD) in U. apply U.
    + destruct (Is u) as [Q _]; [exact N|]. apply (Q d rest LD) in U. apply U.
  - intros u Vu. unfold hidden, taken_for_unseen. rewrite Ih.
    assert (Q : In (ITile u) s <-> d_dora d <> u /\ (players = 3 -> 36 <= u) /\ forall a, In a rest -> (forall q, u = 0 -> a <> Discard q 0) -> ~ shows u a).
    { destruct Pl as [-> | ->].
      - destruct (C34_three_players before es1 L1) as (s' & Es' & Z3). rewrite Es in Es'. injection Es' as <-. destruct (Z_lt_le_dec u 36) as [X|X].
        + split; [intro U; exfalso; now apply (Z3 u X)|]. intros (_ & Y & _). specialize (Y eq_refl). lia.
        + destruct (Is u) as [Q _]; [cbn; lia|]. rewrite (Q d rest LD), Forall_forall. unfold in_game. split.
          * intros (A & B & C). split; [congruence|]. split; [auto|]. intros a Ia _. now apply C.
          * intros (A & _ & C). split; [split; [exact Vu|lia]|]. split; [congruence|]. intros a Ia. apply C; [exact Ia|]. intros q Z0. lia.
      - destruct (Z.eq_dec u 0) as [->|N].
        + destruct (C34_tile_zero before es1 d rest L1 LD) as (s' & Es' & Z0). rewrite Es in Es'. injection Es' as <-. rewrite Z0. split.
          * intros [A B]. split; [exact A|]. split; [discriminate|]. intros a Ia X. apply B; [exact Ia|]. intro q. now apply X.
          * intros (A & _ & B). split; [exact A|]. intros a Ia X. apply B; [exact Ia|]. intros q _. apply X.
        + destruct (Is u) as [Q _]; [exact N|]. rewrite (Q d rest LD), Forall_forall. unfold in_game. split.
          * intros (A & B & C). split; [congruence|]. split; [discriminate|]. intros a Ia _. now apply C.
          * intros (A & _ & C). split; [split; [exact Vu|lia]|]. split; [congruence|]. intros a Ia. apply C; [exact Ia|]. intros q Z0. contradiction. }
    rewrite Q, Ed. split.
    + intros [(A & B & C) D]. split; [exact D|]. split; [|split; [exact B|]].
      * intros d' [X|X]; [injection X as <-; exact A|]. exfalso. unfold no_deal in Nd. rewrite Forall_forall in Nd. now apply (Nd _ X).
      * intros a [<-|Ia] X; [now intros []|]. now apply C.
    + intros (D & A & B & C). split; [|exact D]. split; [apply A; now left|]. split; [exact B|]. intros a Ia. apply C. now right.
  - specialize (Im d rest LD). destruct Im as (ds & D1 & D2). exists ds. split; [|exact D2]. rewrite Ed. exact D1.
Qed.

(** The trackers at any discard of a player who plays by the rules: they hold the actual hand, with
    the number of tiles that the melds leave, so that the theorems about single rows (C52, C54,
    C63, C64, C65, C66) apply to every row of the report. *)
Theorem C115_legal_discard : forall p players acts b es before t after, seat p -> players = 3 \/ players = 4 ->
  playing p acts b -> log acts es -> acts = before ++ Discard p t :: after ->
  exists e hand s ms, nth_error es (length before) = Some e /\
    passed_events (SHand p []) (firstn (length before) es) = Ok (SHand p hand) /\
    passed_events (SInvisible players (initial_invisible players)) (firstn (length before) es) = Ok (SInvisible players (Some s)) /\
    passed_events (SMeld p []) (firstn (length before) es) = Ok (SMeld p ms) /\
    discards e p hand ms t /\ NoDup s /\ hand_at p before hand /\ Spec_Checker.table_melds ms = melds_made p before.
Proof.
  intros p players acts b es before t after P Pl H LG E. subst acts. destruct (log_parts _ _ _ _ _ LG) as (es1 & e & es2 & -> & Le & L1 & W).
  destruct (legal_discard p players _ b _ before t after es1 e P Pl H eq_refl LG L1 W) as (hand & s & ms & A & B & C & D & F & G & I0 & _).
  exists e, hand, s, ms. rewrite <- Le. split; [rewrite nth_error_app2 by lia; now rewrite Nat.sub_diag|].
  rewrite firstn_app, Nat.sub_diag, firstn_all. cbn [firstn]. rewrite app_nil_r. auto 10.
Qed.

Lemma own_points p : forall acts es pa pe, length acts = length es -> length pa = length pe ->
  Forall2 (fun x y => (exists after, pa ++ acts = fst y ++ Discard p (snd y) :: after) /\ (exists rest, pe ++ es = fst x ++ snd x :: rest) /\ length (fst x) = length (fst y))
    (discard_points p pe acts es) (own_discards p pa acts).
Proof.
  induction acts as [|a acts IH]; intros [|e es] pa pe L1 L2; try discriminate; [constructor|].
  cbn [discard_points own_discards]. apply Forall2_app.
  - destruct a as [| |q t| | |]; try constructor. destruct (Z.eqb_spec q p) as [->|]; constructor; [|constructor]. cbn [fst snd]. eauto.
  - specialize (IH es (pa ++ [a]) (pe ++ [e])). rewrite <- !app_assoc in IH. cbn [app] in IH. apply IH; [now injection L1|]. rewrite !app_length. cbn [length]. lia.
Qed.

(** What a row of the report must say about the discard of [t] after [before] by seat [p], in a deal
    told by the events [es]: it shows the hand that the player had at that moment; the line about
    the choice names the face of [t], the distance of what remains and the faces that bring it
    closer, for the patterns that the melds leave open; in a four-player game without red fives in
    hand and tile 0 not discarded it counts the tiles of these faces the player has not seen; in
    every game, the number of every row is the one that follows from the useful tiles it shows and
    what the program takes for unseen; the row shows the melds of the player on the table; and it
    tells whether somebody had declared riichi. *)
Definition right_about (p players : Z) (es : list event) (pt : list action * Z) (row : round) : Prop :=
  let (before, t) := pt in exists hand, hand_at p before hand /\
    to_discard hand (melds_made p before) t /\
    right_row (shapes_for (melds_made p before)) hand (face t) (sh_discard (rr_choice row)) (sh_step (rr_choice row)) (sh_useful (rr_choice row)) /\
    (players = 4 -> reds_useless hand (best_advances (shapes_for (melds_made p before)) (without (hand_counts hand) (face t))) -> ~ zero_discarded before ->
       right_count (shapes_for (melds_made p before)) hand (unseen_at p before) (face t) (sh_count (rr_choice row))) /\
    Forall (fun x => texts_counted (taken_for_unseen p players before) (sh_useful x) (sh_count x)) (rr_choice row :: rr_expected row ++ rr_merged row) /\
    (exists ks, Permutation ks (map face hand) /\ not_descending ks /\ Forall2 names (rr_hand row) ks) /\
    (exists ms, melds_after p before ms /\ Forall2 (fun m txts => Forall2 tile_text (m_self m ++ m_borrowed m) txts) ms (rr_melds row)) /\
    (rr_somebody_richii row = true <-> somebody_declared_riichi (firstn (length before) es)).
(** One row for each discard, about the hand that the player had at that moment. *)
Theorem C115_rows : forall p players acts b es rows, seat p -> players = 3 \/ players = 4 -> playing p acts b -> log acts es ->
  game_reason_list es p players = Ok rows -> Forall2 (right_about p players es) (own_discards p [] acts) rows.
Proof.
  intros p players acts b es rows P Pl H LG E. pose proof (playing_turns _ _ _ H) as TT.
  apply (C53_one_row_per_discard p players acts es rows P LG TT) in E. destruct E as [_ F].
  pose proof (own_points p acts es [] [] (pairs_length _ _ _ (proj2 LG)) eq_refl) as G. cbn [app] in G.
  assert (C : forall A B D (R : A -> B -> Prop) (Q : A -> D -> Prop) l m n, Forall2 R l m -> Forall2 Q l n -> Forall2 (fun y z => exists x, R x y /\ Q x z) m n).
  { clear. intros A B D R Q l m n X. revert n. induction X as [|x y l m Rxy X IH]; intros n Y; inversion Y; subst; constructor; eauto. }
  pose proof (C _ _ _ _ _ _ _ _ G F) as K. clear C F G. revert K. apply pairs_mono.
  intros [before t] row (x & ((after & Ea) & (rest & Ee) & Le) & hs & is & ms & r & Eh & Ei & Em & Er & Erow & Rch). cbn [fst snd] in *.
  assert (L1 : log before (fst x) /\ writes (Discard p t) (snd x)).
  { subst acts es. destruct (log_parts _ _ _ _ _ LG) as (es1 & e & es2 & Q & Lq & L1 & W).
    assert (length es1 = length (fst x)) by congruence. assert (fst x = es1 /\ snd x = e) as [-> ->]; [|auto].
    now apply (same_place _ _ _ _ _ _ Q). }
  destruct L1 as [L1 W].
  destruct (legal_discard p players acts b es before t after (fst x) (snd x) P Pl H Ea LG L1 W) as (hand & s & ms' & A1 & A2 & A3 & A4 & A5 & A6 & A7 & A8 & A9 & A10 & A11).
  rewrite A1 in Eh. rewrite A2 in Ei. rewrite A3 in Em. injection Eh as <-. injection Ei as <-. injection Em as <-.
  change (reported (snd x) p hand players s ms' = Ok r) in Er. rewrite Erow. cbn [flagged rr_choice rr_hand rr_melds rr_expected rr_merged].
  pose proof (C55_rows _ _ _ _ _ _ _ _ A4 A9 Er) as CR. pose proof (C65_melds _ _ _ _ _ _ _ _ A4 Er) as MR.
  destruct (C63_choice _ _ _ _ _ _ _ _ A4 A5 Er) as [RR RC]. destruct (C65_hand _ _ _ _ _ _ _ _ A4 Er) as (ks & K1 & K2 & K3 & _).
  rewrite A7 in *. exists hand. split; [exact A6|]. split; [rewrite <- A7; apply A4|]. split; [exact RR|]. split; [|split; [|split; [eauto|split; [eauto|]]]].
  - intros P4 nr nz. destruct (RC nr) as (kk & X & (l & Y1 & Y2 & Y3)). exists kk. split; [exact X|]. exists l. split; [exact Y1|]. split; [|exact Y3].
    intro u. rewrite Y2. pose proof (A8 P4 nz u). tauto.
  - eapply Forall_impl; [|exact CR]. intros y Y. eapply texts_same; [|exact Y]. exact A10.
  - cbn [rr_somebody_richii]. rewrite Erow in Rch. cbn [flagged rr_somebody_richii] in Rch. rewrite Rch, <- Le, Ee. rewrite firstn_app, Nat.sub_diag, firstn_all. cbn [firstn]. now rewrite app_nil_r.
Qed.

Lemma point_of p : forall acts es pe, length acts = length es -> forall pt, In pt (discard_points p pe acts es) ->
  exists before t after rest, acts = before ++ Discard p t :: after /\ pe ++ es = fst pt ++ snd pt :: rest /\ length (fst pt) = (length pe + length before)%nat.
Proof.
  induction acts as [|a acts IH]; intros [|e es] pe L pt I0; try discriminate; [destruct I0|]. cbn [discard_points] in I0. apply in_app_or in I0. destruct I0 as [I0|I0].
  - destruct a as [| |q t| | |]; try now destruct I0. destruct (Z.eqb_spec q p) as [->|]; [|now destruct I0]. destruct I0 as [<-|[]]. cbn [fst snd].
    exists [], t, acts, es. split; [reflexivity|]. split; [reflexivity|]. cbn [length]. lia.
  - destruct (IH es (pe ++ [e]) ltac:(now injection L) pt I0) as (before & t & after & rest & -> & E & Q). exists (a :: before), t, after, rest.
    rewrite <- app_assoc in E. split; [reflexivity|]. split; [exact E|]. rewrite app_length in Q. cbn [length] in *. lia.
Qed.
Lemma in_points p : forall before es1 e es2 t after pe, length es1 = length before ->
  In (pe ++ es1, e) (discard_points p pe (before ++ Discard p t :: after) (es1 ++ e :: es2)).
Proof.
  induction before as [|a before IH]; intros [|e1 es1] e es2 t after pe L; try discriminate; cbn [app discard_points].
  - rewrite Z.eqb_refl, app_nil_r. apply in_or_app. left. now left.
  - apply in_or_app. right. replace (pe ++ e1 :: es1) with ((pe ++ [e1]) ++ es1) by (rewrite <- app_assoc; reflexivity). apply IH. now injection L.
Qed.

(** The report on a deal of a player who plays by the rules is made, or stops with one of two
    errors: RuntimeError only if the player has a complete hand at one of the discards, and
    ZeroDivisionError. *)
Theorem C115_outcome : forall p players acts b es, seat p -> players = 3 \/ players = 4 -> playing p acts b -> log acts es ->
  (exists rows, game_reason_list es p players = Ok rows) \/
  (game_reason_list es p players = Err RuntimeError /\ exists before t after, acts = before ++ Discard p t :: after /\ complete_at p before) \/
  game_reason_list es p players = Err ZeroDivisionError.
Proof.
  intros p players acts b es P Pl H LG. destruct (game_reason_list es p players) as [rows|x] eqn:E; [eauto|right].
  assert (HP : forall l r, es = l ++ r -> exists s', pass_states (fresh_states p players) l = Ok s').
  { intros l r ->. destruct LG as [La Lw]. apply Forall2_app_inv_r in Lw. destruct Lw as (a1 & a2 & W1 & W2 & ->). apply Forall_app in La. destruct La as [La1 La2].
    assert (L1 : log a1 l) by now split. unfold pass_states, fresh_states. cbn [st_hand st_invisible st_meld].
    assert (Pa : plays p a1). { intros d I0. apply (playing_plays _ _ _ H). apply in_or_app. now left. }
    destruct (C32_player_hand p [] a1 l P L1 Pa) as (hand & -> & _). destruct (C27_player_melds p a1 l P L1) as (ms & -> & _).
    destruct (C34_partial players a1 l Pl L1) as (s & -> & _). cbn [bindr]. eauto. }
  unfold game_reason_list in E.
  destruct (reasoning_err p (fresh_states p players) (discards_tile p) (fun e => is_discard_total p e P) (fresh_constructed p players) es x
     (turns_alternate p acts es P LG (playing_turns _ _ _ H)) HP E) as (pt & Ip & s & y & Ep & Ey & Ex).
  rewrite (points_eq p acts es P LG) in Ip. destruct (point_of p acts es [] (pairs_length _ _ _ (proj2 LG)) pt Ip) as (before & t & after & rest & Ea & Ee & Le).
  cbn [app length] in Ee, Le. rewrite Nat.add_0_l in Le.
  pose proof LG as LG2. rewrite Ea in LG2. destruct (log_parts _ _ _ _ _ LG2) as (es1 & e & es2 & Q & Lq & L1 & W). rewrite Ee in Q.
  destruct (same_place _ _ _ _ _ _ Q ltac:(congruence)) as [Q1 Q2]. rewrite Q1, Q2 in *.
  destruct (legal_discard p players acts b es before t after es1 e P Pl H Ea LG L1 W) as (hand & i & ms & A1 & A2 & A3 & A4 & A5 & A6 & A7 & A8).
  unfold pass_states, fresh_states in Ep. cbn [st_hand st_invisible st_meld] in Ep. rewrite A1, A2, A3 in Ep. cbn [bindr] in Ep. apply Ok_inj in Ep. subst s. cbn [st_hand st_invisible st_meld] in Ey.
  change (reported e p hand players i ms = Err y) in Ey. destruct (C54_outcomes e p hand players i ms t A4) as [O1 O2].
  assert (D : complete hand (Spec_Checker.table_melds ms) \/ ~ complete hand (Spec_Checker.table_melds ms)).
  { rewrite O1, Ey. destruct y; (now left) || (right; discriminate). }
  destruct D as [D|D].
  - left. rewrite (proj1 O1 D) in Ey. injection Ey as <-. subst x. split; [reflexivity|]. exists before, t, after. split; [exact Ea|]. exists hand. rewrite <- A7. auto.
  - right. destruct (O2 D) as [(r & Er)|Er]; [congruence|]. rewrite Er in Ey. injection Ey as <-. now subst x.
Qed.

(** A player who discards from a complete hand, once in the deal, gets no report on it. *)
Theorem C115_no_report : forall p players acts b es before t after rows, seat p -> players = 3 \/ players = 4 -> playing p acts b -> log acts es ->
  acts = before ++ Discard p t :: after -> complete_at p before -> game_reason_list es p players <> Ok rows.
Proof.
  intros p players acts b es before t after rows P Pl H LG Ea (h & Hh & C) E.
  apply (C53_one_row_per_discard p players acts es rows P LG (playing_turns _ _ _ H)) in E. destruct E as [_ F].
  pose proof LG as LG2. rewrite Ea in LG2. destruct (log_parts _ _ _ _ _ LG2) as (es1 & e & es2 & Q & Lq & L1 & W).
  destruct (legal_discard p players acts b es before t after es1 e P Pl H Ea LG L1 W) as (hand & i & ms & A1 & A2 & A3 & A4 & A5 & A6 & A7 & A8).
  pose proof (in_points p before es1 e es2 t after [] Lq) as Ip. cbn [app] in Ip. rewrite <- Ea, <- Q in Ip.
  apply in_split in Ip. destruct Ip as (l1 & l2 & El). rewrite El in F. apply Forall2_app_inv_l in F. destruct F as (r1 & r2 & _ & F & _).
  inversion F as [|? row ? ? (hs & is & ms' & r & Y1 & Y2 & Y3 & Y4 & _) _]; subst. cbn [fst snd] in *. rewrite A1 in Y1. rewrite A2 in Y2. rewrite A3 in Y3.
  injection Y1 as <-. injection Y2 as <-. injection Y3 as <-. change (reported e p hand players i ms = Ok r) in Y4.
  destruct (C54_outcomes e p hand players i ms t A4) as [O1 _]. rewrite (proj1 O1) in Y4; [discriminate|]. rewrite A7.
  destruct C as (s & Is & Ws). exists s. split; [exact Is|]. pose proof (hand_at_same _ _ _ _ Hh A6) as PM.
  eapply wins_ext; [|exact Ws]. intro k. unfold hand_counts. rewrite !count_kind_occ. f_equal. apply Permutation_count_occ. now apply Permutation_map.
Qed.
