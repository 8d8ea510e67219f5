(** C118: the advice of the report on a deal that a player plays by the rules, and when there is a
    report at all. *)
From Coq Require Import String.
From Verif Require Import Base Tile Spec_Tile Spec_Win Spec_Waiting Parse Text Tenhou TenhouProofs Spec_Meld MeldProofs Prop_Meld Event State Spec_Log StateProofs Prop_State Checker Spec_Checker.
From Verif Require Import WinFacts WaitingBrute CheckerHand CheckerRows CheckerReport CheckerGame Prop_Checker CheckerTexts Spec_Mixed Prop_Red Prop_Count Prop_Mixed Spec_Turns TurnsFacts CheckerErrors Prop_Turns Spec_Advice WaitingTop.
From Coq Require Import List ZArith QArith Lia Bool Permutation.
Import ListNotations.
Open Scope list_scope.
Open Scope Z_scope.

(** ** How many tiles are taken for unseen. *)
Definition no_tile (x : inv) : bool := match x with ITile _ => false | ITuple _ _ _ => true end.
Lemma minus_no_tile s l : filter no_tile (inv_minus s l) = filter no_tile s.
Proof.
  unfold inv_minus. induction s as [|x s IH]; [reflexivity|]. cbn [filter]. destruct x as [t|a b c]; cbn [no_tile].
  - destruct (negb (existsb (fun t0 => inv_eqb (ITile t) (ITile t0)) l)); cbn [filter no_tile]; exact IH.
  - assert (Q : existsb (fun t0 => inv_eqb (ITuple a b c) (ITile t0)) l = false).
    { destruct (existsb _ l) eqn:E; [|reflexivity]. apply existsb_exists in E. destruct E as (y & _ & E). discriminate. }
    rewrite Q. cbn [negb filter no_tile]. now f_equal.
Qed.
Definition extra (o : option (list inv)) (l : list inv) : Prop := forall s, o = Some s -> filter no_tile s = l.
Lemma opt_minus_extra o k r l : extra o l -> opt_minus o k = Ok r -> filter no_tile r = l.
Proof. destruct o as [s|]; [|discriminate]. cbn [opt_minus]. intros N E. injection E as <-. rewrite minus_no_tile. now apply N. Qed.
Lemma invisible_scan_extra n o e r x : extra (initial_invisible n) x -> extra o x -> invisible_scan n o e = Ok (Some r) -> filter no_tile r = x.
Proof.
  intros N0 N E. unfold invisible_scan in E.
  assert (M : forall l, (do r <- opt_minus o l; Ok (Some r)) = Ok (Some r) -> filter no_tile r = x).
  { intros l Q. destruct (opt_minus o l) eqn:Eo; [|discriminate]. cbn [bindr] in Q. injection Q as <-. eapply opt_minus_extra; [|exact Eo]; assumption. }
  assert (K : (if is_open_hand e then do m <- meld_from e; do r <- opt_minus o (m_self m); Ok (Some r)
    else if is_dora_indicator_event e then do d <- dora_scan [] e; do r <- opt_minus o (match d with Some l => l | None => [] end); Ok (Some r)
    else Ok None) = Ok (Some r) -> filter no_tile r = x).
  { destruct (is_open_hand e).
    - destruct (meld_from e); [|discriminate]. cbn [bindr]. apply M.
    - destruct (is_dora_indicator_event e); [|discriminate]. destruct (dora_scan [] e); [|discriminate]. cbn [bindr]. apply M. }
  destruct (is_game_init e).
  - destruct (dora_scan [] e); [|discriminate]. cbn [bindr] in E. destruct (opt_minus (initial_invisible n) _) eqn:Eo; [|discriminate].
    cbn [bindr] in E. injection E as <-. eapply opt_minus_extra; [|exact Eo]; assumption.
  - destruct (discard_value e) as [t|]; [destruct (negb (t =? 0)); [eapply M; exact E|]|]; now apply K.
Qed.
Lemma invisible_all_extra n x es : extra (initial_invisible n) x -> forall o s, extra o x -> scan_all (SInvisible n o) es = Ok (SInvisible n (Some s)) -> filter no_tile s = x.
Proof.
  intro N0. induction es as [|e es IH]; intros o s N E; cbn [scan_all] in E.
  - injection E as ->. now apply N.
  - cbn [scan] in E. unfold wrap in E. destruct (invisible_scan n o e) as [[r|]|] eqn:Es; [| |discriminate]; cbn [bindr fst] in E; (eapply IH; [|exact E]); [|exact N].
    intros s' Q. injection Q as <-. eapply invisible_scan_extra; eassumption.
Qed.
Lemma invisible_extra n es s : n = 3 \/ n = 4 -> passed_events (SInvisible n (initial_invisible n)) es = Ok (SInvisible n (Some s)) ->
  length (filter no_tile s) = (if n =? 3 then 8%nat else 0%nat).
Proof.
  intros P. rewrite passed_is_scan; [|destruct P; subst; exact I]. intro E.
  assert (X : exists x, extra (initial_invisible n) x /\ length x = (if n =? 3 then 8%nat else 0%nat)).
  { destruct P as [-> | ->].
    - destruct (initial_invisible 3) as [s0|] eqn:Ei; [|discriminate]. exists (filter no_tile s0). split; [intros ? Q; now injection Q as <-|]. vm_compute in Ei. injection Ei as <-. reflexivity.
    - destruct (initial_invisible 4) as [s0|] eqn:Ei; [|discriminate]. exists (filter no_tile s0). split; [intros ? Q; now injection Q as <-|]. vm_compute in Ei. injection Ei as <-. reflexivity. }
  destruct X as (x & N & L). now rewrite (invisible_all_extra n x es N _ s N E).
Qed.

Definition tile_in (x : inv) : list Z := match x with ITile t => [t] | ITuple _ _ _ => [] end.
Lemma split_length l : length l = (length (flat_map tile_in l) + length (filter no_tile l))%nat.
Proof. induction l as [|[t|a b c] l IH]; cbn [length flat_map tile_in filter no_tile app]; lia. Qed.
Lemma flat_in l t : In t (flat_map tile_in l) <-> In (ITile t) l.
Proof.
  rewrite in_flat_map. split.
  - intros ([u|a b c] & A & B); cbn [tile_in] in B; [|destruct B]. destruct B as [->|[]]. exact A.
  - intro A. exists (ITile t). split; [exact A|now left].
Qed.
Lemma flat_nodup l : NoDup l -> NoDup (flat_map tile_in l).
Proof.
  induction 1 as [|x l N D IH]; [constructor|]. destruct x as [t|a b c]; cbn [flat_map tile_in app]; [|exact IH]. constructor; [|exact IH]. now rewrite flat_in.
Qed.
Lemma hidden_total hand s k (P : Z -> Prop) : NoDup s -> tiles_only s -> length (filter no_tile s) = k ->
  (forall u, valid_tile u -> (hidden hand s u <-> P u)) -> exists n, number_of P n /\ hidden_count hand s = n + Z.of_nat k.
Proof.
  intros N T K H. exists (Z.of_nat (length (flat_map tile_in (inv_minus s hand)))). split.
  - exists (flat_map tile_in (inv_minus s hand)). split; [apply flat_nodup; now apply NoDup_filter|]. split; [|reflexivity].
    intro t. rewrite flat_in, hidden_iff. split.
    + intro X. assert (V : valid_tile t) by (apply T; apply X). split; [exact V|]. now apply H.
    + intros [V X]. now apply H.
  - change (hidden_count hand s) with (Z.of_nat (length (inv_minus s hand))). rewrite split_length, minus_no_tile, K. lia.
Qed.

(** ** Each row, with the trackers at its discard. *)
Lemma rows_at p players acts b es rows : seat p -> players = 3 \/ players = 4 -> playing p acts b -> log acts es ->
  game_reason_list es p players = Ok rows ->
  Forall2 (fun pt row => exists e hand s ms r, let before := fst pt in
    discards e p hand ms (snd pt) /\ NoDup s /\ hand_at p before hand /\ Spec_Checker.table_melds ms = melds_made p before /\
    tiles_only s /\ (forall u, valid_tile u -> (hidden hand s u <-> taken_for_unseen p players before u)) /\
    length (filter no_tile s) = (if players =? 3 then 8%nat else 0%nat) /\
    reported e p hand players s ms = Ok r /\ row = flagged r (rr_somebody_richii row)) (own_discards p [] acts) rows.
Proof.
  intros P Pl H LG E. pose proof (playing_turns _ _ _ H) as TT.
  apply (C53_one_row_per_discard p players acts es rows P LG TT) in E. destruct E as [_ F].
  pose proof (own_points p acts es [] [] (pairs_length _ _ _ (proj2 LG)) eq_refl) as G. cbn [app] in G.
  assert (C : forall A B D (R : A -> B -> Prop) (Q : A -> D -> Prop) l m n, Forall2 R l m -> Forall2 Q l n -> Forall2 (fun y z => exists x, R x y /\ Q x z) m n).
  { clear. intros A B D R Q l m n X. revert n. induction X as [|x y l m Rxy X IH]; intros n Y; inversion Y; subst; constructor; eauto. }
  pose proof (C _ _ _ _ _ _ _ _ G F) as K. clear C F G. revert K. apply pairs_mono.
  intros [before t] row (x & ((after & Ea) & (rest & Ee) & Le) & hs & is & ms & r & Eh & Ei & Em & Er & Erow & Rch). cbn [fst snd] in *.
  assert (L1 : log before (fst x) /\ writes (Discard p t) (snd x)).
  { subst acts es. destruct (log_parts _ _ _ _ _ LG) as (es1 & e & es2 & Q & Lq & L1 & W).
    assert (length es1 = length (fst x)) by congruence. assert (fst x = es1 /\ snd x = e) as [-> ->]; [|auto].
    now apply (same_place _ _ _ _ _ _ Q). }
  destruct L1 as [L1 W].
  destruct (legal_discard p players acts b es before t after (fst x) (snd x) P Pl H Ea LG L1 W) as (hand & s & ms' & A1 & A2 & A3 & A4 & A5 & A6 & A7 & A8 & A9 & A10 & A11).
  rewrite A1 in Eh. rewrite A2 in Ei. rewrite A3 in Em. injection Eh as <-. injection Ei as <-. injection Em as <-.
  exists (snd x), hand, s, ms', r. do 6 (split; [assumption|]). split; [now apply (invisible_extra players (fst x))|]. auto.
Qed.

Lemma right_count_same (P Q : Z -> Prop) ss hand k n : (forall t, valid_tile t -> (P t <-> Q t)) -> right_count ss hand P k n -> right_count ss hand Q k n.
Proof.
  intros E (ks & A & l & B & C & D). exists ks. split; [exact A|]. exists l. split; [exact B|]. split; [|exact D]. intro t. rewrite C.
  split; intros (X & V & F); (split; [now apply (E t V)|auto]).
Qed.
Lemma mixed_count_same (P Q : Z -> Prop) hand n1 n2 ks n : (forall t, valid_tile t -> (P t <-> Q t)) -> mixed_count hand P n1 n2 ks n -> mixed_count hand Q n1 n2 ks n.
Proof.
  intros E (js & A & l & B & C & D). exists js. split; [exact A|]. exists l. split; [exact B|]. split; [|exact D]. intro t. rewrite C.
  split; intros (X & V & F); (split; [now apply (E t V)|auto]).
Qed.

(** One row for each discard, and the advice of each is about the hand, the melds and the unseen
    tiles of that moment. *)
Theorem C118_rows : forall p players acts b es rows, seat p -> players = 3 \/ players = 4 -> playing p acts b -> log acts es ->
  game_reason_list es p players = Ok rows -> Forall2 (advice_about p players) (own_discards p [] acts) rows.
Proof.
  intros p players acts b es rows P Pl H LG E. pose proof (rows_at _ _ _ _ _ _ P Pl H LG E) as F. revert F. apply pairs_mono.
  intros [before t] row (e & hand & s & ms & r & T & Ns & HA & Tm & To & Hu & Ex & Er & Erow). cbn [fst snd] in *. rewrite Erow.
  exists hand. split; [exact HA|]. cbn [flagged rr_choice rr_expected rr_merged rr_wrong_rate]. rewrite <- Tm. unfold flagged. cbn [rr_choice rr_expected rr_merged rr_wrong_rate].
  destruct (C64_range _ _ _ _ _ _ _ _ T Er) as [R1 _].
  split; [|split; [|split; [|split; [|split; [|split]]]]].
  - destruct (C52_expected _ _ _ _ _ _ Er) as (x & rest & A & B & C & D). exists x, rest. split; [exact A|]. split; [exact B|]. split; [|exact D].
    eapply Forall_impl; [|exact C]. intros y [Y1 Y2]. now split.
  - intro N0. destruct (C52_open_partial _ _ _ _ _ _ _ _ T Ns N0 Er) as (ks & A & B & C). exists ks. split; [exact A|]. split; [exact B|]. revert C. apply pairs_mono.
    intros k y [X Y]. split; [exact X|]. intro nr. eapply right_count_same; [exact Hu|]. now apply Y.
  - intros N0 n1 n2 D1 D2. destruct (C52_closed_exactly _ _ _ _ _ _ _ _ _ _ T Ns N0 Er D1 D2) as (k1 & k2 & pr & A1 & A2 & A3 & A4 & A5 & A6).
    exists k1, k2, pr. do 5 (split; [assumption|]). revert A6. apply pairs_mono.
    intros k y [X Y]. split; [exact X|]. intro nr. eapply mixed_count_same; [exact Hu|]. now apply Y.
  - destruct (C64_formula _ _ _ _ _ _ _ _ T Er) as (best & A & B & C & D). destruct (hidden_total hand s _ _ Ns To Ex Hu) as (n & Nn & En).
    exists best, n. do 4 (split; [assumption|]). rewrite D, En. destruct (players =? 3); reflexivity.
  - exact R1.
  - intros N0 nr nc. now apply (C64_open_partial _ _ _ _ _ _ _ _ T Ns N0 nr nc Er).
  - intros x Ix [S1 C1]. now apply (C64_zero _ _ _ _ _ _ _ _ x T Er Ix).
Qed.

Lemma same_counts p before h h' : hand_at p before h -> hand_at p before h' -> forall k, hand_counts h k = hand_counts h' k.
Proof.
  intros A B k. pose proof (hand_at_same _ _ _ _ A B) as PM. unfold hand_counts. rewrite !count_kind_occ. f_equal. apply Permutation_count_occ. now apply Permutation_map.
Qed.
Lemma red_same p before h h' ss : hand_at p before h -> hand_at p before h' -> reds_idle ss h -> reds_idle ss h'.
Proof.
  intros HA HB N s k Is K t It R X. pose proof (same_counts _ _ _ _ HB HA) as SC. destruct HA as [_ A], HB as [_ B].
  apply (N s k Is (keeps_ext _ _ _ _ SC K) t); [apply A; now apply B|exact R|]. exact (WaitingTop.advances_ext _ _ _ _ _ (without_ext _ _ k SC) X).
Qed.

(** If there is no report, one of the discards is to blame. *)
Lemma failing_point p players acts b es x : seat p -> players = 3 \/ players = 4 -> playing p acts b -> log acts es ->
  game_reason_list es p players = Err x -> exists before t after e hand i ms y, acts = before ++ Discard p t :: after /\
    discards e p hand ms t /\ NoDup i /\ hand_at p before hand /\ Spec_Checker.table_melds ms = melds_made p before /\
    (forall u, valid_tile u -> (hidden hand i u <-> taken_for_unseen p players before u)) /\ reported e p hand players i ms = Err y.
Proof.
  intros P Pl H LG E.
  assert (HP : forall l r, es = l ++ r -> exists s', pass_states (fresh_states p players) l = Ok s').
  { intros l r ->. destruct LG as [La Lw]. apply Forall2_app_inv_r in Lw. destruct Lw as (a1 & a2 & W1 & W2 & ->). apply Forall_app in La. destruct La as [La1 La2].
    assert (L1 : log a1 l) by now split. unfold pass_states, fresh_states. cbn [st_hand st_invisible st_meld].
    assert (Pa : plays p a1). { intros d I0. apply (playing_plays _ _ _ H). apply in_or_app. now left. }
    destruct (C32_player_hand p [] a1 l P L1 Pa) as (hand & -> & _). destruct (C27_player_melds p a1 l P L1) as (ms & -> & _).
    destruct (C34_partial players a1 l Pl L1) as (s & -> & _). cbn [bindr]. eauto. }
  unfold game_reason_list in E.
  destruct (reasoning_err p (fresh_states p players) (discards_tile p) (fun e => is_discard_total p e P) (fresh_constructed p players) es x
     (turns_alternate p acts es P LG (playing_turns _ _ _ H)) HP E) as (pt & Ip & s & y & Ep & Ey & Ex).
  rewrite (points_eq p acts es P LG) in Ip. destruct (point_of p acts es [] (pairs_length _ _ _ (proj2 LG)) pt Ip) as (before & t & after & rest & Ea & Ee & Le).
  cbn [app length] in Ee, Le. rewrite Nat.add_0_l in Le.
  pose proof LG as LG2. rewrite Ea in LG2. destruct (log_parts _ _ _ _ _ LG2) as (es1 & e & es2 & Q & Lq & L1 & W). rewrite Ee in Q.
  destruct (same_place _ _ _ _ _ _ Q ltac:(congruence)) as [Q1 Q2]. rewrite Q1, Q2 in *.
  destruct (legal_discard p players acts b es before t after es1 e P Pl H Ea LG L1 W) as (hand & i & ms & A1 & A2 & A3 & A4 & A5 & A6 & A7 & A8 & A9 & A10 & A11).
  unfold pass_states, fresh_states in Ep. cbn [st_hand st_invisible st_meld] in Ep. rewrite A1, A2, A3 in Ep. cbn [bindr] in Ep. apply Ok_inj in Ep. subst s. cbn [st_hand st_invisible st_meld] in Ey.
  change (reported e p hand players i ms = Err y) in Ey. exists before, t, after, e, hand, i, ms, y. auto 10.
Qed.

(** There is a report if there is something to advise at every discard. *)
Theorem C118_made : forall p players acts b es, seat p -> players = 3 \/ players = 4 -> playing p acts b -> log acts es ->
  (forall before t after, acts = before ++ Discard p t :: after -> advisable p players before) ->
  exists rows, game_reason_list es p players = Ok rows.
Proof.
  intros p players acts b es P Pl H LG Adv. destruct (game_reason_list es p players) as [rows|x] eqn:E; [eauto|exfalso].
  destruct (failing_point _ _ _ _ _ _ P Pl H LG E) as (before & t & after & e & hand & i & ms & y & Ea & T & Ni & HA & Tm & Hu & Er).
  destruct (Adv _ _ _ Ea) as (h & Hh & nr & Op & Cl). pose proof (same_counts _ _ _ _ Hh HA) as SC. rewrite <- Tm in nr, Op, Cl. pose proof (red_same _ _ _ _ _ Hh HA nr) as nr'.
  destruct (Z.eq_dec (Spec_Checker.table_melds ms) 0) as [N0|N0].
  - destruct (Cl N0) as [NC Live]. rewrite N0 in nr'. destruct (proj2 (C54_closed_partial e p hand players i ms t T Ni N0 nr' ltac:(
      intros s k Is K; destruct (Live s k Is (keeps_ext _ _ _ _ (fun j => eq_sym (SC j)) K)) as (u & A & B & V);
      exists u; split; [exact (WaitingTop.advances_ext _ _ _ _ _ (without_ext _ _ k SC) A)|split; [now apply Hu|exact V]]))) as (r & Q); [|congruence].
    intros (s & Is & W). apply NC. exists s. split; [exact Is|]. exact (WaitingBrute.wins_ext _ _ _ (fun j => eq_sym (SC j)) W).
  - destruct (Op N0) as (k & u & K & A & U & V). destruct (proj2 (C54_open_partial e p hand players i ms t T Ni N0 nr')) as (r & Q); [|congruence].
    exists k, (face u), u. split; [exact (keeps_ext _ _ _ _ SC K)|]. split; [exact (WaitingTop.advances_ext _ _ _ _ _ (without_ext _ _ k SC) A)|]. split; [now apply Hu|auto].
Qed.

(** There is none if at some discard there is nothing to advise. *)
Theorem C118_none : forall p players acts b es before t after rows, seat p -> players = 3 \/ players = 4 -> playing p acts b -> log acts es ->
  acts = before ++ Discard p t :: after -> nothing_to_advise p players before -> game_reason_list es p players <> Ok rows.
Proof.
  intros p players acts b es before t after rows P Pl H LG Ea (h & Hh & C) E.
  apply (C53_one_row_per_discard p players acts es rows P LG (playing_turns _ _ _ H)) in E. destruct E as [_ F].
  pose proof LG as LG2. rewrite Ea in LG2. destruct (log_parts _ _ _ _ _ LG2) as (es1 & e & es2 & Q & Lq & L1 & W).
  destruct (legal_discard p players acts b es before t after es1 e P Pl H Ea LG L1 W) as (hand & i & ms & A1 & A2 & A3 & A4 & A5 & A6 & A7 & A8 & A9 & A10 & A11).
  pose proof (in_points p before es1 e es2 t after [] Lq) as Ip. cbn [app] in Ip. rewrite <- Ea, <- Q in Ip.
  apply in_split in Ip. destruct Ip as (l1 & l2 & El). rewrite El in F. apply Forall2_app_inv_l in F. destruct F as (r1 & r2 & _ & F & _).
  inversion F as [|? row ? ? (hs & is & ms' & r & Y1 & Y2 & Y3 & Y4 & _) _]; subst. cbn [fst snd] in *. rewrite A1 in Y1. rewrite A2 in Y2. rewrite A3 in Y3.
  injection Y1 as <-. injection Y2 as <-. injection Y3 as <-. change (reported e p hand players i ms = Ok r) in Y4.
  pose proof (same_counts _ _ _ _ Hh A6) as SC. destruct C as [(s & Is & Ws)|(N0 & nr & None)].
  - destruct (C54_outcomes e p hand players i ms t A4) as [O1 _]. rewrite (proj1 O1) in Y4; [discriminate|]. rewrite A7.
    exists s. split; [exact Is|]. exact (WaitingBrute.wins_ext _ _ _ SC Ws).
  - rewrite <- A7 in *. destruct (proj1 (C54_open_partial e p hand players i ms t A4 A5 N0 (red_same _ _ _ _ _ Hh A6 nr)) (ex_intro _ r Y4)) as (k & j & u & K & A & U & V & <-).
    apply (None k u); [exact (keeps_ext _ _ _ _ (fun j => eq_sym (SC j)) K)|exact (WaitingTop.advances_ext _ _ _ _ _ (without_ext _ _ k (fun j => eq_sym (SC j))) A)|exact V|now apply A10].
Qed.
