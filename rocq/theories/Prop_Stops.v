(** C115, C118: where the report on a deal stops. *)
From Coq Require Import String.
From Verif Require Import Base Tile Spec_Tile Spec_Win Spec_Waiting Parse Text Tenhou TenhouProofs Spec_Meld MeldProofs Prop_Meld Event State Spec_Log StateProofs Prop_State Checker Spec_Checker.
From Verif Require Import WinFacts WaitingBrute CheckerHand CheckerRows CheckerReport CheckerGame Prop_Checker CheckerTexts Spec_Mixed Prop_Red Prop_Count Prop_Mixed Spec_Turns TurnsFacts CheckerErrors CheckerFirst Prop_Turns Spec_Advice WaitingTop Prop_Advice.
From Verif Require LogCheck TurnsCheck Prop_TurnsExample.
From Coq Require Import List ZArith QArith Lia Bool Permutation.
Import ListNotations.
Open Scope list_scope.
Open Scope Z_scope.

Lemma point_split disc : forall es pre l1 pt l2, points disc pre es = l1 ++ pt :: l2 ->
  exists a b, es = a ++ snd pt :: b /\ fst pt = pre ++ a /\ disc (snd pt) = true /\ l1 = points disc pre a.
Proof.
  induction es as [|e es IH]; intros pre l1 pt l2 E; cbn [points] in E; [now destruct l1|].
  destruct (disc e) eqn:De; cbn [app] in E.
  - destruct l1 as [|q l1]; cbn [app] in E; injection E as E1 E2.
    + subst pt. exists [], es. cbn [fst snd app]. rewrite app_nil_r. auto.
    + destruct (IH _ _ _ _ E2) as (a & b & -> & F & D & ->). exists (e :: a), b. split; [reflexivity|]. split; [now rewrite F, <- app_assoc|]. split; [exact D|].
      cbn [points]. rewrite De, E1. reflexivity.
  - destruct (IH _ _ _ _ E) as (a & b & -> & F & D & ->). exists (e :: a), b. split; [reflexivity|]. split; [now rewrite F, <- app_assoc|]. split; [exact D|].
    cbn [points]. now rewrite De.
Qed.
Lemma made_or_fails p s0 pt x row : fails_with p s0 pt x -> row_ok p s0 pt row -> False.
Proof. intros (s & y & A & B & _) (s' & r & C & D & _). rewrite A in C. injection C as <-. congruence. Qed.
Lemma fails_same p s0 pt x x' : fails_with p s0 pt x -> fails_with p s0 pt x' -> x = x'.
Proof. intros (s & y & A & B & ->) (s' & y' & C & D & ->). rewrite A in C. injection C as <-. rewrite B in D. injection D as <-. reflexivity. Qed.
Lemma log_start (acts : list action) es l r : log acts es -> es = l ++ r -> exists a1 a2, acts = a1 ++ a2 /\ log a1 l.
Proof.
  intros [La Lw] ->. apply Forall2_app_inv_r in Lw. destruct Lw as (a1 & a2 & W1 & W2 & ->). apply Forall_app in La. destruct La as [La1 La2]. exists a1, a2. split; [reflexivity|]. now split.
Qed.
Lemma trackers_go p players acts b es l r : seat p -> players = 3 \/ players = 4 -> playing p acts b -> log acts es -> es = l ++ r ->
  (exists s', pass_states (fresh_states p players) l = Ok s') /\ alternates (discards_tile p) l.
Proof.
  intros P Pl H LG E. destruct (log_start _ _ _ _ LG E) as (a1 & a2 & -> & L1). split.
  - unfold pass_states, fresh_states. cbn [st_hand st_invisible st_meld].
    assert (Pa : plays p a1). { intros d I0. apply (playing_plays _ _ _ H). apply in_or_app. now left. }
    destruct (C32_player_hand p [] a1 l P L1 Pa) as (hand & -> & _). destruct (C27_player_melds p a1 l P L1) as (ms & -> & _).
    destruct (C34_partial players a1 l Pl L1) as (s & -> & _). cbn [bindr]. eauto.
  - apply (turns_alternate p a1 l P L1). intros bf af t t' ->. apply (playing_turns _ _ _ H bf (af ++ a2) t t'). now rewrite <- app_assoc.
Qed.
Lemma report_made p players acts b es l r : seat p -> players = 3 \/ players = 4 -> playing p acts b -> log acts es -> es = l ++ r ->
  ((exists rows, game_reason_list l p players = Ok rows) <->
   forall pt, In pt (points (discards_tile p) [] l) -> exists row, row_ok p (fresh_states p players) pt row).
Proof.
  intros P Pl H LG E. destruct (trackers_go _ _ _ _ _ _ _ P Pl H LG E) as [T Al].
  exact (reasoning_made p (fresh_states p players) (discards_tile p) (fun e => is_discard_total p e P) (fun e => discard_not_richii p e P) (fresh_constructed p players) l Al T).
Qed.
Lemma report_fails p players acts b es l r x : seat p -> players = 3 \/ players = 4 -> playing p acts b -> log acts es -> es = l ++ r ->
  game_reason_list l p players = Err x -> first_fails p (fresh_states p players) (points (discards_tile p) [] l) x.
Proof.
  intros P Pl H LG E F. destruct (trackers_go _ _ _ _ _ _ _ P Pl H LG E) as [T Al].
  apply (reasoning_first p (fresh_states p players) (discards_tile p) (fun e => is_discard_total p e P) (fun e => discard_not_richii p e P) (fresh_constructed p players) l x Al); [|exact F].
  intros l' r' ->. apply (trackers_go p players acts b es l' (r' ++ r) P Pl H LG). now rewrite E, <- app_assoc.
Qed.
Lemma firstn_before {A} (l r : list A) n : length l = n -> firstn n (l ++ r) = l.
Proof. intros <-. rewrite firstn_app, Nat.sub_diag, firstn_all. cbn [firstn]. apply app_nil_r. Qed.
Lemma firstn_with {A} (l r : list A) x n : length l = n -> firstn (S n) (l ++ x :: r) = l ++ [x].
Proof. intro L. change (l ++ x :: r) with (l ++ [x] ++ r). rewrite app_assoc. apply firstn_before. rewrite app_length. cbn [length]. lia. Qed.

(** One more discard: the report goes on exactly if the row of this discard can be made. *)
Lemma one_more p players acts b es before t after : seat p -> players = 3 \/ players = 4 -> playing p acts b -> log acts es ->
  acts = before ++ Discard p t :: after -> (exists rows, game_reason_list (firstn (length before) es) p players = Ok rows) ->
  exists e hand i ms, discards e p hand ms t /\ NoDup i /\ hand_at p before hand /\ Spec_Checker.table_melds ms = melds_made p before /\
    (forall u, valid_tile u -> (hidden hand i u <-> taken_for_unseen p players before u)) /\
    ((exists rows, game_reason_list (firstn (S (length before)) es) p players = Ok rows) <-> exists r, reported e p hand players i ms = Ok r) /\
    (forall x, game_reason_list (firstn (S (length before)) es) p players = Err x <->
       exists y, reported e p hand players i ms = Err y /\ x = match y with StopIteration => RuntimeError | _ => y end).
Proof.
  intros P Pl H LG Ea Before. pose proof LG as LG2. rewrite Ea in LG2. destruct (log_parts _ _ _ _ _ LG2) as (es1 & e & es2 & Q & Lq & L1 & W).
  destruct (legal_discard p players acts b es before t after es1 e P Pl H Ea LG L1 W) as (hand & i & ms & A1 & A2 & A3 & A4 & A5 & A6 & A7 & A8 & A9 & A10 & A11).
  exists e, hand, i, ms. do 4 (split; [assumption|]). split; [exact A10|].
  rewrite Q in Before |- *. rewrite (firstn_before _ _ _ Lq) in Before. rewrite (firstn_with _ _ _ _ Lq).
  assert (Ps : pass_states (fresh_states p players) es1 = Ok (mkStates (SHand p hand) (SInvisible players (Some i)) (SMeld p ms))).
  { unfold pass_states, fresh_states. cbn [st_hand st_invisible st_meld]. rewrite A1, A2, A3. reflexivity. }
  assert (La : legal_action (Discard p t)).
  { destruct LG2 as [La _]. apply Forall_app in La. destruct La as [_ La]. now inversion La. }
  assert (Dt : discards_tile p e = true) by (rewrite (discards_tile_action p (Discard p t) e P La W); apply Z.eqb_refl).
  assert (Pts : points (discards_tile p) [] (es1 ++ [e]) = points (discards_tile p) [] es1 ++ [(es1, e)]).
  { rewrite points_app. cbn [points app]. rewrite Dt. reflexivity. }
  rewrite (report_made p players acts b es es1 (e :: es2) P Pl H LG Q) in Before.
  assert (Q' : es = (es1 ++ [e]) ++ es2) by (rewrite <- app_assoc; exact Q).
  assert (M : (exists rows, game_reason_list (es1 ++ [e]) p players = Ok rows) <-> exists r, reported e p hand players i ms = Ok r).
  { rewrite (report_made p players acts b es (es1 ++ [e]) es2 P Pl H LG Q'), Pts. split.
    - intro F. destruct (F (es1, e)) as (row & s & r & X & Y & _); [apply in_or_app; right; now left|]. cbn [fst snd] in *. rewrite Ps in X. injection X as <-. exists r. exact Y.
    - intros (r & Er) pt Ip. apply in_app_or in Ip. destruct Ip as [Ip|[<-|[]]]; [now apply Before|].
      exists (flagged r (existsb is_richii es1)), (mkStates (SHand p hand) (SInvisible players (Some i)) (SMeld p ms)), r. cbn [fst snd]. split; [exact Ps|]. split; [exact Er|reflexivity]. }
  split; [exact M|]. intro x.
  assert (X : forall x', game_reason_list (es1 ++ [e]) p players = Err x' -> exists y, reported e p hand players i ms = Err y /\ x' = match y with StopIteration => RuntimeError | _ => y end).
  { intros x' E. destruct (report_fails p players acts b es (es1 ++ [e]) es2 x' P Pl H LG Q' E) as (l1 & pt & l2 & E1 & E2 & s & y & F1 & F2 & F3).
    assert (Ip : In pt (points (discards_tile p) [] es1 ++ [(es1, e)])) by (rewrite <- Pts, E1; apply in_elt).
    apply in_app_or in Ip. destruct Ip as [Ip|[<-|[]]].
    - exfalso. destruct (Before pt Ip) as (row & R). eapply made_or_fails; [|exact R]. exists s, y. split; [exact F1|]. split; [exact F2|exact F3].
    - cbn [fst snd] in *. rewrite Ps in F1. injection F1 as <-. exists y. split; [exact F2|exact F3]. }
  split; [apply X|]. intros (y & Ey & Ex). destruct (game_reason_list (es1 ++ [e]) p players) as [rows|x'] eqn:E.
  - destruct (proj1 M) as (r & Er); [eauto|]. congruence.
  - destruct (X x' eq_refl) as (y' & Ey' & Ex'). rewrite Ey in Ey'. injection Ey' as <-. congruence.
Qed.

(** Where a report stops: at the first discard whose row cannot be made. The report on what
    happened before it is made; together with it, it is not, with the same error. The error tells
    whether the hand was complete. *)
Theorem C115_stops : forall p players acts b es x, seat p -> players = 3 \/ players = 4 -> playing p acts b -> log acts es ->
  game_reason_list es p players = Err x ->
  exists before t after, acts = before ++ Discard p t :: after /\
    (exists rows, game_reason_list (firstn (length before) es) p players = Ok rows) /\
    game_reason_list (firstn (S (length before)) es) p players = Err x /\
    ((complete_at p before /\ x = RuntimeError) \/ (~ complete_at p before /\ x = ZeroDivisionError)).
Proof.
  intros p players acts b es x P Pl H LG E.
  destruct (report_fails p players acts b es es [] x P Pl H LG (eq_sym (app_nil_r es)) E) as (l1 & pt & l2 & E1 & E2 & F).
  assert (Ip : In pt (discard_points p [] acts es)) by (rewrite <- (points_eq p acts es P LG), E1; apply in_elt).
  destruct (point_of p acts es [] (pairs_length _ _ _ (proj2 LG)) pt Ip) as (before & t & after & rest & Ea & Ee & Le). cbn [app length] in Ee, Le. rewrite Nat.add_0_l in Le.
  destruct (point_split _ _ _ _ _ _ E1) as (a & c & Q & Fa & D & El). cbn [app] in Fa. subst a.
  assert (Before : exists rows, game_reason_list (firstn (length before) es) p players = Ok rows).
  { rewrite Ee, (firstn_before _ _ _ Le). apply (report_made p players acts b es (fst pt) (snd pt :: rest) P Pl H LG Ee). rewrite <- El. exact E2. }
  destruct (one_more p players acts b es before t after P Pl H LG Ea Before) as (e & hand & i & ms & A1 & A2 & A3 & A4 & A5 & A6 & A7).
  exists before, t, after. split; [exact Ea|]. split; [exact Before|].
  assert (X : game_reason_list (firstn (S (length before)) es) p players = Err x).
  { destruct (game_reason_list (firstn (S (length before)) es) p players) as [rows|x'] eqn:Er.
    - exfalso. rewrite Ee, (firstn_with _ _ _ _ Le) in Er.
      destruct (proj1 (report_made p players acts b es (fst pt ++ [snd pt]) rest P Pl H LG ltac:(rewrite <- app_assoc; exact Ee)) (ex_intro _ rows Er) pt) as (row & R).
      + rewrite points_app. apply in_or_app. right. cbn [points app]. rewrite D. left. now destruct pt.
      + eapply made_or_fails; eassumption.
    - f_equal. rewrite Ee, (firstn_with _ _ _ _ Le) in Er.
      destruct (report_fails p players acts b es (fst pt ++ [snd pt]) rest x' P Pl H LG ltac:(rewrite <- app_assoc; exact Ee) Er) as (m1 & pt' & m2 & G1 & G2 & G).
      assert (Ip' : In pt' (points (discards_tile p) [] (fst pt) ++ [pt])).
      { assert (Y : points (discards_tile p) [] (fst pt ++ [snd pt]) = points (discards_tile p) [] (fst pt) ++ [pt]).
        { rewrite points_app. cbn [points app]. rewrite D. now destruct pt. }
        rewrite <- Y, G1. apply in_elt. }
      apply in_app_or in Ip'. destruct Ip' as [Ip'|[<-|[]]].
      + exfalso. rewrite <- El in Ip'. destruct (E2 _ Ip') as (row & R). eapply made_or_fails; eassumption.
      + eapply fails_same; eassumption. }
  split; [exact X|]. apply A7 in X. destruct X as (y & Ey & Ex). destruct (C54_outcomes e p hand players i ms t A1) as [O1 O2].
  assert (CC : complete_at p before <-> complete hand (Spec_Checker.table_melds ms)).
  { rewrite A4. split; [|intro C; exists hand; auto]. intros (h & Hh & s & Is & Ws). exists s. split; [exact Is|]. exact (WaitingBrute.wins_ext _ _ _ (same_counts _ _ _ _ Hh A3) Ws). }
  rewrite CC. assert (Dc : complete hand (Spec_Checker.table_melds ms) \/ ~ complete hand (Spec_Checker.table_melds ms)).
  { rewrite O1, Ey. destruct y; (now left) || (right; discriminate). }
  destruct Dc as [C|C]; [left|right]; (split; [exact C|]).
  - rewrite (proj1 O1 C) in Ey. injection Ey as <-. exact Ex.
  - destruct (O2 C) as [(r & Er)|Er]; [congruence|]. rewrite Er in Ey. injection Ey as <-. exact Ex.
Qed.

(** The report goes on past a discard from a hand with melds, without useful red fives, exactly if after
    some discard that keeps the distance a tile the program takes for unseen brings the hand
    closer. *)
Theorem C118_goes_on_open : forall p players acts b es before t after hand, seat p -> players = 3 \/ players = 4 -> playing p acts b -> log acts es ->
  acts = before ++ Discard p t :: after -> hand_at p before hand -> reds_idle (shapes_for (melds_made p before)) hand -> melds_made p before <> 0 ->
  (exists rows, game_reason_list (firstn (length before) es) p players = Ok rows) ->
  let s := Standard 1 (4 - melds_made p before) in
  ((exists rows, game_reason_list (firstn (S (length before)) es) p players = Ok rows) <->
   exists k u, keeps_distance true s (hand_counts hand) k /\ advances true s (without (hand_counts hand) k) (face u) /\
     valid_tile u /\ taken_for_unseen p players before u).
Proof.
  intros p players acts b es before t after hand P Pl H LG Ea Hh nr N0 Before.
  destruct (one_more p players acts b es before t after P Pl H LG Ea Before) as (e & h & i & ms & A1 & A2 & A3 & A4 & A5 & A6 & A7).
  pose proof (same_counts _ _ _ _ Hh A3) as SC. rewrite <- A4 in N0, nr.
  pose proof (C54_open_partial e p h players i ms t A1 A2 N0 (red_same _ _ _ _ _ Hh A3 nr)) as C. cbv zeta in C |- *. rewrite A6, C, A4. clear C. split.
  - intros (k & j & u & K & A & U & V & <-). exists k, u. split; [exact (keeps_ext _ _ _ _ (fun j => eq_sym (SC j)) K)|].
    split; [exact (WaitingTop.advances_ext _ _ _ _ _ (without_ext _ _ k (fun j => eq_sym (SC j))) A)|]. split; [exact V|now apply A5].
  - intros (k & u & K & A & V & U). exists k, (face u), u. split; [exact (keeps_ext _ _ _ _ SC K)|].
    split; [exact (WaitingTop.advances_ext _ _ _ _ _ (without_ext _ _ k SC) A)|]. split; [now apply A5|]. auto.
Qed.
(** For a hand with nothing on the table the discards that keep the distance to the standard shape
    and those that keep that to seven pairs are put side by side, and one of these rows must have
    a tile left. *)
Theorem C118_goes_on_closed : forall p players acts b es before t after hand n1 n2, seat p -> players = 3 \/ players = 4 -> playing p acts b -> log acts es ->
  acts = before ++ Discard p t :: after -> hand_at p before hand -> reds_idle (shapes_for 0) hand -> melds_made p before = 0 ->
  (exists rows, game_reason_list (firstn (length before) es) p players = Ok rows) ->
  distance true standard (hand_counts hand) n1 -> distance true seven_pairs (hand_counts hand) n2 ->
  exists ks1 ks2,
    NoDup ks1 /\ (forall k, In k ks1 <-> keeps_distance true standard (hand_counts hand) k) /\
    NoDup ks2 /\ (forall k, In k ks2 <-> keeps_distance true seven_pairs (hand_counts hand) k) /\
    ((exists rows, game_reason_list (firstn (S (length before)) es) p players = Ok rows) <->
     exists ks u, In ks (combine ks1 ks2) /\ mixed_advances hand n1 n2 ks (face u) /\ valid_tile u /\ taken_for_unseen p players before u).
Proof.
  intros p players acts b es before t after hand n1 n2 P Pl H LG Ea Hh nr N0 Before D1 D2.
  destruct (one_more p players acts b es before t after P Pl H LG Ea Before) as (e & h & i & ms & A1 & A2 & A3 & A4 & A5 & A6 & A7).
  pose proof (same_counts _ _ _ _ Hh A3) as SC. pose proof (fun j => eq_sym (SC j)) as SC'. rewrite <- A4 in N0.
  destruct (C54_closed_exactly e p h players i ms t n1 n2 A1 A2 N0 (red_same _ _ _ _ _ Hh A3 nr)
    (WaitingTop.distance_ext _ _ _ _ _ SC D1) (WaitingTop.distance_ext _ _ _ _ _ SC D2)) as (ks1 & ks2 & B1 & B2 & B3 & B4 & B5).
  assert (K : forall s k, keeps_distance true s (hand_counts h) k <-> keeps_distance true s (hand_counts hand) k).
  { intros s k. split; intro K; [exact (keeps_ext _ _ _ _ SC' K)|exact (keeps_ext _ _ _ _ SC K)]. }
  assert (M : forall ks j, mixed_advances h n1 n2 ks j <-> mixed_advances hand n1 n2 ks j).
  { assert (Ad : forall s k j, advances true s (without (hand_counts h) k) j <-> advances true s (without (hand_counts hand) k) j).
    { intros s k j. split; intro A; [exact (WaitingTop.advances_ext _ _ _ _ _ (without_ext _ _ k SC') A)|exact (WaitingTop.advances_ext _ _ _ _ _ (without_ext _ _ k SC) A)]. }
    intros ks j. unfold mixed_advances. now rewrite !Ad. }
  exists ks1, ks2. split; [exact B1|]. split; [intro k; rewrite B2; apply K|]. split; [exact B3|]. split; [intro k; rewrite B4; apply K|].
  rewrite A6, B5. split; intros (ks & u & I0 & X & Y & Z); exists ks, u; (split; [exact I0|split; [now apply M|]]).
  - split; [exact Z|now apply A5].
  - split; [now apply A5|exact Y].
Qed.

Import LogCheck TurnsCheck Prop_TurnsExample.
(** The winning hand of [win_deal]: nothing is wrong before its discard. *)
Example C115_stops_case : seat 0 /\ playing 0 (acts_in win_deal) false /\ log (acts_in win_deal) win_deal /\
  game_reason_list win_deal 0 4 = Err RuntimeError /\ game_reason_list (firstn 2 win_deal) 0 4 = Ok [] /\ game_reason_list (firstn 3 win_deal) 0 4 = Err RuntimeError.
Proof.
  split; [split; lia|]. split; [apply playing_is; vm_compute; reflexivity|]. split; [apply log_is; vm_compute; reflexivity|].
  repeat split; vm_compute; reflexivity.
Qed.
Print Assumptions C115_stops.
Print Assumptions C118_goes_on_open.
Print Assumptions C118_goes_on_closed.
