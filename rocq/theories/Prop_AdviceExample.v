(** The deal with a pon of C115 meets the hypotheses of C118: at each of the three discards, two of
    them with nothing on the table, there is something to advise. *)
From Coq Require Import String.
From Verif Require Import TileSetFacts LogCheck TurnsCheck.
From Verif Require Import Base Tile Spec_Tile Spec_Win Spec_Waiting Parse Text Tenhou TenhouProofs Spec_Meld MeldProofs Prop_Meld Event State Spec_Log StateProofs Prop_State Checker Spec_Checker.
From Verif Require Import WinFacts WaitingBrute CheckerHand CheckerRows CheckerReport CheckerGame Prop_Checker CheckerTexts Prop_CheckerWitness Spec_Mixed Prop_Red Prop_Count Prop_Mixed Spec_Turns TurnsFacts CheckerErrors Prop_Turns Prop_TurnsExample Spec_Advice WaitingTop Prop_Advice.
From Coq Require Import List ZArith QArith Lia Bool Permutation.
Import ListNotations.
Open Scope list_scope.
Open Scope Z_scope.

(** Every row of the analysis for the shape has an advancing tile among [us]. *)
Definition live_b (hand us : list Z) (s : shape) : bool :=
  match hand_tiles hand with
  | Ok H => match one_win_reasoning H [] (pattern_of s) with
            | Ok rows => forallb (fun x => existsb (fun u => existsb (kind_eqb (face u)) (map view (ri_useful x))) us) rows
            | Err _ => false
            end
  | Err _ => false
  end.
Lemma live_is hand us s k : NoDup hand -> Forall valid_tile hand -> length hand = 14%nat -> In s (shapes_for 0) -> live_b hand us s = true ->
  keeps_distance true s (hand_counts hand) k -> exists u, In u us /\ advances true s (without (hand_counts hand) k) (face u).
Proof.
  intros N V L Is E K. destruct (hand_tiles_facts hand N V) as (H & EH & HF). unfold live_b in E. rewrite EH in E.
  destruct (one_win_rows s hand H [] HF) as (n & rows & _ & Er & _ & Kr & Sy & _).
  { apply (shapes_size hand 0 _ _ HF); [lia|rewrite L; reflexivity|exact Is]. }
  rewrite Er in E. apply Kr, in_map_iff in K. destruct K as (x & <- & Ix). rewrite forallb_forall in E. specialize (E x Ix).
  apply existsb_exists in E. destruct E as (u & Iu & Q). exists u. split; [exact Iu|]. rewrite Forall_forall in Sy. apply (sy_useful _ _ _ _ _ (Sy x Ix)).
  apply existsb_exists in Q. destruct Q as (j & Ij & Q). apply TileSetFacts.kind_eqb_eq in Q. now rewrite Q.
Qed.
Definition hidden_tiles (hand : list Z) (s : list inv) : list Z := flat_map tile_in (inv_minus s hand).
Lemma advisable_is p players before e hand s ms t r : discards e p hand ms t -> NoDup s -> hand_at p before hand ->
  Spec_Checker.table_melds ms = melds_made p before -> tiles_only s -> (forall u, valid_tile u -> (hidden hand s u <-> taken_for_unseen p players before u)) ->
  reds_idle (shapes_for (melds_made p before)) hand -> reported e p hand players s ms = Ok r ->
  (Spec_Checker.table_melds ms = 0 -> forallb (live_b hand (hidden_tiles hand s)) (shapes_for 0) = true) -> advisable p players before.
Proof.
  intros T Ns HA Tm To Hu nr Er Lv. exists hand. split; [exact HA|]. cbv zeta. split; [exact nr|]. rewrite <- Tm in *. split.
  - intro N0. destruct (proj1 (C54_open_partial e p hand players s ms t T Ns N0 nr) (ex_intro _ r Er)) as (k & j & u & K & A & U & V & <-).
    exists k, u. split; [exact K|]. split; [exact A|]. split; [now apply Hu|exact V].
  - intro N0. specialize (Lv N0). split.
    + intro C. rewrite <- N0 in C. destruct (C54_outcomes e p hand players s ms t T) as [O1 _]. rewrite (proj1 O1 C) in Er. discriminate.
    + intros sh k Is K. rewrite forallb_forall in Lv. destruct T as (_ & (N & V & _ & L & _) & _). rewrite N0 in L.
      destruct (live_is hand (hidden_tiles hand s) sh k N V ltac:(lia) Is (Lv sh Is) K) as (u & Iu & A).
      apply flat_in, hidden_iff in Iu. assert (Vu : valid_tile u) by (apply To; apply Iu). exists u. split; [exact A|]. split; [now apply Hu|exact Vu].
Qed.
(** The same from the events. *)
Definition advisable_b (p players : Z) (es1 : list event) (e : event) : bool :=
  match passed_events (SHand p []) es1, passed_events (SInvisible players (initial_invisible players)) es1, passed_events (SMeld p []) es1 with
  | Ok (SHand _ hand), Ok (SInvisible _ (Some s)), Ok (SMeld _ ms) =>
    no_redb hand && (match reported e p hand players s ms with Ok _ => true | Err _ => false end) &&
    (negb (Spec_Checker.table_melds ms =? 0) || forallb (live_b hand (hidden_tiles hand s)) (shapes_for 0))
  | _, _, _ => false
  end.
Lemma advisable_from p players acts b es before t after e : seat p -> players = 3 \/ players = 4 -> playing p acts b -> log acts es ->
  acts = before ++ Discard p t :: after -> nth_error es (length before) = Some e ->
  advisable_b p players (firstn (length before) es) e = true -> advisable p players before.
Proof.
  intros P Pl H LG Ea Ne E. pose proof LG as LG2. rewrite Ea in LG2. destruct (log_parts _ _ _ _ _ LG2) as (es1 & e' & es2 & -> & Le & L1 & W).
  rewrite <- Le in Ne, E. rewrite nth_error_app2, Nat.sub_diag in Ne by lia. injection Ne as ->.
  rewrite firstn_app, Nat.sub_diag, firstn_all in E. cbn [firstn] in E. rewrite app_nil_r in E.
  destruct (legal_discard p players acts b _ before t after es1 e P Pl H Ea LG L1 W) as (hand & s & ms & A1 & A2 & A3 & A4 & A5 & A6 & A7 & A8 & A9 & A10 & A11).
  unfold advisable_b in E. rewrite A1, A2, A3 in E. apply andb_true_iff in E. destruct E as [E E3]. apply andb_true_iff in E. destruct E as [E1 E2].
  destruct (reported e p hand players s ms) as [r|] eqn:Er; [|discriminate].
  eapply (advisable_is p players before e hand s ms t r); try eassumption; [now apply no_red_idle, no_redb_ok|].
  intro N0. apply orb_true_iff in E3. destruct E3 as [E3|E3]; [|exact E3]. rewrite N0 in E3. discriminate.
Qed.


Example C118_case : seat 0 /\ log (acts_in pon_deal) pon_deal /\ playing 0 (acts_in pon_deal) false /\
  length (own_discards 0 [] (acts_in pon_deal)) = 3%nat /\
  forall before t after, acts_in pon_deal = before ++ Discard 0 t :: after -> advisable 0 4 before.
Proof.
  assert (S0 : seat 0) by (split; lia).
  assert (L : log (acts_in pon_deal) pon_deal) by (apply log_is; vm_compute; reflexivity).
  assert (P : playing 0 (acts_in pon_deal) false) by (apply playing_is; vm_compute; reflexivity).
  split; [exact S0|]. split; [exact L|]. split; [exact P|]. split; [vm_compute; reflexivity|].
  intros before t after E.
  assert (Q : forallb (fun n => match nth_error (acts_in pon_deal) n, nth_error pon_deal n with
                       | Some (Discard 0 _), Some e => advisable_b 0 4 (firstn n pon_deal) e | Some (Discard 0 _), None => false | _, _ => true end)
               (seq 0 (length (acts_in pon_deal))) = true) by (vm_compute; reflexivity).
  rewrite forallb_forall in Q. specialize (Q (length before)).
  assert (Il : In (length before) (seq 0 (length (acts_in pon_deal)))).
  { apply in_seq. rewrite E, app_length. cbn [length]. lia. }
  specialize (Q Il). rewrite E in Q at 1. rewrite nth_error_app2, Nat.sub_diag in Q by lia. cbn [nth_error] in Q.
  destruct (nth_error pon_deal (length before)) as [e|] eqn:En; [|discriminate].
  exact (advisable_from 0 4 _ _ _ before t after e S0 (or_intror eq_refl) P L E En Q).
Qed.

(** In the deal in which the dealer discards the winning tile there is nothing to advise. *)
Example C118_none_case : exists before t after, acts_in win_deal = before ++ Discard 0 t :: after /\ nothing_to_advise 0 4 before.
Proof.
  destruct C115_complete_case as (_ & _ & _ & _ & before & t & after & E & h & Hh & C). exists before, t, after. split; [exact E|]. exists h. split; [exact Hh|]. now left.
Qed.

(** The beginning of the same deal read as one of three players: a report is made, too. *)
Example C118_three_case : exists rows, game_reason_list (firstn 3 pon_deal) 0 3 = Ok rows /\ length rows = 1%nat.
Proof. eexists. split; [vm_compute; reflexivity|]. reflexivity. Qed.

Print Assumptions C118_rows.
Print Assumptions C118_made.
Print Assumptions C118_none.
