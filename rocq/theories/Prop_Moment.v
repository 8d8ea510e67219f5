(** C120: the universal format shows the table at every moment of a game, not only at its end. *)
From Verif Require Import Base Category Tile Parse Text Tenhou TenhouProofs Spec_Tile Spec_Meld MeldProofs Prop_Meld Event Const Reader State Spec_Log StateProofs Prop_State Value Universe Translator TenhouCommands
  Transfer Spec_Transfer Spec_Universe UniverseProofs Prop_Executor CommandProofs Prop_Commands Spec_Play CommandState CommandPlay PlaySteps PlayProofs Prop_Play Prop_Hand Spec_Score FinishProofs Prop_Score
  Prop_Meld Spec_Header Prop_Header Prop_Reader Spec_Read Prop_Read Spec_Convert ConvertProofs Prop_Convert Spec_Moment.
From Coq Require Import String List ZArith Lia Bool Permutation.
Import ListNotations.
Open Scope list_scope.
Open Scope Z_scope.

Lemma forall2_first {A B} (R : A -> B -> Prop) l l' k : Forall2 R l l' -> Forall2 R (firstn k l) (firstn k l').
Proof. intro F. revert k. induction F; intros [|k]; cbn [firstn]; constructor; auto. Qed.
Lemma first_split {A} k (l : list A) : exists r, l = firstn k l ++ r.
Proof. exists (skipn k l). symmetry. apply firstn_skipn. Qed.
Lemma forall_first {A} (P : A -> Prop) k l : Forall P l -> Forall P (firstn k l).
Proof. intro F. rewrite <- (firstn_skipn k l) in F. now apply Forall_app in F. Qed.
Lemma nth_first {A} k (l : list A) i e : nth_error (firstn k l) i = Some e -> nth_error l i = Some e.
Proof.
  intro H. destruct (first_split k l) as [r E]. rewrite E. rewrite nth_error_app1; [exact H|]. apply nth_error_Some. rewrite H. discriminate.
Qed.
(** Every beginning of a proper log is proper. *)
Lemma proper_first n w acts es k : proper n w acts es -> proper n w (firstn k acts) (firstn k es).
Proof.
  intros (N & [La Lw] & C & T & O & F). split; [exact N|]. split; [split; [now apply forall_first|now apply forall2_first]|].
  split; [now apply forall_first|]. split; [now apply forall_first|]. split.
  - intros before e after E. destruct (first_split k es) as [r Q]. rewrite E, <- app_assoc in Q. exact (O before e (after ++ r) Q).
  - intros p P before a after e E Ne. destruct (first_split k acts) as [r Q]. rewrite E, <- app_assoc in Q.
    apply (F p P before a (after ++ r) e Q). now apply nth_first in Ne.
Qed.

(** The commands of a beginning are the commands before that time. *)
Lemma cut_at unquote so strict rest : forall es cmds, to_commands (tenhou_command unquote so) strict (es ++ rest) = Ok cmds ->
  exists now later, to_commands (tenhou_command unquote so) strict es = Ok now /\ cmds = now ++ later /\
    (forall c, In c now -> happened_before (length es) c) /\ forall c, In c later -> ~ happened_before (length es) c.
Proof.
  induction rest as [|e rest IH] using rev_ind; intros es cmds H.
  - rewrite app_nil_r in H. exists cmds, []. split; [exact H|]. split; [now rewrite app_nil_r|]. split; [|intros c []].
    intros c I0. destruct (C48_times _ _ _ _ _ H) as [G _]. destruct (G c I0) as (t & E & B & _). exists t. split; [exact E|lia].
  - rewrite app_assoc in H. destruct (C48_order _ _ _ _ _ _ H) as (before & own & Hb & -> & F).
    destruct (IH es before Hb) as (now & later & A & -> & B & C). exists now, (later ++ own). split; [exact A|]. split; [now rewrite app_assoc|]. split; [exact B|].
    intros c I0. apply in_app_iff in I0. destruct I0 as [I0|I0]; [now apply C|]. destruct (F c I0) as [E _]. intros (t & E' & L).
    rewrite app_length in E. rewrite E in E'. injection E' as <-. lia.
Qed.

Theorem C120_cut : forall unquote so strict es cmds k, to_commands (tenhou_command unquote so) strict es = Ok cmds ->
  exists now later, cmds = now ++ later /\ (forall c, In c cmds -> In c now <-> happened_before k c) /\
    (forall c, In c later -> ~ happened_before k c) /\ to_commands (tenhou_command unquote so) strict (firstn k es) = Ok now.
Proof.
  intros unquote so strict es cmds k H. destruct (Nat.le_gt_cases k (length es)) as [L|L].
  - rewrite <- (firstn_skipn k es) in H. destruct (cut_at _ _ _ _ _ _ H) as (now & later & A & -> & B & C).
    rewrite firstn_length_le in B, C by exact L. exists now, later. split; [reflexivity|]. split; [|auto].
    intros c I0. split; [apply B|]. intro Q. apply in_app_iff in I0. destruct I0 as [I0|I0]; [exact I0|]. now apply C in I0.
  - exists cmds, []. rewrite firstn_all2 by lia. split; [now rewrite app_nil_r|]. split; [|split; [intros c []|exact H]].
    intros c I0. split; [|auto]. intros _. destruct (C48_times _ _ _ _ _ H) as [G _]. destruct (G c I0) as (t & E & B & _). exists t. split; [exact E|lia].
Qed.

Theorem C120_moment : forall unquote so strict n w acts es cmds now later k before d after p,
  (forall l, Permutation (so l) l) -> proper n w acts es -> to_commands (tenhou_command unquote so) strict es = Ok cmds ->
  cmds = now ++ later -> (forall c, In c now -> happened_before k c) -> (forall c, In c later -> ~ happened_before k c) ->
  firstn k acts = before ++ Deal d :: after -> no_deal after -> 0 <= p < n ->
  shows_seat now p (firstn k acts) d after (firstn k es).
Proof.
  intros unquote so strict n w acts es cmds now later k before d after p SO Pr H Ec Bn Bl Ea Nd P.
  destruct (C120_cut _ _ _ _ _ k H) as (now' & later' & Ec' & Mem & Later & Hk).
  assert (En : now' = now).
  { clear Hk. rewrite Ec in Ec', Mem. clear Ec H. assert (A : forall c, In c now' -> happened_before k c) by (intros c I0; apply Mem; [rewrite Ec'; apply in_or_app; now left|exact I0]).
    clear Mem. revert now' Ec' A. induction now as [|c now IH]; intros [|c' now'] Ec' A; [reflexivity| | |].
    - exfalso. apply (Bl c'); [cbn in Ec'; rewrite Ec'; now left|apply A; now left].
    - exfalso. apply (Later c); [cbn in Ec'; rewrite <- Ec'; now left|apply Bn; now left].
    - cbn in Ec'. injection Ec' as -> Q. f_equal. apply IH; auto; intros; [apply Bn|apply A]; now right. }
  subst now'. pose proof (proper_first _ _ _ _ k Pr) as (Nn & Lg & C & T & O & F).
  assert (Sp : seat p) by (unfold seat; lia). assert (HS := seats _ _ _ _ C P).
  assert (Pl : plays p (firstn k acts)).
  { intros d' I0. rewrite Forall_forall in T. destruct (T _ I0) as [_ G]. now apply G. }
  assert (Vd : valid_tile (d_dora d)).
  { rewrite Ea in T. apply Forall_app in T. destruct T as [_ T]. inversion T as [|? ? T1]. now destruct T1. }
  pose proof Lg as Lg2. rewrite Ea in Lg2.
  destruct (C58_play _ _ _ _ _ _ _ _ _ SO Sp Lg2 Nd HS Hk) as (D1 & D2 & D3 & _ & D5 & D6).
  destruct (C41_flags _ _ _ _ _ _ _ _ _ SO Sp Lg2 Nd HS Hk) as (fs & F1 & F2).
  destruct (C40_hand _ _ _ _ _ _ _ SO Sp Lg Pl HS (F p P) Hk) as (hand & E & Nh & G).
  destruct (C32_player_hand p [] _ _ Sp Lg Pl) as (hand' & E' & I0). rewrite E in E'. injection E' as <-.
  constructor.
  - destruct (G d) as (l & A & B); [rewrite Ea; apply in_or_app; right; now left|]. exists hand, l. split; [split; assumption|auto].
  - exact D1.
  - exact D3.
  - exact D5.
  - exact (D6 Vd).
  - intros z Sz. now apply (C42_score _ _ _ _ _ _ _ Sp HS Sz Hk).
  - intros before' e after' Ee Te Ne.
    assert (NS : names_seats (t_ "REACH") after').
    { rewrite Ee in C. apply Forall_app in C. destruct C as [_ C]. inversion C as [|? ? _ C2]. eapply Forall_impl; [|exact C2]. cbn beta.
      intros e' (_ & _ & _ & _ & _ & R & _) Tr. destruct (R Tr) as (q & _ & Hq & _). eauto. }
    rewrite Ee in HS, Hk. exact (C76_riichi _ _ _ _ _ _ _ _ Sp Te Ne HS NS Hk).
Qed.

(** The game of the examples, cut after every number of events from the deal on: its hypotheses are met, for all four seats. *)
Example C120_case : forall k, (2 <= k <= length ex_game)%nat -> exists cmds now later before d after,
  to_commands (tenhou_command (fun s => s) (fun l => l)) true ex_game = Ok cmds /\ cmds = now ++ later /\
  (forall c, In c now -> happened_before k c) /\ (forall c, In c later -> ~ happened_before k c) /\
  firstn k ex_play = before ++ Deal d :: after /\ no_deal after /\ now <> [] /\
  forall p, 0 <= p < 4 -> shows_seat now p (firstn k ex_play) d after (firstn k ex_game).
Proof.
  intros k [K1 K2]. destruct C96_example as [cmds H]. destruct (C120_cut _ _ _ _ _ k H) as (now & later & Ec & Mem & Later & Hk).
  assert (Bn : forall c, In c now -> happened_before k c) by (intros c I0; apply Mem; [rewrite Ec; apply in_or_app; now left|exact I0]).
  destruct k as [|[|k]]; [lia|lia|].
  assert (Ea : firstn (S (S k)) ex_play = [Other] ++ Deal ex_deal :: firstn k (tl (tl ex_play))) by reflexivity.
  assert (Nd : no_deal (firstn k (tl (tl ex_play)))).
  { apply forall_first. unfold ex_play, ex_acts. cbn [app tl]. repeat (apply Forall_cons; [intros []|]). constructor. }
  exists cmds, now, later, [Other], ex_deal, (firstn k (tl (tl ex_play))).
  assert (G : forall p, 0 <= p < 4 -> shows_seat now p (firstn (S (S k)) ex_play) ex_deal (firstn k (tl (tl ex_play))) (firstn (S (S k)) ex_game)).
  { intros p P. eapply C120_moment; try eassumption; [intro l; apply Permutation_refl|exact ex_proper]. }
  repeat (split; [assumption|]). split; [|exact G].
  intros ->. destruct (G 0 ltac:(lia)) as [_ D _ _ _ _ _]. inversion D as [| | ]; match goal with E : _ ++ [_] = [] |- _ => now destruct (app_cons_not_nil _ _ _ (eq_sym E)) end.
Qed.
Print Assumptions C120_cut.
Print Assumptions C120_moment.
