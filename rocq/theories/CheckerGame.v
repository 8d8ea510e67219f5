(** The report of a whole deal: one row for each discard. *)
From Coq Require Import String.
From Verif Require Import Base Parse Text Tenhou Event State Spec_Log StateProofs Prop_State Checker Spec_Checker Prop_Meld.
From Coq Require Import List ZArith QArith Lia Bool.
Import ListNotations.
Open Scope list_scope.
Open Scope Z_scope.

Definition constructed_states (s : states) : Prop := constructed (st_hand s) /\ constructed (st_invisible s) /\ constructed (st_meld s).
Lemma passed_constructed s es s' : constructed s -> passed_events s es = Ok s' -> constructed s'.
Proof. intros C E. rewrite passed_is_scan in E by exact C. eapply scan_all_constructed; eauto. Qed.
Lemma pass_states_split s a b s2 : constructed_states s ->
  (pass_states s (a ++ b) = Ok s2 <-> exists s1, pass_states s a = Ok s1 /\ pass_states s1 b = Ok s2).
Proof.
  intros (C1 & C2 & C3). unfold pass_states. rewrite !C35_passed_app by assumption. split.
  - intro E. destruct (passed_events (st_hand s) a) as [h|]; [|discriminate]. cbn [bindr] in E.
    destruct (passed_events h b) as [h'|] eqn:Eh; [|discriminate]. cbn [bindr] in E.
    destruct (passed_events (st_invisible s) a) as [i|]; [|discriminate]. cbn [bindr] in E.
    destruct (passed_events i b) as [i'|] eqn:Ei; [|discriminate]. cbn [bindr] in E.
    destruct (passed_events (st_meld s) a) as [m|]; [|discriminate]. cbn [bindr] in E.
    destruct (passed_events m b) as [m'|] eqn:Em; [|discriminate]. cbn [bindr] in E.
    eexists. split; [cbn [bindr]; reflexivity|]. cbn [st_hand st_invisible st_meld]. rewrite Eh, Ei, Em. exact E.
  - intros (s1 & E1 & E2). destruct (passed_events (st_hand s) a) as [h|]; [|discriminate]. cbn [bindr] in *.
    destruct (passed_events (st_invisible s) a) as [i|]; [|discriminate]. cbn [bindr] in *.
    destruct (passed_events (st_meld s) a) as [m|]; [|discriminate]. cbn [bindr] in *. apply Ok_inj in E1. subst s1. cbn [st_hand st_invisible st_meld] in E2.
    destruct (passed_events h b); [|discriminate]. cbn [bindr] in *. destruct (passed_events i b); [|discriminate]. cbn [bindr] in *.
    destruct (passed_events m b); [|discriminate]. exact E2.
Qed.
Lemma pass_states_constructed s es s' : constructed_states s -> pass_states s es = Ok s' -> constructed_states s'.
Proof.
  intros (C1 & C2 & C3) E. unfold pass_states in E. destruct (passed_events (st_hand s) es) as [h|] eqn:E1; [|discriminate]. cbn [bindr] in E.
  destruct (passed_events (st_invisible s) es) as [i|] eqn:E2; [|discriminate]. cbn [bindr] in E.
  destruct (passed_events (st_meld s) es) as [m|] eqn:E3; [|discriminate]. cbn [bindr] in E. apply Ok_inj in E. subst s'.
  split; [|split]; cbn [st_hand st_invisible st_meld].
  - eapply passed_constructed; [exact C1|exact E1].
  - eapply passed_constructed; [exact C2|exact E2].
  - eapply passed_constructed; [exact C3|exact E3].
Qed.
Lemma fresh_constructed p n : constructed_states (fresh_states p n).
Proof. destruct (C35_fresh n p) as (A & B & C & _). split; [exact B|split; [exact A|exact C]]. Qed.
Lemma pass_states_nil s : constructed_states s -> pass_states s [] = Ok s.
Proof. intros (C1 & C2 & C3). unfold pass_states. rewrite !passed_is_scan by assumption. destruct s. reflexivity. Qed.

Lemma in_generator_ok {A} (x : res A) v : in_generator x = Ok v <-> x = Ok v.
Proof. destruct x as [y|er]; cbn [in_generator]; [tauto|]. destruct er; split; discriminate. Qed.

Definition flagged (r : round) (b : bool) : round :=
  mkRound (rr_hand r) (rr_melds r) (rr_choice r) (rr_expected r) (rr_merged r) (rr_wrong_rate r) b (rr_extra r).

Section Loop.
  Variables (p : Z) (s0 : states) (disc : event -> bool).
  Hypothesis HD : forall e, is_discard p e = Ok (disc e).
  Hypothesis HR : forall e, disc e = true -> is_richii e = false.
  Hypothesis HC : constructed_states s0.

  (** the discards in [es], each with the events before it; [pre] comes first *)
  Fixpoint points (pre es : list event) : list (list event * event) :=
    match es with
    | [] => []
    | e :: r => (if disc e then [(pre, e)] else []) ++ points (pre ++ [e]) r
    end.
  Definition row_ok (pt : list event * event) (row : round) : Prop :=
    exists st r, pass_states s0 (fst pt) = Ok st /\
      discard_reasoning (snd pt) (st_hand st) (st_invisible st) p (st_meld st) = Ok r /\
      row = flagged r (existsb is_richii (fst pt)).
  Inductive alternates : list event -> Prop :=
  | alt_nil : alternates []
  | alt_one e : alternates [e]
  | alt_cons e e' r : (disc e = true -> disc e' = false) -> alternates (e' :: r) -> alternates (e :: e' :: r).

  Lemma points_app pre a b : points pre (a ++ b) = points pre a ++ points (pre ++ a) b.
  Proof.
    revert pre. induction a as [|e a IH]; intro pre; cbn [points app]; [now rewrite app_nil_r|]. rewrite IH, <- app_assoc. cbn [app].
    rewrite <- app_assoc. reflexivity.
  Qed.
  Lemma points_none pre es : Forall (fun e => disc e = false) es -> points pre es = [].
  Proof. intro F. revert pre. induction F as [|e es E F IH]; intro pre; [reflexivity|]. cbn [points]. rewrite E, IH. reflexivity. Qed.

  Lemma group_iff pre s (d : bool) group out : pass_states s0 pre = Ok s ->
    group <> [] -> (if d then exists e, group = [e] /\ disc e = true else Forall (fun e => disc e = false) group) ->
    (game_group p s (existsb is_richii pre) d group = Ok out <->
     exists s', pass_states s0 (pre ++ group) = Ok s' /\ snd (fst out) = s' /\ snd out = existsb is_richii (pre ++ group) /\
       Forall2 row_ok (points pre group) (fst (fst out))).
  Proof.
    intros Es Ng G. unfold game_group. rewrite <- existsb_app. destruct d.
    - destruct G as (e & -> & De). cbn [points]. rewrite De, app_nil_r. assert (Ee : existsb is_richii (pre ++ [e]) = existsb is_richii pre).
      { rewrite existsb_app. cbn [existsb]. now rewrite (HR e De), !orb_false_r. }
      rewrite Ee. split.
      + intro E. destruct (discard_reasoning e (st_hand s) (st_invisible s) p (st_meld s)) as [r|] eqn:Er; [|discriminate]. cbn [bindr] in E.
        destruct (pass_states s [e]) as [s'|] eqn:Es'; [|discriminate]. cbn [bindr] in E. apply Ok_inj in E. subst out. cbn [fst snd].
        exists s'. split; [apply pass_states_split; [exact HC|]; exists s; auto|]. split; [reflexivity|]. split; [reflexivity|].
        constructor; [|constructor]. exists s, r. cbn [fst snd]. auto.
      + intros (s' & E' & Q1 & Q2 & F). inversion F as [|? row ? ? (st & r & X1 & X2 & X3) F' Qa Qb]; subst. inversion F'; subst.
        cbn [fst snd] in *. rewrite Es in X1. apply Ok_inj in X1. subst st. rewrite X2. cbn [bindr].
        apply pass_states_split in E'; [|exact HC]. destruct E' as (s1 & Y1 & Y2). rewrite Es in Y1. apply Ok_inj in Y1. subst s1. rewrite Y2. cbn [bindr].
        destruct out as [[rows s''] b]. cbn [fst snd] in *. subst. reflexivity.
    - rewrite points_none by exact G. cbn [bindr]. split.
      + intro E. destruct (pass_states s group) as [s'|] eqn:Es'; [|discriminate]. cbn [bindr] in E. apply Ok_inj in E. subst out. cbn [fst snd].
        exists s'. split; [apply pass_states_split; [exact HC|]; exists s; auto|]. split; [reflexivity|]. split; [reflexivity|constructor].
      + intros (s' & E' & Q1 & Q2 & F). inversion F. apply pass_states_split in E'; [|exact HC]. destruct E' as (s1 & Y1 & Y2). rewrite Es in Y1. apply Ok_inj in Y1. subst s1. rewrite Y2. cbn [bindr].
        destruct out as [[rows s''] b]. cbn [fst snd] in *. subst. reflexivity.
  Qed.

  Lemma loop_iff es : forall pre s (d : bool) group rows, pass_states s0 pre = Ok s ->
    group <> [] -> (if d then exists e, group = [e] /\ disc e = true else Forall (fun e => disc e = false) group) ->
    alternates (group ++ es) ->
    (game_loop p s (existsb is_richii pre) d group es = Ok rows <->
     (exists s', pass_states s0 (pre ++ group ++ es) = Ok s') /\ Forall2 row_ok (points pre (group ++ es)) rows).
  Proof.
    induction es as [|e es IH]; intros pre s d group rows Es Ng G Al; cbn [game_loop].
    - rewrite app_nil_r. split.
      + intro E. destruct (in_generator (game_group p s (existsb is_richii pre) d group)) as [out|] eqn:Eo; [|discriminate]. cbn [bindr] in E.
        apply Ok_inj in E. subst rows. rewrite in_generator_ok in Eo. apply (group_iff pre s d group out Es Ng G) in Eo. destruct Eo as (s' & A & _ & _ & B). split; [eauto|exact B].
      + intros ((s' & A) & B). assert (X : game_group p s (existsb is_richii pre) d group = Ok (rows, s', existsb is_richii (pre ++ group))).
        { apply (group_iff pre s d group _ Es Ng G). exists s'. cbn [fst snd]. auto. }
        rewrite X. reflexivity.
    - rewrite HD. cbn [bindr]. destruct (eqb (disc e) d) eqn:Ed.
      + apply eqb_prop in Ed. destruct d.
        * destruct G as (x & -> & Dx). cbn [app] in Al. inversion Al as [| |? ? ? Q]; subst. specialize (Q Dx). congruence.
        * change (group ++ e :: es) with (group ++ [e] ++ es) in *. rewrite app_assoc in Al. rewrite (app_assoc group [e] es).
          apply IH; [exact Es|now destruct group|apply Forall_app; auto|exact Al].
      + apply eqb_false_iff in Ed.
        assert (Al' : alternates (e :: es)).
        { clear - Al Ng. induction group as [|x g IHg]; [congruence|]. cbn [app] in Al. destruct g as [|y g]; inversion Al; subst; [assumption|]. apply IHg; [discriminate|assumption]. }
        assert (Ge : if disc e then exists x, [e] = [x] /\ disc x = true else Forall (fun x => disc x = false) [e]).
        { destruct (disc e) eqn:De; [eauto|]. constructor; [exact De|constructor]. }
        split.
        * intro E. destruct (in_generator (game_group p s (existsb is_richii pre) d group)) as [out|] eqn:Eo; [|discriminate]. cbn [bindr] in E.
          rewrite in_generator_ok in Eo. apply (group_iff pre s d group out Es Ng G) in Eo. destruct Eo as (s' & A & Q1 & Q2 & B).
          rewrite Q1, Q2 in E. destruct (game_loop p s' (existsb is_richii (pre ++ group)) (disc e) [e] es) as [more|] eqn:Em; [|discriminate]. cbn [bindr] in E.
          apply Ok_inj in E. subst rows. apply (IH (pre ++ group) s' (disc e) [e]) in Em; [|exact A|discriminate|exact Ge|exact Al'].
          cbn [app] in Em. rewrite <- app_assoc in Em. destruct Em as (A' & B'). split; [exact A'|]. rewrite points_app. apply Forall2_app; assumption.
        * intros ((s2 & A) & B). rewrite points_app in B. apply Forall2_app_inv_l in B. destruct B as (r1 & r2 & B1 & B2 & ->).
          pose proof A as A2. rewrite app_assoc in A. apply pass_states_split in A; [|exact HC]. destruct A as (s' & A1 & _).
          assert (X : game_group p s (existsb is_richii pre) d group = Ok (r1, s', existsb is_richii (pre ++ group))).
          { apply (group_iff pre s d group _ Es Ng G). exists s'. cbn [fst snd]. auto. }
          rewrite X. cbn [in_generator bindr fst snd].
          assert (Y : game_loop p s' (existsb is_richii (pre ++ group)) (disc e) [e] es = Ok r2).
          { apply (IH (pre ++ group) s' (disc e) [e]); [exact A1|discriminate|exact Ge|exact Al'|]. cbn [app]. rewrite <- app_assoc. eauto. }
          rewrite Y. reflexivity.
  Qed.

  Lemma game_iff es rows : alternates es ->
    (game_reasoning p s0 es = Ok rows <-> (exists s', pass_states s0 es = Ok s') /\ Forall2 row_ok (points [] es) rows).
  Proof.
    intro Al. destruct es as [|e es]; cbn [game_reasoning].
    - cbn [points]. split.
      + intro E. apply Ok_inj in E. subst. split; [exists s0; now apply pass_states_nil|constructor].
      + intros (_ & F). inversion F. reflexivity.
    - rewrite HD. cbn [bindr]. change false with (existsb is_richii []). rewrite (loop_iff es [] s0 (disc e) [e]); [reflexivity|now apply pass_states_nil|discriminate| |exact Al].
      destruct (disc e) eqn:De; [eauto|]. constructor; [exact De|constructor].
  Qed.
End Loop.
