(** When the report on a deal stops with an error, it is the error of the first discard whose row
    cannot be made: the rows of all discards before it can. *)
From Coq Require Import String.
From Verif Require Import Base Tile Parse Text Tenhou TenhouProofs Event State StateProofs Prop_State Prop_Meld Checker CheckerGame CheckerErrors.
From Coq Require Import List ZArith Lia Bool.
Import ListNotations.
Open Scope list_scope.
Open Scope Z_scope.

Section First.
  Context (p : Z) (s0 : states) (disc : event -> bool) (HD : forall e, is_discard p e = Ok (disc e)).
  Context (HR : forall e, disc e = true -> is_richii e = false) (HC : constructed_states s0).
  (** The first point of the list whose row cannot be made, and its error. *)
  Definition first_fails (pts : list (list event * event)) (x : exn) : Prop :=
    exists l1 pt l2, pts = l1 ++ pt :: l2 /\ (forall q, In q l1 -> exists row, row_ok p s0 q row) /\ fails_with p s0 pt x.

  Lemma loop_first es : forall pre s (d : bool) group x, pass_states s0 pre = Ok s ->
    (forall l r, pre ++ group ++ es = l ++ r -> exists s', pass_states s0 l = Ok s') ->
    group <> [] -> (if d then exists e, group = [e] /\ disc e = true else Forall (fun e => disc e = false) group) ->
    alternates disc (group ++ es) ->
    game_loop p s (existsb is_richii pre) d group es = Err x -> first_fails (points disc pre (group ++ es)) x.
  Proof.
    assert (G : forall pre s (d : bool) group richii x rest, pass_states s0 pre = Ok s -> (exists s', pass_states s0 (pre ++ group) = Ok s') ->
      group <> [] -> (if d then exists e, group = [e] /\ disc e = true else Forall (fun e => disc e = false) group) ->
      in_generator (game_group p s richii d group) = Err x -> first_fails (points disc pre (group ++ rest)) x).
    { intros pre s d group richii x rest Es (s' & Es') Ng Gd E. unfold game_group in E.
      apply pass_states_split in Es'; [|exact HC]. destruct Es' as (s1 & Q & Es'). rewrite Es in Q. apply Ok_inj in Q. subst s1.
      rewrite Es' in E. destruct d.
      - destruct Gd as (e & -> & De). destruct (discard_reasoning e (st_hand s) (st_invisible s) p (st_meld s)) as [r|y] eqn:Er; cbn [bindr in_generator] in E; [discriminate|].
        exists [], (pre, e), (points disc (pre ++ [e]) rest). split; [cbn [points app]; now rewrite De|]. split; [intros q []|].
        exists s, y. cbn [fst snd]. split; [exact Es|]. split; [exact Er|]. destruct y; injection E as <-; reflexivity.
      - cbn [bindr in_generator] in E. discriminate. }
    induction es as [|e es IH]; intros pre s d group x Es HP Ng Gd Al E; cbn [game_loop] in E.
    - destruct (in_generator (game_group p s (existsb is_richii pre) d group)) as [out|y] eqn:Eo; [discriminate|]. cbn [bindr] in E. injection E as <-.
      eapply G; [exact Es| |exact Ng|exact Gd|exact Eo]. apply (HP _ []). now rewrite !app_nil_r.
    - rewrite HD in E. cbn [bindr] in E. destruct (eqb (disc e) d) eqn:Ed.
      + apply eqb_prop in Ed. destruct d.
        * exfalso. destruct Gd as (y & -> & Dy). cbn [app] in Al. inversion Al as [| |? ? ? Q]; subst. specialize (Q Dy). congruence.
        * change (group ++ e :: es) with (group ++ [e] ++ es) in *. rewrite app_assoc in *. eapply IH; [exact Es| | | |exact Al|exact E].
          -- intros l r Q. apply (HP l r). rewrite <- Q, <- !app_assoc. reflexivity.
          -- now destruct group.
          -- apply Forall_app. split; [exact Gd|]. constructor; [exact Ed|constructor].
      + apply eqb_false_iff in Ed. destruct (in_generator (game_group p s (existsb is_richii pre) d group)) as [out|y] eqn:Eo; cbn [bindr] in E.
        * assert (Al' : alternates disc (e :: es)).
          { clear - Al Ng. induction group as [|x g IHg]; [congruence|]. cbn [app] in Al. destruct g as [|y g]; inversion Al; subst; [assumption|]. apply IHg; [discriminate|assumption]. }
          assert (Ge : if disc e then exists x, [e] = [x] /\ disc x = true else Forall (fun x => disc x = false) [e]).
          { destruct (disc e) eqn:De; [eauto|]. constructor; [exact De|constructor]. }
          rewrite in_generator_ok in Eo. apply (group_iff p s0 disc HR HC pre s d group out Es Ng Gd) in Eo. destruct Eo as (s' & A & Q1 & Q2 & B).
          rewrite Q1, Q2 in E.
          destruct (game_loop p s' (existsb is_richii (pre ++ group)) (disc e) [e] es) as [more|y] eqn:Em; cbn [bindr] in E; [discriminate|]. injection E as <-.
          destruct (IH (pre ++ group) _ (disc e) [e] y A) as (l1 & pt & l2 & P1 & P2 & P3); [|discriminate|exact Ge|exact Al'|exact Em|].
          -- intros l r Q. apply (HP l r). rewrite <- Q, <- app_assoc. reflexivity.
          -- exists (points disc pre group ++ l1), pt, l2. split; [|split; [|exact P3]].
             ++ rewrite points_app. cbn [app] in P1. rewrite P1, app_assoc. reflexivity.
             ++ intros q Iq. apply in_app_or in Iq. destruct Iq as [Iq|Iq]; [|now apply P2]. clear - B Iq.
                induction B as [|a b l m R B IHB]; [destruct Iq|]. destruct Iq as [<-|Iq]; eauto.
        * injection E as <-. eapply G; [exact Es| |exact Ng|exact Gd|exact Eo]. apply (HP _ (e :: es)). now rewrite <- app_assoc.
  Qed.
  Lemma reasoning_first es x : alternates disc es -> (forall l r, es = l ++ r -> exists s', pass_states s0 l = Ok s') ->
    game_reasoning p s0 es = Err x -> first_fails (points disc [] es) x.
  Proof.
    intros Al HP E. destruct es as [|e es]; cbn [game_reasoning] in E; [discriminate|]. rewrite HD in E. cbn [bindr] in E.
    eapply (loop_first es [] s0 (disc e) [e]); [now apply pass_states_nil|exact HP|discriminate| |exact Al|exact E].
    destruct (disc e) eqn:De; [eauto|]. constructor; [exact De|constructor].
  Qed.
  (** The report is made exactly if all rows can be made. *)
  Lemma reasoning_made es : alternates disc es -> (exists s', pass_states s0 es = Ok s') ->
    ((exists rows, game_reasoning p s0 es = Ok rows) <-> forall pt, In pt (points disc [] es) -> exists row, row_ok p s0 pt row).
  Proof.
    intros Al HP. split.
    - intros (rows & E). apply (game_iff p s0 disc HD HR HC es rows Al) in E. destruct E as [_ F]. intros pt I0.
      induction F as [|a b l m R F IHF]; [destruct I0|]. destruct I0 as [<-|I0]; eauto.
    - intro F. assert (X : exists rows, Forall2 (row_ok p s0) (points disc [] es) rows).
      { induction (points disc [] es) as [|a l IHl]; [exists []; constructor|]. destruct (F a) as (r & R); [now left|].
        destruct IHl as (rows & Y); [intros; apply F; now right|]. exists (r :: rows). now constructor. }
      destruct X as (rows & X). exists rows. apply (game_iff p s0 disc HD HR HC es rows Al). auto.
  Qed.
End First.
