(** When the report on a deal stops with an error: the error of the first discard whose row
    cannot be made, if no tracker fails. *)
From Coq Require Import String.
From Verif Require Import Base Tile Parse Text Tenhou TenhouProofs Event State StateProofs Prop_State Prop_Meld Checker CheckerGame.
From Coq Require Import List ZArith Lia Bool.
Import ListNotations.
Open Scope list_scope.
Open Scope Z_scope.

Section Errors.
  Context (p : Z) (s0 : states) (disc : event -> bool) (HD : forall e, is_discard p e = Ok (disc e)).
  Context (HC : constructed_states s0).
  (** The row of a discard cannot be made, and the error that the generator raises for it. *)
  Definition fails_with (pt : list event * event) (x : exn) : Prop :=
    exists s y, pass_states s0 (fst pt) = Ok s /\ discard_reasoning (snd pt) (st_hand s) (st_invisible s) p (st_meld s) = Err y /\
      x = match y with StopIteration => RuntimeError | _ => y end.

  Lemma loop_err es : forall pre s (d : bool) group richii x, pass_states s0 pre = Ok s ->
    (forall l r, pre ++ group ++ es = l ++ r -> exists s', pass_states s0 l = Ok s') ->
    group <> [] -> (if d then exists e, group = [e] /\ disc e = true else Forall (fun e => disc e = false) group) ->
    alternates disc (group ++ es) ->
    game_loop p s richii d group es = Err x -> exists pt, In pt (points disc pre (group ++ es)) /\ fails_with pt x.
  Proof.
    assert (G : forall pre s (d : bool) group richii x rest, pass_states s0 pre = Ok s -> (exists s', pass_states s0 (pre ++ group) = Ok s') ->
      group <> [] -> (if d then exists e, group = [e] /\ disc e = true else Forall (fun e => disc e = false) group) ->
      in_generator (game_group p s richii d group) = Err x -> exists pt, In pt (points disc pre (group ++ rest)) /\ fails_with pt x).
    { intros pre s d group richii x rest Es (s' & Es') Ng Gd E. unfold game_group in E.
      apply pass_states_split in Es'; [|exact HC]. destruct Es' as (s1 & Q & Es'). rewrite Es in Q. apply Ok_inj in Q. subst s1.
      rewrite Es' in E. destruct d.
      - destruct Gd as (e & -> & De). destruct (discard_reasoning e (st_hand s) (st_invisible s) p (st_meld s)) as [r|y] eqn:Er; cbn [bindr in_generator] in E; [discriminate|].
        exists (pre, e). split; [cbn [points app]; rewrite De; now left|]. exists s, y. cbn [fst snd]. split; [exact Es|]. split; [exact Er|].
        destruct y; injection E as <-; reflexivity.
      - cbn [bindr in_generator] in E. discriminate. }
    induction es as [|e es IH]; intros pre s d group richii x Es HP Ng Gd Al E; cbn [game_loop] in E.
    - destruct (in_generator (game_group p s richii d group)) as [out|y] eqn:Eo; [discriminate|]. cbn [bindr] in E. injection E as <-.
      eapply G; [exact Es| |exact Ng|exact Gd|exact Eo]. apply (HP _ []). now rewrite !app_nil_r.
    - rewrite HD in E. cbn [bindr] in E. destruct (eqb (disc e) d) eqn:Ed.
      + apply eqb_prop in Ed. destruct d.
        * exfalso. destruct Gd as (y & -> & Dy). cbn [app] in Al. inversion Al as [| |? ? ? Q]; subst. specialize (Q Dy). congruence.
        * change (group ++ e :: es) with (group ++ [e] ++ es) in *. rewrite app_assoc in *. eapply IH; [exact Es| | | |exact Al|exact E].
          -- intros l r Q. apply (HP l r). rewrite <- Q, <- !app_assoc. reflexivity.
          -- now destruct group.
          -- apply Forall_app. split; [exact Gd|]. constructor; [exact Ed|constructor].
      + apply eqb_false_iff in Ed. destruct (in_generator (game_group p s richii d group)) as [out|y] eqn:Eo; cbn [bindr] in E.
        * assert (Al' : alternates disc (e :: es)).
          { clear - Al Ng. induction group as [|x g IHg]; [congruence|]. cbn [app] in Al. destruct g as [|y g]; inversion Al; subst; [assumption|]. apply IHg; [discriminate|assumption]. }
          assert (Ge : if disc e then exists x, [e] = [x] /\ disc x = true else Forall (fun x => disc x = false) [e]).
          { destruct (disc e) eqn:De; [eauto|]. constructor; [exact De|constructor]. }
          destruct (game_loop p (snd (fst out)) (snd out) (disc e) [e] es) as [more|y] eqn:Em; cbn [bindr] in E; [discriminate|]. injection E as <-.
          rewrite in_generator_ok in Eo. unfold game_group in Eo.
          assert (S1 : pass_states s0 (pre ++ group) = Ok (snd (fst out))).
          { apply pass_states_split; [exact HC|]. exists s. split; [exact Es|].
            match type of Eo with bindr ?r _ = _ => destruct r as [rows|]; [|discriminate] end. cbn [bindr] in Eo.
            destruct (pass_states s group) as [s'|]; [|discriminate]. cbn [bindr] in Eo. apply Ok_inj in Eo. subst out. reflexivity. }
          destruct (IH (pre ++ group) _ (disc e) [e] (snd out) y S1) as (pt & A & B); [|discriminate|exact Ge|exact Al'|exact Em|].
          -- intros l r Q. apply (HP l r). rewrite <- Q, <- app_assoc. reflexivity.
          -- exists pt. split; [|exact B]. rewrite points_app. apply in_or_app. now right.
        * injection E as <-. eapply G; [exact Es| |exact Ng|exact Gd|exact Eo]. apply (HP _ (e :: es)). now rewrite <- app_assoc.
  Qed.
  Lemma reasoning_err es x : alternates disc es -> (forall l r, es = l ++ r -> exists s', pass_states s0 l = Ok s') ->
    game_reasoning p s0 es = Err x -> exists pt, In pt (points disc [] es) /\ fails_with pt x.
  Proof.
    intros Al HP E. destruct es as [|e es]; cbn [game_reasoning] in E; [discriminate|]. rewrite HD in E. cbn [bindr] in E.
    eapply (loop_err es [] s0 (disc e) [e]); [now apply pass_states_nil|exact HP|discriminate| |exact Al|exact E].
    destruct (disc e) eqn:De; [eauto|]. constructor; [exact De|constructor].
  Qed.
End Errors.
