(** C135: what a player decides.

    In English: [player.is_player_choice(event)] is true of the player's own discards, calls and wins, and false of
    draws, of all that the others do, of riichi declarations, new dora indicators, and the beginning and the end of deals.
    The meld that [opened_hand_type] reads from a call belongs to the caller and is the one of C25.

    C46, in addition: [match_names] is the same as [match_name] with each of the names in turn. *)
From Verif Require Import Base Category Tile Parse Text Tenhou Spec_Meld Event StateProofs Prop_Meld Choice Prop_Whose Universe Translator Spec_Dispatch Prop_Dispatch.
From Coq Require Import String List ZArith Lia Bool.
Import ListNotations.
Open Scope list_scope.
Open Scope Z_scope.

(** Tags of elements that are no decision. *)
Definition no_decision : list text := map t_ ["mjloggm"; "SHUFFLE"; "GO"; "UN"; "BYE"; "TAIKYOKU"; "INIT"; "REACH"; "DORA"; "RYUUKYOKU"]%string.

Lemma not_tag e s l r : tag e = l :: r -> (match t_ s with c :: _ => c <> l | [] => True end) -> has_tag e s = false.
Proof.
  intros T N. unfold has_tag. rewrite T. destruct (text_eqb (l :: r) (t_ s)) eqn:E; [|reflexivity].
  apply text_eqb_iff in E. rewrite <- E in N. now destruct N.
Qed.
Lemma starts_with e seat n : draws e seat n \/ discards e seat n ->
  exists l r, tag e = l :: r /\ l <> 78 /\ l <> 65.
Proof.
  intros [[_ H]|[_ H]]; letters; destruct H as [[_ H]|[[_ H]|[[_ H]|[_ H]]]]; rewrite H; eexists _, _; (split; [reflexivity|split; discriminate]).
Qed.
Theorem C135_discard : forall e seat n i, discards e seat n -> a_seat i -> is_player_choice i e = Ok (i =? seat).
Proof.
  intros e seat n i D S0. destruct (C133_discard e seat n D) as (_ & _ & _ & _ & _ & A & _). destruct (A i S0) as [B _].
  destruct (starts_with e seat n (or_intror D)) as (l & r & T & N1 & N2). unfold is_player_choice. rewrite B. cbn [bindr].
  destruct (i =? seat); [reflexivity|]. unfold player_open_hand, player_win, triggered_by.
  rewrite (not_tag e "N" l r T), (not_tag e "AGARI" l r T) by (cbn; lia). reflexivity.
Qed.
Theorem C135_draw : forall e seat n i, draws e seat n -> a_seat i -> is_player_choice i e = Ok false.
Proof.
  intros e seat n i D S0. destruct (C133_draw e seat n D) as (_ & _ & _ & _ & _ & _ & A). destruct (A i S0) as [B _].
  destruct (starts_with e seat n (or_introl D)) as (l & r & T & N1 & N2). unfold is_player_choice. rewrite B. cbn [bindr].
  unfold player_open_hand, player_win, triggered_by.
  rewrite (not_tag e "N" l r T), (not_tag e "AGARI" l r T) by (cbn; lia). reflexivity.
Qed.
Lemma not_discard i e s : a_seat i -> tag e = t_ s -> (forall l, In l DISCARD_INDICATOR -> regex_prefix l (t_ s) = None) -> is_discard i e = Ok false.
Proof.
  intros S0 T N. unfold is_discard, discard_match. rewrite T. destruct S0 as [-> |[-> |[-> | ->]]];
    match goal with |- context[py_nth DISCARD_INDICATOR ?k] => let v := eval cbv in (py_nth DISCARD_INDICATOR k) in change (py_nth DISCARD_INDICATOR k) with v end;
    cbn [bindr]; rewrite N by (cbn; auto); reflexivity.
Qed.
Theorem C135_call_or_win : forall e who i, says e (t_ "who") (str_int who) -> tag e = t_ "N" \/ tag e = t_ "AGARI" -> a_seat i ->
  is_player_choice i e = Ok (i =? who).
Proof.
  intros e who i W T S0.
  assert (X : is_discard i e = Ok false).
  { destruct T as [T|T]; refine (not_discard i e _ S0 T _); intros l [<-|[<-|[<-|[<-|[]]]]]; reflexivity. }
  unfold is_player_choice. rewrite X. cbn [bindr]. unfold player_open_hand, player_win, triggered_by, has_tag, says in *.
  destruct T as [T|T]; rewrite T; cbn [text_eqb]; rewrite W; cbn [bindr]; rewrite py_int_str; cbn [bindr];
    rewrite (Z.eqb_sym who i); destruct (i =? who); reflexivity.
Qed.
Theorem C135_other : forall e i, In (tag e) no_decision -> a_seat i -> is_player_choice i e = Ok false.
Proof.
  intros e i I0 S0. assert (X : exists s, tag e = t_ s /\ In s ["mjloggm"; "SHUFFLE"; "GO"; "UN"; "BYE"; "TAIKYOKU"; "INIT"; "REACH"; "DORA"; "RYUUKYOKU"]%string).
  { apply in_map_iff in I0. destruct I0 as (s & E & J). exists s. auto. }
  destruct X as (s & T & J).
  assert (Y : is_discard i e = Ok false).
  { apply (not_discard i e s S0 T). intros l L. clear I0 T. repeat (destruct J as [<-|J]; [destruct L as [<-|[<-|[<-|[<-|[]]]]]; reflexivity|]). destruct J. }
  unfold is_player_choice. rewrite Y. cbn [bindr]. unfold player_open_hand, player_win, triggered_by, has_tag. rewrite T. clear - J.
  repeat (destruct J as [<-|J]; [reflexivity|]). destruct J.
Qed.
Theorem C135_meld : forall e who v i, says e (t_ "who") (str_int who) -> says e (t_ "m") (str_int v) -> 0 <= v < 65536 -> tile_field_ok v ->
  exists m, opened_hand_type i e = Ok m /\ m_class m = call_kind v /\
    (forall x, In x (m_self m) <-> laid_down v x) /\ (forall x, In x (m_borrowed m) <-> taken v x) /\ m_from m = (who + source v) mod 4.
Proof.
  intros e who v i W M H F. destruct (C25_decode who v H F) as (m & E & K & A & B & _ & _ & C). exists m.
  unfold opened_hand_type, meld_from, says in *. rewrite W, M. cbn [bindr]. rewrite !py_int_str. cbn [bindr]. auto.
Qed.

Theorem C46_names : forall regs names h, match_names names h (registered regs) = registered (regs ++ map (fun n => OnName n h) names).
Proof.
  intros regs names h. unfold match_names, registered. rewrite fold_left_app. generalize (fold_left register regs new_translator).
  induction names as [|n names IH]; intros t; [reflexivity|]. cbn [fold_left map register]. apply IH.
Qed.

Example C135_case :
  is_player_choice 2 (mkEvent (t_ "F77") []) = Ok true /\ is_player_choice 1 (mkEvent (t_ "F77") []) = Ok false /\
  says (mkEvent (t_ "N") [(t_ "who", t_ "1"); (t_ "m", t_ "51753")]) (t_ "who") (str_int 1) /\
  is_player_choice 1 (mkEvent (t_ "N") [(t_ "who", t_ "1"); (t_ "m", t_ "51753")]) = Ok true /\
  In (tag (mkEvent (t_ "DORA") [(t_ "hai", t_ "3")])) no_decision /\ discards (mkEvent (t_ "F77") []) 2 77.
Proof. unfold says, discards. repeat split; try reflexivity; try lia; [cbn; tauto|right; right; left; split; reflexivity]. Qed.
Print Assumptions C135_discard.
Print Assumptions C135_draw.
Print Assumptions C135_call_or_win.
Print Assumptions C135_other.
Print Assumptions C135_meld.
Print Assumptions C46_names.
