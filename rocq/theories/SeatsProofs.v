(** Which seats the commands of a converted log name. *)
From Verif Require Import Base Category Tile Parse Text Tenhou Prop_Meld Event Const Reader StateProofs Value Universe Translator TenhouCommands
  Transfer Spec_Transfer Spec_Universe UniverseProofs Prop_Executor CommandProofs Prop_Commands Spec_Log Spec_Seats.
From Coq Require Import String List ZArith Lia Bool.
Import ListNotations.
Open Scope list_scope.
Open Scope Z_scope.

Definition seat_cmd (c : command) : Prop :=
  seats_only c /\ (c_prop c = RV_player_count -> c_update c = U_REPLACE /\ (c_value c = VInt 3 \/ c_value c = VInt 4)).
Definition count_ok (s : istate) : Prop := forall v, iget s (sub_all, RV_player_count) = Some v -> v = VInt 3 \/ v = VInt 4.

Lemma seat_player p u i v ev : 0 <= i <= 3 -> p <> RV_player_count -> seat_cmd (cmd p u (SId i) v ev).
Proof. intros R N. split; [intros j H; cbn in H; injection H as <-; exact R|intro K; contradiction]. Qed.
Lemma seat_all p u v ev : p <> RV_player_count -> seat_cmd (cmd p u sub_all v ev).
Proof. intros N. split; [intros j H; discriminate H|intro K; contradiction]. Qed.
Ltac seat_one := match goal with
  | |- seat_cmd (cmd _ _ (SId _) _ _) => apply seat_player; [assumption || lia|discriminate]
  | |- seat_cmd (cmd _ _ sub_all _ _) => apply seat_all; discriminate
  end.
Ltac seat_list := repeat match goal with
  | |- Forall _ (_ ++ _) => apply Forall_app; split
  | |- Forall _ (_ :: _) => constructor
  | |- Forall _ [] => constructor
  end; try seat_one.

Lemma tile_seat letters e p t : length letters = 4%nat -> tile_change letters e = Some (p, t) -> 0 <= p <= 3.
Proof.
  intros L H. unfold tile_change in H. destruct (regex_full letters (tag e)) as [[c ds]|] eqn:R; [|discriminate]. cbn [option_map fst snd] in H. injection H as <- _.
  unfold regex_full in R. destruct (tag e) as [|c' r]; [discriminate|]. destruct (mem c' letters) eqn:M; [|discriminate].
  assert (c' = c) as ->. { repeat match type of R with (match ?b with _ => _ end) = _ => destruct b; try discriminate R end; injection R; auto. }
  destruct letters as [|a [|b [|k [|d [|]]]]]; try discriminate L. unfold mem in M. cbn [existsb] in M. cbn [index_of].
  destruct (c =? a); [lia|]. destruct (c =? b); [lia|]. destruct (c =? k); [lia|]. destruct (c =? d); [lia|]. discriminate M.
Qed.
Lemma who_seat e w p : In (tag e) [t_ "N"; t_ "REACH"; t_ "AGARI"; t_ "BYE"] -> seated e -> attr e (t_ "who") = Ok w -> py_int w = Ok p -> 0 <= p <= 3.
Proof.
  intros T S0 A P. unfold attr in A. destruct (lookup (t_ "who") (attrib e)) as [w'|] eqn:L; [|discriminate]. apply Ok_inj in A. subst w'.
  specialize (S0 T w L). destruct S0 as [<-|[<-|[<-|[<-|[]]]]]; vm_compute in P; apply Ok_inj in P; subst p; lia.
Qed.
Lemma hand_update_seats u p l x r : 0 <= p <= 3 -> hand_update u p l x = Ok r -> Forall seat_cmd (fst r).
Proof. unfold hand_update. intros R H. peelb H. apply Ok_inj in H. subst r. cbn [fst]. apply Forall_app. split; [destruct u; seat_list|]. seat_list. Qed.
Lemma count_seats x n : count_ok (x_vals x) -> ctx_player_count x = Ok n -> n = 3 \/ n = 4.
Proof.
  unfold ctx_player_count. intros C H. destruct (iget _ _) as [v|] eqn:E; [|discriminate]. destruct (C v E) as [-> | ->]; cbn in H; apply Ok_inj in H; auto.
Qed.
Lemma range_seats n p : n = 3 \/ n = 4 -> In p (zrange 0 n) -> 0 <= p <= 3.
Proof. intros [-> | ->] H; vm_compute in H; repeat (destruct H as [<-|H]; [lia|]); destruct H. Qed.
Lemma mapM_concat_seats {A} (f : A -> res (list command)) l ls : mapM f l = Ok ls -> (forall a r, In a l -> f a = Ok r -> Forall seat_cmd r) -> Forall seat_cmd (concat ls).
Proof.
  intros H F. revert ls H. induction l as [|a l IH]; intros ls H; cbn [mapM] in H; [apply Ok_inj in H; subst; constructor|].
  peelb H. apply Ok_inj in H. subst ls. cbn [concat]. apply Forall_app. split; [eapply F; [left; reflexivity|exact E]|apply IH; [intros b r I0; apply F; right; exact I0|reflexivity]].
Qed.

Section Seats.
Context (unquote : text -> text) (set_order : list Z -> list Z).
Definition seat_handler (name : text) (h : handler) : Prop := forall e x r, tag e = name -> seated e -> count_ok (x_vals x) -> h e x = Ok r -> Forall seat_cmd (fst r).
Lemma typed_seats name t (h : handler) : seat_handler name h -> seat_handler name (default_event_type t h).
Proof.
  intros G e x r T S0 C H. unfold default_event_type in H. peelb H. apply Ok_inj in H. subst r. cbn [fst]. apply Forall_map. eapply Forall_impl; [|exact (G _ _ _ T S0 C E)].
  intros c K. unfold with_event. destruct (c_event c); exact K.
Qed.
Lemma draw_seats name : seat_handler name draw_command.
Proof.
  apply typed_seats. intros e x r _ _ C H. destruct (tile_change DRAW_INDICATOR e) as [[p t]|] eqn:T.
  - eapply hand_update_seats; [|exact H]. eapply tile_seat; [|exact T]. reflexivity.
  - apply Ok_inj in H. subst. constructor.
Qed.
Lemma discard_seats name : seat_handler name discard_command.
Proof.
  apply typed_seats. intros e x r _ _ C H. destruct (tile_change DISCARD_INDICATOR e) as [[p t]|] eqn:T.
  - apply tile_seat in T; [|reflexivity]. peelb H. apply Ok_inj in H. subst r. pose proof (hand_update_seats _ _ _ _ _ T E1) as B. cbn [fst]. seat_list. exact B.
  - apply Ok_inj in H. subst. constructor.
Qed.
Lemma oya_seats x i l : count_ok (x_vals x) -> set_oya_command_yield x i = Ok l -> Forall seat_cmd l.
Proof.
  unfold set_oya_command_yield. intros C H. peelb H. apply Ok_inj in H. subst l. apply Forall_map. apply Forall_forall. intros q I0.
  pose proof (range_seats _ _ (count_seats _ _ C E) I0). seat_list.
Qed.
Lemma init_player_seats e p x r : 0 <= p <= 3 -> init_player e p x = Ok r -> Forall seat_cmd (fst r).
Proof. unfold init_player. intros R H. peelb H. apply Ok_inj in H. subst r. pose proof (hand_update_seats _ _ _ _ _ R E3) as B. cbn [fst]. seat_list. exact B. Qed.
Lemma init_players_seats e ps : forall x r, (forall p, In p ps -> 0 <= p <= 3) -> init_players e ps x = Ok r -> Forall seat_cmd (fst r).
Proof.
  induction ps as [|p ps IH]; intros x r R H; cbn [init_players] in H.
  - apply Ok_inj in H. subst. constructor.
  - peelb H. apply Ok_inj in H. subst r. cbn [fst]. apply Forall_app. split; [eapply init_player_seats; [apply R; left; reflexivity|exact E]|eapply IH; [intros q I0; apply R; right; exact I0|exact E0]].
Qed.
Lemma init_seats name : seat_handler name game_init_command.
Proof.
  apply typed_seats. intros e x r _ _ C H. peelb H.
  match type of H with (match ?l with _ => _ end) = _ => destruct l as [|prevailing [|game_index [|]]]; try discriminate H end. peelb H. apply Ok_inj in H. subst r.
  match goal with K : ctx_player_count _ = Ok _ |- _ => pose proof (count_seats _ _ C K) as N end.
  match goal with K : init_players _ _ _ = Ok _ |- _ => pose proof (init_players_seats _ _ _ _ (fun p I0 => range_seats _ p N I0) K) as B end.
  match goal with K : set_oya_command_yield _ _ = Ok _ |- _ => apply (oya_seats _ _ _ C) in K end.
  cbn [fst]. seat_list; assumption.
Qed.
Lemma open_seats : seat_handler (t_ "N") (open_hand set_order).
Proof.
  apply typed_seats. intros e x r T S0 C H. peelb H. apply Ok_inj in H. subst r.
  match goal with A : attr e (t_ "who") = Ok _, P : py_int _ = Ok _ |- _ => pose proof (who_seat e _ _ ltac:(rewrite T; cbn; tauto) S0 A P) as R end.
  pose proof (hand_update_seats _ _ _ _ _ R E4) as B. cbn [fst].
  seat_list; [|exact B]. match goal with |- context [m_class ?m] => destruct (m_class m) end; seat_list.
Qed.
Lemma go_seats name : seat_handler name game_type_command.
Proof.
  apply typed_seats. intros e x r _ _ C H. peelb H. cbv zeta in H. apply Ok_inj in H. subst r. cbn [fst]. seat_list.
  split; [intros j K; discriminate K|]. intros _. split; [reflexivity|]. cbn [c_value cmd]. unfold player_count. destruct (gt_flag _ _); auto.
Qed.
Lemma taikyoku_seats name : seat_handler name set_oya_command.
Proof. apply typed_seats. intros e x r _ _ C H. peelb H. apply Ok_inj in H. subst r. eapply oya_seats; [exact C|exact E1]. Qed.
Lemma un_seats name : seat_handler name (set_player_command unquote).
Proof.
  apply typed_seats. intros e x r _ _ C H. peelb H. cbv zeta in H. peelb H. apply Ok_inj in H. subst r. cbn [fst].
  apply (mapM_concat_seats _ _ _ E1). intros p l' Ip H. assert (R : 0 <= p <= 3) by (cbn in Ip; lia). unfold set_player in H.
  destruct (lookup _ _) as [nm|] eqn:L; [|apply Ok_inj in H; subst; constructor]. destruct (not_blank nm); [|apply Ok_inj in H; subst; constructor].
  peelb H. apply Ok_inj in H. subst l'. seat_list; [|destruct (has_attr e (t_ "rate")); seat_list].
  destruct (has_attr e (t_ "dan")); [|apply Ok_inj in E5; subst; constructor].
  match type of E5 with (match ?n with _ => _ end) = _ => destruct n; [|discriminate E5] end. peelb E5. apply Ok_inj in E5. subst. seat_list.
Qed.
Lemma dora_seats name : seat_handler name dora_command.
Proof. apply typed_seats. intros e x r _ _ C H. peelb H. apply Ok_inj in H. subst r. cbn [fst]. seat_list. Qed.
Lemma reach_seats : seat_handler (t_ "REACH") richii_command.
Proof.
  apply typed_seats. intros e x r T S0 C H. peelb H. apply Ok_inj in H. subst r. cbn [fst].
  pose proof (who_seat e _ _ ltac:(rewrite T; cbn; tauto) S0 E E0) as R. destruct (text_eqb _ _); [seat_list|]. destruct (text_eqb _ _); seat_list.
Qed.
Lemma finish_seats x f p sc y e l : count_ok (x_vals x) -> game_finish x f p sc y e = Ok l -> Forall seat_cmd l.
Proof.
  unfold game_finish. intros C H. peelb H. apply Ok_inj in H. subst l. pose proof (count_seats _ _ C E) as N. apply Forall_app. split.
  - apply (mapM_concat_seats _ _ _ E0). intros q r I0 H. pose proof (range_seats _ _ N I0) as R. unfold finish_player in H. peelb H. cbv zeta in H. apply Ok_inj in H. subst r.
    seat_list. destruct sc; [|apply Ok_inj in E2; subst; constructor]. peelb E2. apply Ok_inj in E2. subst. seat_list.
  - unfold finals_commands in E1. destruct (lookup _ _); [|apply Ok_inj in E1; subst; constructor].
    peelb E1. cbv zeta in E1. peelb E1. apply Ok_inj in E1. subst. apply (mapM_concat_seats _ _ _ E3).
    intros q r I0 H. pose proof (range_seats _ _ N I0) as R. peelb H. cbv zeta in H. apply Ok_inj in H. subst r. seat_list.
Qed.
Lemma agari_seats : seat_handler (t_ "AGARI") agari_command.
Proof.
  apply typed_seats. intros e x r T S0 C H. destruct (logged_win e) as [[]|]; [|discriminate H]. cbn [bindr] in H. peelb H. apply Ok_inj in H. subst r. cbn [fst].
  pose proof (who_seat e _ _ ltac:(rewrite T; cbn; tauto) S0 E E0) as R.
  match goal with K : game_finish _ _ _ _ _ _ = Ok _ |- _ => apply (finish_seats _ _ _ _ _ _ _ C) in K end. seat_list. assumption.
Qed.
Lemma shuffle_seats name : seat_handler name shuffle_command.
Proof. apply typed_seats. intros e x r _ _ C H. peelb H. apply Ok_inj in H. subst r. cbn [fst]. seat_list. Qed.
Lemma bye_seats : seat_handler (t_ "BYE") disconnected_command.
Proof.
  apply typed_seats. intros e x r T S0 C H. peelb H. apply Ok_inj in H. subst r. cbn [fst]. pose proof (who_seat e _ _ ltac:(rewrite T; cbn; tauto) S0 E E0) as R. seat_list.
Qed.
Lemma nowin_seats name : seat_handler name no_win_command.
Proof.
  apply typed_seats. intros e x r _ _ C H. peelb H. apply Ok_inj in H. subst r. cbn [fst].
  match goal with K : game_finish _ _ _ _ _ _ = Ok _ |- _ => apply (finish_seats _ _ _ _ _ _ _ C) in K end. seat_list. assumption.
Qed.
Lemma handle_seats e x r : seated e -> count_ok (x_vals x) -> handle unquote set_order e x = Ok r -> Forall seat_cmd (fst r).
Proof.
  intros S0 C H. unfold handle in H. destruct (hfind (handlers unquote set_order) (tag e)) as [h|] eqn:F.
  - apply hfind_in in F. cbn [handlers In] in F.
    repeat (destruct F as [F|F]; [injection F as T <-; symmetry in T; revert e x r T S0 C H|]); [| | | | | | | | | | |destruct F];
      [exact (init_seats _)|exact open_seats|exact (go_seats _)|exact (taikyoku_seats _)|exact (un_seats _)|exact (dora_seats _)|exact reach_seats
      |exact agari_seats|exact (shuffle_seats _)|exact bye_seats|exact (nowin_seats _)].
  - unfold default_handle in H. destruct (draw_command e x) as [v|] eqn:D; cbn [bindr] in H; [|discriminate].
    pose proof (draw_seats _ _ _ _ eq_refl S0 C D) as B. destruct (draw_good _ _ _ D) as [[A _] _]. destruct (fst v) eqn:Q.
    + destruct (discard_command e (snd v)) as [w|] eqn:D2; cbn [bindr] in H; [|discriminate]. apply Ok_inj in H. subst w. eapply discard_seats; [reflexivity|exact S0| |exact D2]. rewrite A. exact C.
    + apply Ok_inj in H. subst v. rewrite Q. exact B.
Qed.
Lemma interpret_count s c s' w : count_ok s -> seat_cmd c -> interpret s c = Ok (s', w) -> count_ok s'.
Proof.
  intros C [_ P] H v G. unfold interpret in H. cbv zeta in H. peelb H. apply Ok_inj in H. injection H as -> ->. rewrite iget_iput in G. cbn [fst snd] in G.
  destruct (sub_eqb (c_sub c) sub_all && view_eqb (c_prop c) RV_player_count) eqn:Q; [|apply C; exact G]. injection G as <-. apply andb_true_iff in Q. destruct Q as [_ Q].
  unfold view_eqb in Q. destruct (view_eq_dec (c_prop c) RV_player_count) as [K|]; [|discriminate]. destruct (P K) as [U V]. unfold execute_new_value in E. rewrite U in E. apply Ok_inj in E. subst. exact V.
Qed.
Lemma states_count l : forall s s' l', count_ok s -> Forall seat_cmd l -> with_states s l = Ok (s', l') -> count_ok s'.
Proof.
  induction l as [|c l IH]; intros s s' l' C F H; cbn [with_states] in H; [apply Ok_inj in H; injection H as -> ->; exact C|]. inversion F; subst.
  peelb H. destruct v as [s1 w], v0 as [s2 l2]. cbn [fst snd] in *. apply Ok_inj in H. injection H as -> ->. eapply IH; [eapply interpret_count; eassumption|assumption|eassumption].
Qed.
Lemma call_seats strict e i x cmds x' : seated e -> count_ok (x_vals x) -> call (tenhou_command unquote set_order) strict e i x = Ok (cmds, x') -> Forall seats_only cmds /\ count_ok (x_vals x').
Proof.
  rewrite call_eq. intros S0 C H. peelb H. pose proof (handle_seats _ _ _ S0 C E) as B. destruct (handle_good _ _ _ _ _ E) as [[A _] _]. destruct v as [l x1]. cbn [fst snd] in *.
  unfold finish in H. cbn [fst snd] in H. destruct l as [|c0 l0].
  - destruct strict; [discriminate|]. apply Ok_inj in H. injection H as -> ->. split; [constructor|rewrite A; exact C].
  - unfold postprocess in H. peelb H. destruct v as [s' cs]. cbn [fst snd] in H. apply Ok_inj in H. injection H as -> ->.
    split; [|cbn [x_vals]; eapply states_count; [|exact B|exact E0]; rewrite A; exact C].
    apply Forall_map. pose proof (with_states_forall seat_cmd ltac:(intros c v K; exact K) _ _ _ _ E0 B) as K. eapply Forall_impl; [|exact K]. intros c [Q _]. exact Q.
Qed.
Lemma call_all_seats strict : forall es i x cmds x', Forall seated es -> count_ok (x_vals x) -> call_all (tenhou_command unquote set_order) strict i es x = Ok (cmds, x') -> Forall seats_only cmds.
Proof.
  induction es as [|e es IH]; intros i x cmds x' F C H; cbn [call_all] in H.
  - apply Ok_inj in H. injection H as -> ->. constructor.
  - inversion F; subst. peelb H. destruct v as [l y], v0 as [m z]. cbn [fst snd] in *. apply Ok_inj in H. injection H as -> ->.
    destruct (call_seats _ _ _ _ _ _ ltac:(eassumption) C E) as [K1 K2]. apply Forall_app. split; [exact K1|eapply IH; eassumption].
Qed.
Theorem seated_only strict events cmds : Forall seated events -> to_commands (tenhou_command unquote set_order) strict events = Ok cmds -> Forall seats_only cmds.
Proof.
  intros F H. unfold to_commands in H. peelb H. destruct v as [l x]. apply Ok_inj in H. cbn [fst] in H. subst l. eapply call_all_seats; [exact F| |exact E]. intros v K. discriminate K.
Qed.
End Seats.
(** Deciding it for a concrete log. *)
Lemma seated_b (l : list event) : forallb (fun e => negb (existsb (text_eqb (tag e)) [t_ "N"; t_ "REACH"; t_ "AGARI"; t_ "BYE"]) ||
  match lookup (t_ "who") (attrib e) with Some s => existsb (text_eqb s) [t_ "0"; t_ "1"; t_ "2"; t_ "3"] | None => true end) l = true -> Forall seated l.
Proof.
  rewrite forallb_forall, Forall_forall. intros H e I0 T s W. specialize (H e I0). unfold holds in W. rewrite W in H. apply orb_true_iff in H. destruct H as [H|H].
  - apply negb_true_iff in H. assert (X : existsb (text_eqb (tag e)) [t_ "N"; t_ "REACH"; t_ "AGARI"; t_ "BYE"] = true) by (apply existsb_exists; exists (tag e); split; [exact T|apply text_eqb_iff; reflexivity]). congruence.
  - apply existsb_exists in H. destruct H as [q [Q E]]. apply text_eqb_iff in E. subst q. exact Q.
Qed.
(** C38 for logs: the hypothesis is about the log alone. *)
Theorem C38_log : forall unquote so strict events cmds,
  to_commands (tenhou_command unquote so) strict events = Ok cmds -> Forall seated events ->
  exists snaps h, replay false cmds snaps h None /\ length snaps = length cmds /\
  forall n c, nth_error cmds n = Some c ->
  exists T p, snapshot snaps h n T /\ addressed c p /\ at_path key_eqb T (path_of p) = Some (TLeaf (c_state c)).
Proof. intros unquote so strict events cmds H Se. exact (C38_record _ _ _ _ _ H (seated_only _ _ _ _ _ Se H)). Qed.
Example C38_log_example : Forall seated ex_record.
Proof. apply seated_b. vm_compute. reflexivity. Qed.
Print Assumptions C38_log.
