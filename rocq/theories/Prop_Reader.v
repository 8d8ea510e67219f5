(** Properties C31 and C56: how TenhouRecord splits a log. *)
From Verif Require Import Base Category Tile Parse Text Tenhou Event Stage Spec_Stage StageProofs Prop_Stage Reader Spec_Log StateProofs Prop_Meld.
From Coq Require Import String List ZArith Lia Bool.
Import ListNotations.
Open Scope list_scope.
Open Scope Z_scope.

(** ** Specification. *)
Definition deals (e : event) : Prop := tag e = t_ "INIT".
Definition ends (e : event) : Prop := tag e = t_ "AGARI" \/ tag e = t_ "RYUUKYOKU".
(** A chunk: one or more INIT events, then events of other kinds. *)
Definition chunk (l : list event) : Prop :=
  exists inits others, l = inits ++ others /\ inits <> [] /\ Forall deals inits /\ Forall (fun e => ~ deals e) others.
(** The first event with a tag. *)
Inductive first_with (t : text) : list event -> event -> Prop :=
| fw_here : forall e r, tag e = t -> first_with t (e :: r) e
| fw_later : forall x r e, tag x <> t -> first_with t r e -> first_with t (x :: r) e.

Definition split_ok (events : list event) (r : record) : Prop :=
  exists head, events = head ++ concat (map g_events (r_games r)) /\ Forall (fun e => ~ deals e) head /\
    Forall chunk (map g_events (r_games r)) /\
    (forall t e, first_with t head e -> get_config (r_meta r) t = Some (attrib e)) /\
    (forall t, (forall e, In e head -> tag e <> t) -> get_config (r_meta r) t = None).
Definition C31_statement (allowed : list event -> Prop) : Prop :=
  forall events r, allowed events -> new_record events = Ok r -> split_ok events r.
Definition C31_full : Prop := C31_statement (fun _ => True).

(** ** Proofs. *)
Lemma init_iff : forall e, is_game_init e = true <-> deals e.
Proof. intros e. unfold is_game_init, has_tag, deals. apply text_eqb_iff. Qed.
Lemma end_iff : forall e, is_game_end e = true <-> ends e.
Proof. intros e. unfold is_game_end, is_somebody_win_game, is_nobody_win_game, has_tag, ends. now rewrite orb_true_iff, !text_eqb_iff. Qed.

Lemma get_setattr : forall c k v t, get_config (setattr c k v) t = if text_eqb k t then Some v else get_config c t.
Proof.
  induction c as [|[k' v'] c IH]; intros k v t; cbn [setattr get_config]; auto.
  destruct (text_eqb k' k) eqn:E; cbn [get_config].
  - apply text_eqb_iff in E. subst. destruct (text_eqb k t); auto.
  - rewrite IH. destruct (text_eqb k' t) eqn:E1; destruct (text_eqb k t) eqn:E2; auto.
    apply text_eqb_iff in E1, E2. subst. rewrite text_eqb_refl in E. discriminate.
Qed.
Lemma config_cons : forall e l, list_of_xml_configs (e :: l) = setattr (list_of_xml_configs l) (tag e) (attrib e).
Proof. intros e l. unfold list_of_xml_configs. cbn [rev]. rewrite fold_left_app. reflexivity. Qed.
Lemma config_first : forall l t e, first_with t l e -> get_config (list_of_xml_configs l) t = Some (attrib e).
Proof.
  intros l t e H. induction H as [e r E|x r e N H IH]; rewrite config_cons, get_setattr.
  - rewrite E, text_eqb_refl. auto.
  - now rewrite text_eqb_neq.
Qed.
Lemma config_none : forall l t, (forall e, In e l -> tag e <> t) -> get_config (list_of_xml_configs l) t = None.
Proof.
  induction l as [|e l IH]; intros t H; auto. rewrite config_cons, get_setattr, text_eqb_neq.
  - apply IH. intros x X. apply H. now right.
  - apply H. now left.
Qed.

(** Keys true then false. *)
Definition tf (ks : list bool) : Prop := exists a b, ks = repeat true a ++ repeat false b.
Lemma may_tf : forall ks, may_group [true; false] ks <-> tf ks.
Proof.
  intros ks. split.
  - intros [(ps & D & H)|(k & N & _)]; [|destruct k; exfalso; apply N; cbn; auto].
    assert (G : forall lo, Forall (le lo) ps -> (lo <= 1)%nat -> exists a b, ks = repeat true a ++ repeat false b /\ (lo = 1%nat -> a = 0%nat)).
    { revert D. induction H as [|p k ps ks Hp H IH]; intros D lo F L.
      - exists 0%nat, 0%nat. auto.
      - apply ndec_cons in D as [D1 D2]. destruct p as [|[|p]]; [| |destruct p; discriminate].
        + injection Hp as <-. destruct (IH D2 0%nat) as (a & b & -> & _); [eapply Forall_impl; [|exact D1]; cbn; intros; lia|lia|].
          exists (S a), b. split; auto. intros ->. inversion F. lia.
        + injection Hp as <-. destruct (IH D2 1%nat D1 ltac:(lia)) as (a & b & -> & Z). specialize (Z eq_refl). subst a.
          exists 0%nat, (S b). auto. }
    destruct (G 0%nat) as (a & b & E & _); [apply Forall_forall; intros; lia|lia|]. exists a, b. exact E.
  - intros (a & b & ->). left. exists (repeat 0%nat a ++ repeat 1%nat b). split.
    + induction a as [|a IH]; cbn [repeat app].
      * induction b as [|b IH]; [exact I|]. cbn [repeat]. apply ndec_cons. split; auto.
        apply Forall_forall. intros x X. apply repeat_spec in X. lia.
      * apply ndec_cons. split; auto. apply Forall_forall. intros; lia.
    + apply Forall2_app; [induction a|induction b]; cbn; constructor; auto.
Qed.
Lemma tf_snoc : forall ks, tf ks -> tf (ks ++ [false]).
Proof. intros ks (a & b & ->). exists a, (S b). rewrite <- app_assoc. f_equal. clear. induction b; cbn; auto. now rewrite IHb. Qed.
Lemma tf_true_head : forall ks, tf (true :: ks) -> exists a b, ks = repeat true a ++ repeat false b.
Proof. intros ks ([|a] & b & E); [destruct b; discriminate|]. injection E as ->. eauto. Qed.
Lemma map_repeat_inv : forall (l : list event) b n, map is_game_init l = repeat b n -> Forall (fun e => is_game_init e = b) l.
Proof. induction l as [|e l IH]; intros b [|n] E; try discriminate; constructor; injection E as E1 E2; eauto. Qed.
Lemma tf_split : forall l, tf (map is_game_init l) -> exists x y, l = x ++ y /\ Forall deals x /\ Forall (fun e => ~ deals e) y.
Proof.
  intros l (a & b & E). apply map_eq_app in E as (x & y & -> & Ex & Ey). exists x, y. split; auto.
  apply map_repeat_inv in Ex, Ey. split.
  - eapply Forall_impl; [|exact Ex]. intros e H. now apply init_iff.
  - eapply Forall_impl; [|exact Ey]. intros e H D. apply init_iff in D. cbv beta in H. congruence.
Qed.
Lemma partition_chunks : forall es gs, stage_partition is_game_init [true; false] es gs ->
  match gs with
  | [] => es = []
  | [] :: _ => False
  | (e :: g) :: r => es = (e :: g) ++ concat r /\ Forall chunk r /\
      ((deals e /\ chunk (e :: g)) \/ Forall (fun e => ~ deals e) (e :: g))
  end.
Proof.
  intros es gs (A & B & C & D).
  assert (Hd : forall g, may_group [true; false] (map is_game_init g) -> forall e r, g = e :: r -> deals e -> chunk g).
  { intros g M e r -> De. apply may_tf in M. destruct (tf_split _ M) as (x & y & E & X & Y). exists x, y. split; auto. split; auto.
    intros ->. cbn in E. subst y. inversion Y; subst. contradiction. }
  assert (Tl : Forall chunk (tl gs)).
  { clear A. induction gs as [|g gs IH]; [constructor|]. cbn [tl]. inversion B as [|? ? B1 B2]; inversion C as [|? ? C1 C2]; subst.
    destruct gs as [|[|y h] gs]; [constructor|inversion B2; congruence|]. destruct D as [D1 D2]. inversion C2 as [|? ? C3 C4]; subst.
    constructor; [|now apply IH]. apply (Hd _ C3 y h eq_refl).
    destruct (is_game_init y) eqn:Y; [now apply init_iff|]. exfalso. apply D1. rewrite map_app. cbn [map]. rewrite Y. apply may_tf, tf_snoc, may_tf, C1. }
  destruct gs as [|[|e g] gs]; [auto|inversion B; congruence|]. cbn [tl] in Tl. split; [auto|]. split; auto.
  inversion C as [|? ? C1 C2]; subst. destruct (is_game_init e) eqn:Ie.
  - left. apply init_iff in Ie. split; auto. now apply (Hd _ C1 e g).
  - right. apply may_tf in C1. destruct (tf_split _ C1) as (x & y & E & X & Y). destruct x as [|x0 x]; [rewrite E; exact Y|].
    exfalso. injection E as <- E. inversion X as [|? ? X1 _]. apply init_iff in X1. congruence.
Qed.
Lemma groups_partition : forall es, exists gs, event_groups es = Ok gs /\ stage_partition is_game_init [true; false] es gs.
Proof.
  intros es. destruct (C29_partition event bool Bool.eqb Bool.eqb_true_iff is_game_init [true; false] es) as (kgs & A & B & _).
  exists (map snd kgs). unfold event_groups. rewrite A by lia. auto.
Qed.
Ltac peel H := repeat match type of H with
  | bindr ?x _ = Ok _ => let E := fresh "E" in destruct x eqn:E; [cbn [bindr] in H|discriminate]
  end.
Lemma new_game_events : forall l g, new_game l = Ok g -> g_events g = l.
Proof.
  intros l g H. unfold new_game in H. destruct l as [|i p]; [discriminate|].
  cbv zeta in H. peel H. apply Ok_inj in H. subst g. reflexivity.
Qed.
Lemma games_events : forall ls gs, mapM new_game ls = Ok gs -> map g_events gs = ls.
Proof.
  induction ls as [|l ls IH]; intros gs H; cbn [mapM] in H; [injection H as <-; auto|].
  destruct (new_game l) eqn:E; [|discriminate]. cbn [bindr] in H. destruct (mapM new_game ls) as [gs'|]; [|discriminate]. injection H as <-.
  cbn [map]. now rewrite (new_game_events _ _ E), (IH gs').
Qed.
Lemma new_events_same : forall l m, mapM new_event l = Ok m -> m = l.
Proof.
  induction l as [|e l IH]; intros m H; cbn [mapM] in H; [now apply Ok_inj in H|].
  destruct (new_event e) as [x|] eqn:E; [|discriminate]. cbn [bindr] in H. destruct (mapM new_event l) as [xs|] eqn:M; [|discriminate].
  apply Ok_inj in H. subst m. rewrite (IH xs eq_refl). f_equal. unfold new_event in E. peel E. now apply Ok_inj in E.
Qed.
Lemma new_record_events : forall es r, new_record es = Ok r -> read_events es = Ok r.
Proof.
  intros es r H. unfold new_record in H. destruct (mapM new_event es) as [m|] eqn:M; [|discriminate]. cbn [bindr] in H.
  now rewrite (new_events_same _ _ M) in H.
Qed.
Lemma record_inv : forall es r, new_record es = Ok r -> exists head chunks,
  event_groups es = Ok (head :: chunks) /\ r_meta r = list_of_xml_configs head /\ map g_events (r_games r) = chunks /\
  mapM new_game chunks = Ok (r_games r).
Proof.
  intros es r H. apply new_record_events in H. unfold read_events in H. destruct (event_groups es) as [[|head chunks]|]; try discriminate. cbn [bindr] in H.
  cbv zeta in H. destruct (rev es); [discriminate|]. peel H. apply Ok_inj in H. subst r. cbn [r_meta r_games].
  exists head, chunks. split; auto. split; auto. split; auto. now apply games_events.
Qed.

(** True for logs that do not begin with a deal. *)
Theorem C31_partial : C31_statement (fun events => match events with e :: _ => ~ deals e | [] => True end).
Proof.
  intros es r Al H. destruct (record_inv es r H) as (head & chunks & G & M & E & _).
  destruct (groups_partition es) as (gs & G' & P). rewrite G in G'. apply Ok_inj in G'. subst gs.
  apply partition_chunks in P. destruct head as [|e h]; [destruct P|]. destruct P as (E1 & E2 & E3).
  exists (e :: h). rewrite E, M. split; [exact E1|]. split; [|split; [exact E2|split]].
  - destruct E3 as [[E3 _]|E3]; auto. exfalso. rewrite E1 in Al. cbn in Al. contradiction.
  - intros t x X. now apply config_first.
  - intros t X. now apply config_none.
Qed.
(** Otherwise the first deal is taken for the head: its events are in no game. *)
Theorem C31_starts_with_deal : forall events r e rest, events = e :: rest -> deals e -> new_record events = Ok r ->
  exists first, chunk first /\ events = first ++ concat (map g_events (r_games r)).
Proof.
  intros es r e rest -> De H. destruct (record_inv _ r H) as (head & chunks & G & M & E & _).
  destruct (groups_partition (e :: rest)) as (gs & G' & P). rewrite G in G'. apply Ok_inj in G'. subst gs.
  apply partition_chunks in P. destruct head as [|e' h]; [destruct P|]. destruct P as (E1 & E2 & E3).
  injection E1 as <- E1. exists (e :: h). rewrite E. split; [|cbn; congruence].
  destruct E3 as [[_ E3]|E3]; auto. inversion E3. contradiction.
Qed.
Definition ev (s : string) (l : list (string * string)) : event := mkEvent (t_ s) (map (fun kv => (t_ (fst kv), t_ (snd kv))) l).
Definition ex_go : event := ev "GO" [("type", "9"); ("lobby", "0")].
Definition ex_un : event := ev "UN" [("n0", "a"); ("n1", "b"); ("n2", "c"); ("n3", "d"); ("dan", "10,11,12,13");
  ("rate", "1500.00,1620.55,1700.00,1444.10"); ("sx", "M,F,M,M")].
Definition ex_deal_event : event := ev "INIT" [("seed", "0,0,0,2,5,77"); ("oya", "0"); ("hai0", "1,2,3")].
Definition ex_win : event := ev "AGARI" [("who", "1"); ("owari", "250,-10.0,350,20.0,200,-5.0,200,-5.0")].
Definition ex_good : list event := [ev "SHUFFLE" []; ex_go; ex_un; ev "TAIKYOKU" [("oya", "0")]; ex_deal_event; ev "T5" []; ex_win;
  ex_deal_event; ev "U9" []; ex_win; ex_win].
Definition ex_bad : list event := [ex_deal_event; ex_win; ex_go; ex_un; ex_deal_event; ex_win].
Theorem C31_refuted : exists r, new_record ex_bad = Ok r /\ concat (map g_events (r_games r)) = [ex_deal_event; ex_win].
Proof. eexists. split; [vm_compute; reflexivity|vm_compute; reflexivity]. Qed.
Theorem C31_full_refuted : ~ C31_full.
Proof.
  intros H. destruct C31_refuted as (r & E & C). destruct (H ex_bad r I E) as (head & S & F & _). rewrite C in S.
  destruct head as [|e head]; [discriminate|]. injection S as <- S. inversion F as [|? ? N _]. apply N. reflexivity.
Qed.
Example C31_ex : exists r, new_record ex_good = Ok r /\ length (r_games r) = 2%nat /\
  get_config (r_meta r) (t_ "GO") = Some (attrib ex_go).
Proof. eexists. split; [vm_compute; reflexivity|]. split; vm_compute; reflexivity. Qed.

(** ** C56: the ending events of a deal. A game can be built only from a deal that ends;
    its [end_events] are all its ending events in order. *)
Lemma first_end : forall l, match first_end_index l with
  | Ok i => filter is_game_end (skipn i l) = filter is_game_end l /\ filter is_game_end l <> []
  | Err x => x = StopIteration /\ filter is_game_end l = []
  end.
Proof.
  induction l as [|e l IH]; cbn [first_end_index filter]; auto. destruct (is_game_end e) eqn:E.
  - cbn [skipn filter]. rewrite E. split; [auto|discriminate].
  - destruct (first_end_index l) as [i|x]; cbn [bindr]; auto.
Qed.
Theorem C56_end_events : forall events r g, new_record events = Ok r -> In g (r_games r) ->
  (exists init, g_events g = init :: g_playing g /\ deals init) /\ g_end_events g <> [] /\
  (exists keep, g_end_events g = filter keep (g_playing g) /\ forall e, keep e = true <-> ends e).
Proof.
  intros es r g H I. destruct (record_inv es r H) as (head & chunks & G & _ & Ev & M).
  assert (X : exists l, In l chunks /\ new_game l = Ok g).
  { clear -M I. revert M I. generalize (r_games r). induction chunks as [|c cs IH]; intros gs M I; cbn [mapM] in M.
    - injection M as <-. destruct I.
    - destruct (new_game c) eqn:E; [|discriminate]. cbn [bindr] in M. destruct (mapM new_game cs) eqn:E2; [|discriminate]. injection M as <-.
      destruct I as [<-|I]; [exists c; split; [now left|auto]|]. destruct (IH _ eq_refl I) as (l' & A & B). exists l'. split; [now right|auto]. }
  destruct X as (l & Il & E). destruct (groups_partition es) as (gs & G' & P). rewrite G in G'. apply Ok_inj in G'. subst gs.
  apply partition_chunks in P. destruct head as [|e h]; [destruct P|]. destruct P as (_ & Ch & _). rewrite Forall_forall in Ch.
  specialize (Ch l Il). unfold new_game in E. destruct l as [|i p]; [discriminate|].
  pose proof (first_end p) as F. destruct (first_end_index p) as [n|]; [|discriminate]. cbn [bindr] in E. cbv zeta in E. peel E.
  apply Ok_inj in E. subst g. cbn [g_events g_playing g_end_events]. split; [|split].
  - exists i. split; auto. destruct Ch as (ini & oth & A & B & C & D). destruct ini as [|x ini]; [congruence|].
    injection A as <- A. now inversion C.
  - destruct F as [-> F]. exact F.
  - exists is_game_end. split; [apply F|apply end_iff].
Qed.
(** A deal without an ending event cannot be read: StopIteration. *)
Theorem C56_no_end : forall init playing, Forall (fun e => ~ ends e) playing -> new_game (init :: playing) = Err StopIteration.
Proof.
  intros i p F. unfold new_game. pose proof (first_end p) as X. destruct (first_end_index p) as [n|x].
  - exfalso. destruct X as [_ X]. apply X. clear -F. induction F as [|e p N F IH]; auto. cbn [filter].
    destruct (is_game_end e) eqn:E; auto. apply end_iff in E. contradiction.
  - destruct X as [-> _]. reflexivity.
Qed.
Example C56_ex : exists r g, new_record ex_good = Ok r /\ In g (r_games r) /\ g_end_events g = [ex_win; ex_win].
Proof. eexists _, _. split; [vm_compute; reflexivity|]. split; [right; left; reflexivity|vm_compute; reflexivity]. Qed.

(** ** C57: the players are those the first UN event of the head names, cut to the player
    count; the last event of the log alternates final score and point of every player. *)
Definition name_attr (i : nat) : text := t_ "n" ++ str_int (Z.of_nat i).
Theorem C57_players : forall events r i p, new_record events = Ok r -> nth_error (r_players r) i = Some p ->
  pl_index p = Z.of_nat i /\ Z.of_nat i < player_count (r_type r) /\
  exists un dan dans rate rates sx, get_config (r_meta r) (t_ "UN") = Some un /\
    lookup (name_attr i) un = Some (pl_name p) /\
    lookup (t_ "dan") un = Some dan /\ number_list dan = Ok dans /\ nth_error dans i = Some (pl_level p) /\
    lookup (t_ "rate") un = Some rate /\ number_list rate = Ok rates /\ nth_error rates i = Some (pl_rate p) /\
    lookup (t_ "sx") un = Some sx /\ nth_error (split_on 44 sx) i = Some (pl_sex p).
Proof.
  intros es r i p H. apply new_record_events in H. unfold read_events in H. destruct (event_groups es) as [[|head chunks]|]; try discriminate. cbn [bindr] in H.
  cbv zeta in H. destruct (rev es); [discriminate|].
  set (meta := list_of_xml_configs head) in *.
  destruct (config_attr meta (t_ "GO") (t_ "type")); [|discriminate]. cbn [bindr] in H.
  destruct (py_int _) as [tv|]; [|discriminate]. cbn [bindr] in H.
  destruct (new_game_type tv) as [gt|]; [|discriminate]. cbn [bindr] in H.
  destruct (mapM (config_attr meta (t_ "UN")) _) as [names|] eqn:En; [|discriminate]. cbn [bindr] in H.
  destruct (config_attr meta (t_ "UN") (t_ "dan")) as [dan|] eqn:Ed; [|discriminate]. cbn [bindr] in H.
  destruct (number_list dan) as [dans|] eqn:Eds; [|discriminate]. cbn [bindr] in H.
  destruct (config_attr meta (t_ "UN") (t_ "rate")) as [rate|] eqn:Er; [|discriminate]. cbn [bindr] in H.
  destruct (number_list rate) as [rates|] eqn:Ers; [|discriminate]. cbn [bindr] in H.
  destruct (config_attr meta (t_ "UN") (t_ "sx")) as [sx|] eqn:Es; [|discriminate]. cbn [bindr] in H.
  destruct (mapM new_game chunks); [|discriminate]. cbn [bindr] in H. peel H.
  apply Ok_inj in H. subst r. cbn [r_players r_type r_meta]. intros P.
  assert (G : forall n names dans rates sx i0 i, nth_error (zip_players i0 n names dans rates sx) i = Some p ->
    pl_index p = i0 + Z.of_nat i /\ (i < n)%nat /\ nth_error names i = Some (pl_name p) /\
    nth_error dans i = Some (pl_level p) /\ nth_error rates i = Some (pl_rate p) /\ nth_error sx i = Some (pl_sex p)).
  { clear. induction n as [|n IH]; intros [|na nas] [|d ds] [|ra ras] [|s sx] i0 i Q; cbn [zip_players] in Q; try (destruct i; discriminate).
    destruct i as [|i]; cbn [nth_error] in *.
    - injection Q as <-. cbn [pl_index pl_name pl_level pl_rate pl_sex]. repeat split; lia.
    - destruct (IH _ _ _ _ _ _ Q) as (A & B & C). repeat split; try lia; apply C. }
  destruct (G _ _ _ _ _ _ _ P) as (A & B & C & D & E9 & F9).
  unfold config_attr in Ed, Er, Es.
  destruct (get_config meta (t_ "UN")) as [un|] eqn:Eu; [|discriminate].
  destruct (lookup (t_ "dan") un) eqn:Ld; [|discriminate]. destruct (lookup (t_ "rate") un) eqn:Lr; [|discriminate].
  destruct (lookup (t_ "sx") un) eqn:Ls; [|discriminate].
  apply Ok_inj in Ed, Er, Es. subst.
  split; [lia|]. split; [lia|]. exists un, t, dans, t0, rates, t1.
  split; [auto|]. split; [|auto 12].
  cbn [mapM] in En. unfold config_attr in En. rewrite Eu in En.
  destruct (lookup (t_ "n0") un) eqn:N0; [|discriminate]. cbn [bindr] in En.
  destruct (lookup (t_ "n1") un) eqn:N1; [|discriminate]. cbn [bindr] in En.
  destruct (lookup (t_ "n2") un) eqn:N2; [|discriminate]. cbn [bindr] in En.
  destruct (lookup (t_ "n3") un) eqn:N3; [|discriminate]. cbn [bindr] in En. apply Ok_inj in En. subst names.
  destruct i as [|[|[|[|i]]]]; cbn [nth_error] in C; [..|destruct i; discriminate]; injection C as <-; assumption.
Qed.
Theorem C57_scores : forall events r, new_record events = Ok r ->
  exists before last owari infos, events = before ++ [last] /\ lookup (t_ "owari") (attrib last) = Some owari /\
    number_list owari = Ok infos /\
    (forall i, nth_error (r_end_score r) i = nth_error infos (2 * i)) /\
    (forall i, nth_error (r_end_point r) i = nth_error infos (2 * i + 1)).
Proof.
  assert (G : forall A (l : list A) i, nth_error (every_other l) i = nth_error l (2 * i)).
  { intros A. fix IH 1. intros [|x [|y l]] i.
    - destruct i; reflexivity.
    - destruct i as [|[|i]]; reflexivity.
    - destruct i as [|i]; [reflexivity|]. replace (2 * S i)%nat with (S (S (2 * i))) by lia. cbn [every_other nth_error]. apply IH. }
  intros es r H. apply new_record_events in H. unfold read_events in H. destruct (event_groups es) as [[|head chunks]|]; try discriminate. cbn [bindr] in H.
  cbv zeta in H. destruct (rev es) as [|last rbefore] eqn:Er; [discriminate|].
  assert (E0 : es = rev rbefore ++ [last]) by (rewrite <- (rev_involutive es), Er; reflexivity).
  repeat match type of H with
  | bindr (attr _ _) _ = Ok _ => fail 1
  | bindr ?x _ = Ok _ => destruct x; [cbn [bindr] in H|discriminate]
  end.
  destruct (attr last (t_ "owari")) as [ow|] eqn:Eo; [|discriminate]. cbn [bindr] in H.
  destruct (number_list ow) as [infos|] eqn:Ei; [|discriminate]. cbn [bindr] in H. apply Ok_inj in H. subst r. cbn [r_end_score r_end_point].
  exists (rev rbefore), last, ow, infos. split; auto. split; [|split; [auto|split]].
  - unfold attr in Eo. destruct (lookup (t_ "owari") (attrib last)); [|discriminate]. now apply Ok_inj in Eo; subst.
  - intros i. apply G.
  - intros i. rewrite G. destruct infos as [|x infos]; cbn [tl].
    + now destruct (2 * i)%nat, (2 * i + 1)%nat.
    + replace (2 * i + 1)%nat with (S (2 * i)) by lia. reflexivity.
Qed.
Example C57_ex : exists r p, new_record ex_good = Ok r /\ nth_error (r_players r) 2 = Some p /\ pl_name p = t_ "c" /\
  length (r_players r) = 4%nat /\ length (r_end_score r) = 4%nat.
Proof. eexists _, _. split; [vm_compute; reflexivity|]. split; [vm_compute; reflexivity|]. repeat split; vm_compute; reflexivity. Qed.

Print Assumptions C31_partial.
Print Assumptions C31_starts_with_deal.
Print Assumptions C31_full_refuted.
Print Assumptions C56_end_events.
Print Assumptions C56_no_end.
Print Assumptions C57_players.
Print Assumptions C57_scores.
