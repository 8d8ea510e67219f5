(** C77 and C78: quoted names, and the identifier of a log in a link. *)
From Verif Require Import Base Tile Parse Text Tenhou Event Reader StateProofs Spec_Log Prop_Reader Spec_Read Prop_Read Url Spec_Url.
From Verif Require Import Spec_Header Universe Spec_Universe Value Translator TenhouCommands Spec_Play Spec_Meld Prop_State Prop_Play Prop_Header Prop_Executor.
From Coq Require Import String List ZArith Lia Bool.
Import ListNotations.
Open Scope list_scope.
Open Scope Z_scope.

(** ** UTF-8 *)
Lemma byte_in_iff a b x : byte_in a b x = true <-> a <= x <= b.
Proof. unfold byte_in. rewrite andb_true_iff, !Z.leb_le. lia. Qed.
Lemma byte_in_false a b x : x < a \/ b < x -> byte_in a b x = false.
Proof. intro H. unfold byte_in. apply andb_false_iff. rewrite !Z.leb_gt. lia. Qed.
Lemma digits64 c : 0 <= c -> c = (c / 262144) * 262144 + (c / 4096 mod 64) * 4096 + (c / 64 mod 64) * 64 + c mod 64.
Proof.
  intro H. pose proof (Z.div_mod c 64 ltac:(lia)). pose proof (Z.div_mod (c / 64) 64 ltac:(lia)). pose proof (Z.div_mod (c / 4096) 64 ltac:(lia)).
  replace (c / 4096) with (c / 64 / 64) in * by (rewrite Z.div_div by lia; reflexivity).
  replace (c / 262144) with (c / 64 / 64 / 64) in * by (rewrite !Z.div_div by lia; reflexivity). lia.
Qed.
Lemma cont_ok x : 0 <= x < 64 -> cont_byte (128 + x) = true.
Proof. intro H. apply byte_in_iff. lia. Qed.
Lemma decode_utf8 c rest : scalar c -> utf8_decode (utf8 c ++ rest) = c :: utf8_decode rest.
Proof.
  intro U. assert (C : 0 <= c < 1114112) by (unfold scalar in U; lia). unfold utf8.
  pose proof (digits64 c ltac:(lia)) as D. pose proof (Z.mod_pos_bound c 64 ltac:(lia)) as M0.
  pose proof (Z.mod_pos_bound (c / 64) 64 ltac:(lia)) as M1. pose proof (Z.mod_pos_bound (c / 4096) 64 ltac:(lia)) as M2.
  destruct (Z.ltb_spec c 128) as [L|L].
  - cbn [app utf8_decode]. now rewrite (proj2 (Z.ltb_lt c 128) L).
  - destruct (Z.ltb_spec c 2048) as [L2|L2].
    + assert (B : 2 <= c / 64 < 32) by (split; [apply Z.div_le_lower_bound; lia|apply Z.div_lt_upper_bound; lia]).
      cbn [app utf8_decode]. rewrite (proj2 (Z.ltb_ge _ 128)) by lia.
      replace (byte_in 194 223 (192 + c / 64)) with true by (symmetry; apply byte_in_iff; lia).
      rewrite (cont_ok _ M0). f_equal. pose proof (Z.div_mod c 64 ltac:(lia)). lia.
    + destruct (Z.ltb_spec c 65536) as [L3|L3].
      * assert (B : 0 <= c / 4096 < 16) by (split; [apply Z.div_le_lower_bound; lia|apply Z.div_lt_upper_bound; lia]).
        assert (Z0 : c / 262144 = 0) by (apply Z.div_small; lia). assert (S4 : c / 4096 mod 64 = c / 4096) by (apply Z.mod_small; lia).
        cbn [app utf8_decode]. rewrite (proj2 (Z.ltb_ge _ 128)) by lia. rewrite (byte_in_false 194 223) by lia.
        replace (byte_in 224 239 (224 + c / 4096)) with true by (symmetry; apply byte_in_iff; lia).
        replace (second_of_three (224 + c / 4096) (128 + c / 64 mod 64)) with true.
        -- rewrite (cont_ok _ M0). f_equal. lia.
        -- symmetry. unfold second_of_three. destruct (Z.eqb_spec (224 + c / 4096) 224) as [E|E].
           { apply byte_in_iff. lia. }
           destruct (Z.eqb_spec (224 + c / 4096) 237) as [E'|E']; [|apply cont_ok; exact M1].
           apply byte_in_iff. unfold scalar in U. lia.
      * assert (B : 0 <= c / 262144 < 5) by (split; [apply Z.div_le_lower_bound; lia|apply Z.div_lt_upper_bound; lia]).
        cbn [app utf8_decode]. rewrite (proj2 (Z.ltb_ge _ 128)) by lia. rewrite (byte_in_false 194 223) by lia. rewrite (byte_in_false 224 239) by lia.
        replace (byte_in 240 244 (240 + c / 262144)) with true by (symmetry; apply byte_in_iff; lia).
        replace (second_of_four (240 + c / 262144) (128 + c / 4096 mod 64)) with true.
        -- rewrite (cont_ok _ M1), (cont_ok _ M0). f_equal. lia.
        -- symmetry. unfold second_of_four. destruct (Z.eqb_spec (240 + c / 262144) 240) as [E|E].
           { apply byte_in_iff. lia. }
           destruct (Z.eqb_spec (240 + c / 262144) 244) as [E'|E']; [|apply cont_ok; exact M2].
           apply byte_in_iff. lia.
Qed.

(** ** Escapes *)
Lemma hex_read v h : hex v h -> hex_digit h = Some v /\ h < 128.
Proof.
  intro H. destruct H as [v B|v B|v B]; unfold hex_digit.
  - replace ((48 <=? 48 + v) && (48 + v <=? 57)) with true by (symmetry; apply andb_true_iff; rewrite !Z.leb_le; lia). split; [f_equal|]; lia.
  - replace ((48 <=? 55 + v) && (55 + v <=? 57)) with false by (symmetry; apply andb_false_iff; rewrite !Z.leb_gt; lia).
    replace ((65 <=? 55 + v) && (55 + v <=? 70)) with true by (symmetry; apply andb_true_iff; rewrite !Z.leb_le; lia). split; [f_equal|]; lia.
  - replace ((48 <=? 87 + v) && (87 + v <=? 57)) with false by (symmetry; apply andb_false_iff; rewrite !Z.leb_gt; lia).
    replace ((65 <=? 87 + v) && (87 + v <=? 70)) with false by (symmetry; apply andb_false_iff; rewrite !Z.leb_gt; lia).
    replace ((97 <=? 87 + v) && (87 + v <=? 102)) with true by (symmetry; apply andb_true_iff; rewrite !Z.leb_le; lia). split; [f_equal|]; lia.
Qed.
Lemma unquote_escaped bs e rest : escaped bs e -> unquote_to_bytes (e ++ rest) = bs ++ unquote_to_bytes rest.
Proof.
  intro H. induction H as [|b bs h l s Hh Hl H IH]; [reflexivity|].
  cbn [app unquote_to_bytes]. rewrite (proj1 (hex_read _ _ Hh)), (proj1 (hex_read _ _ Hl)), IH. change (37 =? 37) with true. cbn match.
  f_equal. pose proof (Z.div_mod b 16 ltac:(lia)). lia.
Qed.
Lemma escaped_ascii bs e : escaped bs e -> Forall (fun c => c < 128) e.
Proof.
  intro H. induction H as [|b bs h l s Hh Hl H IH]; constructor; [lia|]. constructor; [exact (proj2 (hex_read _ _ Hh))|].
  constructor; [exact (proj2 (hex_read _ _ Hl))|exact IH].
Qed.
(** The leading ASCII run of a text, and what [unquote] makes of the rest. *)
Fixpoint ascii_run (s : text) : text :=
  match s with [] => [] | c :: r => if c <? 128 then c :: ascii_run r else [] end.
Fixpoint after_run (s : text) : text :=
  match s with [] => [] | c :: r => if c <? 128 then after_run r else c :: unquote_runs [] r end.
Lemma runs_split s : forall run, unquote_runs run s = utf8_decode (unquote_to_bytes (rev run ++ ascii_run s)) ++ after_run s.
Proof.
  induction s as [|c r IH]; intro run; cbn [unquote_runs ascii_run after_run].
  - now rewrite !app_nil_r.
  - destruct (Z.ltb_spec c 128) as [L|L]; [|now rewrite app_nil_r]. rewrite IH. cbn [rev]. now rewrite <- app_assoc.
Qed.
Lemma run_app a s : Forall (fun c => c < 128) a -> ascii_run (a ++ s) = a ++ ascii_run s /\ after_run (a ++ s) = after_run s.
Proof.
  intro F. induction F as [|c a L F IH]; [split; reflexivity|]. cbn [app ascii_run after_run]. rewrite (proj2 (Z.ltb_lt c 128) L).
  destruct IH as [-> ->]. split; reflexivity.
Qed.
Lemma runs_quoted name s : quotes name s -> unquote_runs [] s = name.
Proof.
  intro Q. induction Q as [|c name s N Q IH|c e name s U E Q IH]; [reflexivity| |]; rewrite runs_split in *; cbn [rev app] in *.
  - cbn [ascii_run after_run]. destruct (Z.ltb_spec c 128) as [L|L].
    + cbn [unquote_to_bytes]. rewrite (proj2 (Z.eqb_neq c 37) N). cbn [utf8_decode]. rewrite (proj2 (Z.ltb_lt c 128) L). cbn [app]. now rewrite IH.
    + cbn [unquote_to_bytes utf8_decode app]. f_equal. rewrite runs_split. exact IH.
  - destruct (run_app e s (escaped_ascii _ _ E)) as [-> ->]. rewrite (unquote_escaped _ _ _ E), (decode_utf8 _ _ U). cbn [app]. now rewrite IH.
Qed.
(** A quoted name is read as the name. *)
Theorem C77_unquote : forall name s, quotes name s -> py_unquote s = name.
Proof.
  intros name s Q. unfold py_unquote. destruct (existsb (Z.eqb 37) s) eqn:X; [exact (runs_quoted _ _ Q)|].
  induction Q as [|c name s N Q IH|c e name s U E Q IH]; [reflexivity| |].
  - f_equal. apply IH. cbn [existsb] in X. now apply orb_false_iff in X.
  - destruct e as [|h e].
    + exfalso. assert (B : utf8 c = []) by (inversion E; reflexivity). revert B. clear. unfold utf8.
      destruct (c <? 128); [discriminate|]. destruct (c <? 2048); [discriminate|]. destruct (c <? 65536); discriminate.
    + exfalso. inversion E; subst. cbn [app existsb] in X. change (37 =? 37) with true in X. discriminate X.
Qed.
(** Every name has a quoted form, so the theorem speaks about all names: the form that escapes
    every character. *)
Definition escape_byte (b : Z) : text := let h v := if v <? 10 then 48 + v else 55 + v in [37; h (b / 16); h (b mod 16)].
Definition quote_all (name : text) : text := flat_map (fun c => flat_map escape_byte (utf8 c)) name.
Lemma hex_written v : 0 <= v < 16 -> hex v (if v <? 10 then 48 + v else 55 + v).
Proof. intro B. destruct (Z.ltb_spec v 10); constructor; lia. Qed.
Lemma utf8_range c : scalar c -> Forall (fun b => 0 <= b < 256) (utf8 c).
Proof.
  intro U. assert (C : 0 <= c < 1114112) by (unfold scalar in U; lia). unfold utf8.
  pose proof (Z.mod_pos_bound c 64 ltac:(lia)) as M0.
  pose proof (Z.mod_pos_bound (c / 64) 64 ltac:(lia)) as M1. pose proof (Z.mod_pos_bound (c / 4096) 64 ltac:(lia)) as M2.
  destruct (Z.ltb_spec c 128) as [L|L]; [constructor; [lia|constructor]|].
  destruct (Z.ltb_spec c 2048) as [L2|L2].
  - assert (B : 0 <= c / 64 < 32) by (split; [apply Z.div_le_lower_bound; lia|apply Z.div_lt_upper_bound; lia]). repeat (constructor; [lia|]). constructor.
  - destruct (Z.ltb_spec c 65536) as [L3|L3].
    + assert (B : 0 <= c / 4096 < 16) by (split; [apply Z.div_le_lower_bound; lia|apply Z.div_lt_upper_bound; lia]). repeat (constructor; [lia|]). constructor.
    + assert (B : 0 <= c / 262144 < 5) by (split; [apply Z.div_le_lower_bound; lia|apply Z.div_lt_upper_bound; lia]). repeat (constructor; [lia|]). constructor.
Qed.
Theorem C77_all_names : forall name, Forall scalar name -> quotes name (quote_all name).
Proof.
  intros name F. induction F as [|c name U F IH]; [constructor|]. unfold quote_all. cbn [flat_map]. apply q_escaped; [exact U| |exact IH].
  pose proof (utf8_range c U) as R. induction R as [|b bs B R IHb]; [constructor|]. cbn [flat_map]. unfold escape_byte. cbn [app].
  apply esc_cons; [apply hex_written|apply hex_written|exact IHb].
  - split; [apply Z.div_pos; lia|apply Z.div_lt_upper_bound; lia].
  - apply Z.mod_pos_bound. lia.
Qed.

(** ** The names of a record *)
Lemma record_meta head ds events r : good_log head ds events -> new_record events = Ok r -> r_meta r = list_of_xml_configs head.
Proof.
  intros (E & (Hh & (go & v & Fg & _) & _) & D & _) H. destruct (record_inv _ _ H) as (h & chunks & Eg & M & _).
  assert (Nh : head <> []) by (intros ->; inversion Fg). rewrite E, groups_found in Eg by auto. assert (X : h = head) by congruence. now rewrite <- X.
Qed.
(** The players of a complete log have the names that its player event quotes. *)
Theorem C77_players : forall head ds events r un i p name s, good_log head ds events -> new_record events = Ok r ->
  first_with (t_ "UN") head un -> nth_error (r_players r) i = Some p ->
  holds un (t_ "n" ++ str_int (Z.of_nat i)) s -> quotes name s -> player_name p = name.
Proof.
  intros head ds events r un i p name s G H Fu N Hs Q. destruct (C57_players _ _ _ _ H N) as (_ & B & un' & _ & _ & _ & _ & _ & C & L & _).
  rewrite (record_meta _ _ _ _ G H), (config_first _ _ _ Fu) in C. injection C as <-.
  assert (I4 : (i < 4)%nat). { unfold player_count in B. destruct (gt_flag _ _) in B; lia. }
  assert (A : name_attr i = t_ "n" ++ str_int (Z.of_nat i)) by (clear -I4; destruct i as [|[|[|[|i]]]]; [reflexivity..|lia]).
  rewrite A in L. unfold holds in Hs. rewrite Hs in L. injection L as L. unfold player_name. rewrite <- L. exact (C77_unquote _ _ Q).
Qed.
(** So has the universal format. *)
Theorem C77_universal : forall so strict es e p s name cmds, seat p -> last_such (announced p) e es ->
  holds e (t_ "n" ++ str_int p) s -> quotes name s ->
  to_commands (tenhou_command py_unquote so) strict es = Ok cmds ->
  holds_after cmds (Some p, PV_name) (Some (VStr name)).
Proof.
  intros so strict es e p s name cmds P L Hs Q H. rewrite <- (C77_unquote _ _ Q). exact (C75_name _ _ _ _ _ _ _ _ P L Hs H).
Qed.

(** ** Links *)
Lemma cut_none c s : ~ In c s -> cut c s = (s, None).
Proof.
  induction s as [|x s IH]; intro N; [reflexivity|]. cbn [cut]. rewrite (proj2 (Z.eqb_neq x c)) by (intros ->; apply N; now left).
  rewrite IH by (intro I; apply N; now right). reflexivity.
Qed.
Lemma cut_at c s r : ~ In c s -> cut c (s ++ c :: r) = (s, Some r).
Proof.
  induction s as [|x s IH]; intro N; cbn [cut app]; [now rewrite Z.eqb_refl|]. rewrite (proj2 (Z.eqb_neq x c)) by (intros ->; apply N; now left).
  rewrite IH by (intro I; apply N; now right). reflexivity.
Qed.
Lemma word_without c s : word s -> In c [35; 37; 38; 43; 59; 61; 63] -> ~ In c s.
Proof.
  intros W I J. unfold word in W. rewrite Forall_forall in W. specialize (W c J). unfold unreserved in W. cbn [In] in I, W. lia.
Qed.
Lemma word_plain s : word s -> py_unquote (plus_to_space s) = s.
Proof.
  intro W. assert (E : plus_to_space s = s).
  { pose proof (word_without 43 s W ltac:(cbn; tauto)) as N. clear W. induction s as [|c s IH]; [reflexivity|]. unfold plus_to_space in *. cbn [map].
    rewrite IH by (intro I; apply N; now right). rewrite (proj2 (Z.eqb_neq c 43)) by (intros ->; apply N; now left). reflexivity. }
  rewrite E. unfold py_unquote. replace (existsb (Z.eqb 37) s) with false; [reflexivity|]. symmetry. apply Bool.not_true_is_false. intro X.
  apply existsb_exists in X. destruct X as (c & I & Q). apply Z.eqb_eq in Q. subst c. exact (word_without 37 s W ltac:(cbn; tauto) I).
Qed.
Lemma param_without c ps : plain_params ps -> In c [35; 38; 59; 63] -> Forall (fun s => ~ In c s) (map param_text ps).
Proof.
  intros W I. apply Forall_forall. intros s J. apply in_map_iff in J. destruct J as ((k & v) & <- & J). unfold plain_params in W. rewrite Forall_forall in W.
  destruct (W _ J) as [Wk Wv]. cbn [fst snd] in *. unfold param_text. cbn [fst snd]. intro X. apply in_app_or in X. destruct X as [X|X]; [exact (word_without c k Wk ltac:(cbn in *; tauto) X)|].
  apply in_app_or in X. destruct X as [X|X]; [|exact (word_without c v Wv ltac:(cbn in *; tauto) X)]. cbn in X, I. lia.
Qed.
Lemma join_without c sep l : ~ In c sep -> Forall (fun s => ~ In c s) l -> ~ In c (join sep l).
Proof.
  intros N F. induction F as [|s l H F IH]; cbn [join]; [intros []|]. destruct l as [|s' l]; [exact H|].
  intro X. apply in_app_or in X. destruct X as [X|X]; [now apply H|]. apply in_app_or in X. destruct X as [X|X]; [now apply N|now apply IH].
Qed.
Lemma link_query base ps frag : plain_base base -> plain_params ps -> url_query (link base ps frag) = params_text ps.
Proof.
  intros B P. unfold url_query, link, params_text.
  assert (N35 : ~ In 35 (base ++ t_ "?" ++ join (t_ "&") (map param_text ps))).
  { intro X. apply in_app_or in X. destruct X as [X|X]; [unfold plain_base in B; rewrite Forall_forall in B; destruct (B _ X); congruence|].
    apply in_app_or in X. destruct X as [X|X]; [cbn in X; lia|]. revert X. apply join_without; [cbn; lia|apply param_without; [exact P|cbn; tauto]]. }
  assert (N63 : ~ In 63 base) by (intro X; unfold plain_base in B; rewrite Forall_forall in B; destruct (B _ X); congruence).
  assert (C : fst (cut 35 (base ++ t_ "?" ++ join (t_ "&") (map param_text ps) ++ match frag with Some f => t_ "#" ++ f | None => [] end))
            = base ++ t_ "?" ++ join (t_ "&") (map param_text ps)).
  { destruct frag as [f|]; [|now rewrite app_nil_r, cut_none by exact N35].
    replace (base ++ t_ "?" ++ join (t_ "&") (map param_text ps) ++ t_ "#" ++ f) with ((base ++ t_ "?" ++ join (t_ "&") (map param_text ps)) ++ 35 :: f)
      by (now rewrite <- !app_assoc). now rewrite cut_at by exact N35. }
  rewrite C. change (t_ "?") with [63]. cbn [app]. now rewrite cut_at by exact N63.
Qed.
Lemma pair_read p : word (fst p) -> word (snd p) -> query_pair (param_text p) = match snd p with [] => [] | _ => [p] end.
Proof.
  destruct p as [k v]. cbn [fst snd]. intros Wk Wv. unfold query_pair, param_text. cbn [fst snd]. change (t_ "=") with [61]. cbn [app].
  rewrite cut_at by (exact (word_without 61 k Wk ltac:(cbn; tauto))). destruct v as [|c v]; [reflexivity|]. now rewrite (word_plain _ Wk), (word_plain _ Wv).
Qed.
Lemma parts_read semi ps : plain_params ps -> ps <> [] -> query_parts semi (params_text ps) = map param_text ps.
Proof.
  intros P N. unfold query_parts, params_text. change (t_ "&") with [38].
  rewrite split_join; [|destruct ps; [congruence|discriminate]|apply param_without; [exact P|cbn; tauto]].
  destruct semi; [|reflexivity]. pose proof (param_without 59 ps P ltac:(cbn; tauto)) as F. induction F as [|s l H F IH]; [reflexivity|].
  cbn [flat_map]. rewrite split_on_none by exact H. cbn [app]. f_equal. exact IH.
Qed.
Lemma pairs_read semi ps : plain_params ps -> parse_qsl semi (params_text ps) = filter (fun p => negb (match snd p with [] => true | _ => false end)) ps.
Proof.
  intro P. destruct ps as [|p ps]; [unfold parse_qsl, query_parts; destruct semi; reflexivity|].
  unfold parse_qsl. rewrite parts_read by (auto; discriminate). induction P as [|q l [Wk Wv] P IH]; [reflexivity|]. cbn [map flat_map filter].
  rewrite pair_read by assumption. rewrite IH. destruct q as [k v]. cbn [snd]. destruct v; reflexivity.
Qed.
Lemma first_log l id before after : l = before ++ (t_ "log", id) :: after -> Forall (fun p => fst p = t_ "log" -> snd p = []) before -> id <> [] ->
  first_value (t_ "log") (filter (fun p => negb (match snd p with [] => true | _ => false end)) l) = Ok id.
Proof.
  intros -> F N. induction F as [|[k v] b H F IH]; cbn [app filter snd].
  - destruct id as [|c id]; [congruence|]. reflexivity.
  - cbn [fst snd] in H. destruct v as [|c v]; [exact IH|]. cbn [negb first_value].
    destruct (text_eqb k (t_ "log")) eqn:Q; [|exact IH]. apply text_eqb_iff in Q. specialize (H Q). discriminate H.
Qed.
(** The identifier is found in a link, wherever it stands among the parameters. *)
Theorem C78_link : forall semicolons base ps frag id, plain_base base -> plain_params ps -> names_log ps id ->
  log_id_from_url semicolons (link base ps frag) = Ok id /\
  download_url semicolons (link base ps frag) = Ok (t_ "http://e.mjv.jp/0/log/?" ++ id).
Proof.
  intros semi base ps frag id B P (b & a & E & N & F).
  assert (H : log_id_from_url semi (link base ps frag) = Ok id).
  { unfold log_id_from_url. rewrite link_query, pairs_read by assumption. exact (first_log _ _ _ _ E F N). }
  split; [exact H|]. unfold download_url. rewrite H. reflexivity.
Qed.
(** Without one there is a KeyError. *)
Theorem C78_none : forall semicolons base ps frag, plain_base base -> plain_params ps ->
  (forall v, In (t_ "log", v) ps -> v = []) ->
  log_id_from_url semicolons (link base ps frag) = Err KeyError /\ download_url semicolons (link base ps frag) = Err KeyError.
Proof.
  intros semi base ps frag B P F.
  assert (H : log_id_from_url semi (link base ps frag) = Err KeyError).
  { unfold log_id_from_url. rewrite link_query, pairs_read by assumption. clear P. induction ps as [|[k v] ps IH]; [reflexivity|].
    cbn [filter snd]. specialize (IH (fun v I => F v (or_intror I))). destruct v as [|c v]; [exact IH|]. cbn [negb first_value].
    destruct (text_eqb k (t_ "log")) eqn:Q; [|exact IH]. apply text_eqb_iff in Q. subst k. discriminate (F _ (or_introl eq_refl)). }
  split; [exact H|]. unfold download_url. rewrite H. reflexivity.
Qed.
(** Making a link and reading it back. *)
Theorem C78_roundtrip : forall semicolons id, word id -> id <> [] -> log_id_from_url semicolons (log_id_to_url id) = Ok id.
Proof.
  intros semi id W N.
  replace (log_id_to_url id) with (link (t_ "http://tenhou.net/0/") [(t_ "log", id)] None).
  - apply C78_link; [| |exists [], []; repeat split; auto].
    + apply Forall_forall. intros c I. vm_compute in I. repeat (destruct I as [<-|I]; [split; discriminate|]). destruct I.
    + constructor; [|constructor]. split; [|exact W]. apply Forall_forall. intros c I. cbn [fst] in I. vm_compute in I.
      unfold unreserved. cbn [In]. lia.
  - unfold link, params_text, log_id_to_url. cbn [map join fst snd]. rewrite app_nil_r. reflexivity.
Qed.

(** ** Cases *)
Definition ex_quoted : text := t_ "%E3%81%82a%25%f0%9F%80%84".
Lemma ex_quotes : quotes [12354; 97; 37; 126980] ex_quoted.
Proof.
  change ex_quoted with (t_ "%E3%81%82" ++ t_ "a" ++ t_ "%25" ++ t_ "%f0%9F%80%84" ++ []).
  apply q_escaped; [left; lia| |].
  { apply (esc_cons 227 [129; 130] 69 51); [apply (hex_upper 14); lia|apply (hex_09 3); lia|].
    apply (esc_cons 129 [130] 56 49); [apply (hex_09 8); lia|apply (hex_09 1); lia|].
    apply (esc_cons 130 [] 56 50); [apply (hex_09 8); lia|apply (hex_09 2); lia|constructor]. }
  apply q_plain; [discriminate|]. apply q_escaped; [left; lia| |].
  { apply (esc_cons 37 [] 50 53); [apply (hex_09 2); lia|apply (hex_09 5); lia|constructor]. }
  apply q_escaped; [right; lia| |constructor].
  apply (esc_cons 240 [159; 128; 132] 102 48); [apply (hex_lower 15); lia|apply (hex_09 0); lia|].
  apply (esc_cons 159 [128; 132] 57 70); [apply (hex_09 9); lia|apply (hex_upper 15); lia|].
  apply (esc_cons 128 [132] 56 48); [apply (hex_09 8); lia|apply (hex_09 0); lia|].
  apply (esc_cons 132 [] 56 52); [apply (hex_09 8); lia|apply (hex_09 4); lia|constructor].
Qed.
Example C77_case : py_unquote ex_quoted = [12354; 97; 37; 126980].
Proof. exact (C77_unquote _ _ ex_quotes). Qed.
Example C77_players_case : exists r, new_record ex_good = Ok r /\ map player_name (r_players r) = [t_ "a"; t_ "b"; t_ "c"; t_ "d"].
Proof.
  destruct (C71_reads _ _ _ C71_case) as (r & E & _). exists r. split; [exact E|].
  assert (L : length (r_players r) = 4%nat) by (vm_compute in E; injection E as <-; reflexivity).
  assert (G : forall i p c, nth_error (r_players r) i = Some p -> holds ex_un (t_ "n" ++ str_int (Z.of_nat i)) [c] -> c <> 37 -> player_name p = [c]).
  { intros i p c N H C. refine (C77_players _ _ _ _ ex_un i p [c] [c] C71_case E _ N H _).
    - apply fw_later; [discriminate|]. apply fw_later; [discriminate|]. apply fw_here. reflexivity.
    - apply q_plain; [exact C|constructor]. }
  destruct (r_players r) as [|p0 [|p1 [|p2 [|p3 [|]]]]]; try discriminate L. cbn [map].
  rewrite (G 0%nat p0 97 eq_refl eq_refl ltac:(discriminate)), (G 1%nat p1 98 eq_refl eq_refl ltac:(discriminate)),
    (G 2%nat p2 99 eq_refl eq_refl ltac:(discriminate)), (G 3%nat p3 100 eq_refl eq_refl ltac:(discriminate)). reflexivity.
Qed.
Definition ex_back : event := ex_event (t_ "UN") [(t_ "n3", ex_quoted)].
Example C77_universal_case : exists cmds, to_commands (tenhou_command py_unquote (fun l => l)) true (hd_log ++ [ex_back]) = Ok cmds /\
  holds_after cmds (Some 3, PV_name) (Some (VStr [12354; 97; 37; 126980])).
Proof.
  destruct (to_commands (tenhou_command py_unquote (fun l => l)) true (hd_log ++ [ex_back])) as [cmds|] eqn:E; [|vm_compute in E; discriminate E].
  exists cmds. split; [reflexivity|]. refine (C77_universal _ _ (hd_log ++ [ex_back]) ex_back 3 ex_quoted _ _ ltac:(unfold seat; lia) _ eq_refl ex_quotes E).
  last_at 7%nat; [|none]. exists ex_quoted. split; [reflexivity|]. split; [reflexivity|]. exists 37. split; [now left|]. vm_compute. intuition discriminate.
Qed.
Example C78_case : forall semicolons, log_id_from_url semicolons (t_ "http://tenhou.net/0/?tw=2&log=2019010100gm-0009-0000-1a2b3c4d#top") = Ok (t_ "2019010100gm-0009-0000-1a2b3c4d").
Proof.
  intro semi. assert (W : forall s, forallb (fun c => (48 <=? c) && (c <=? 57) || ((97 <=? c) && (c <=? 122)) || (c =? 45)) s = true -> word s).
  { intros s F. apply Forall_forall. intros c I. rewrite forallb_forall in F. specialize (F c I). unfold unreserved. cbn [In].
    rewrite !orb_true_iff, !andb_true_iff, !Z.leb_le, Z.eqb_eq in F. lia. }
  refine (proj1 (C78_link semi (t_ "http://tenhou.net/0/") [(t_ "tw", t_ "2"); (t_ "log", t_ "2019010100gm-0009-0000-1a2b3c4d")] (Some (t_ "top")) _ _ _ _)).
  - apply Forall_forall. intros c I. vm_compute in I. repeat (destruct I as [<-|I]; [split; discriminate|]). destruct I.
  - repeat (constructor; [split; apply W; reflexivity|]). constructor.
  - exists [(t_ "tw", t_ "2")], []. split; [reflexivity|]. split; [discriminate|]. constructor; [intro H; discriminate H|constructor].
Qed.
Print Assumptions C77_unquote.
Print Assumptions C77_all_names.
Print Assumptions C77_players.
Print Assumptions C77_universal.
Print Assumptions C78_link.
Print Assumptions C78_none.
Print Assumptions C78_roundtrip.
