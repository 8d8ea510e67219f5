(** C86-C89: the report pages. *)
From Verif Require Import Base Category Tile TileSet Parse Text Tenhou Event Reader Url State Checker Show Report.
From Verif Require Import Spec_Tile Spec_Log Spec_Checker Spec_Read Spec_Report StateProofs Prop_Meld Prop_Checker Prop_Reader Prop_Show.
From Coq Require Import String List ZArith Lia Bool.
Import ListNotations.
Open Scope list_scope.
Open Scope Z_scope.

(** ** Typed numbers *)
Lemma digits_val_snoc s d : digits_val (s ++ [48 + d]) = 10 * digits_val s + d.
Proof. unfold digits_val. rewrite fold_left_app. cbn [fold_left]. lia. Qed.
Lemma spells_read s n : spells s n -> s <> [] /\ forallb ch_digit s = true /\ digits_val s = n.
Proof.
  assert (D : forall d, 0 <= d <= 9 -> ch_digit (48 + d) = true) by (intros d B; unfold ch_digit; apply andb_true_iff; split; apply Z.leb_le; lia).
  induction 1 as [d B|s n d H (A & F & V) B].
  - split; [discriminate|]. split; [cbn [forallb]; now rewrite D|]. unfold digits_val. cbn [fold_left]. lia.
  - split; [destruct s; discriminate|]. split; [rewrite forallb_app, F; cbn [forallb]; now rewrite D|]. rewrite digits_val_snoc. lia.
Qed.
Lemma digits_spell : forall s, s <> [] -> forallb ch_digit s = true -> spells s (digits_val s).
Proof.
  induction s as [|c s IH] using rev_ind; intros N F; [congruence|]. clear N. rewrite forallb_app in F. apply andb_true_iff in F as [F C].
  cbn [forallb] in C. rewrite andb_true_r in C. unfold ch_digit in C. apply andb_true_iff in C as [C1 C2]. apply Z.leb_le in C1, C2.
  replace c with (48 + (c - 48)) by lia. rewrite digits_val_snoc. destruct s as [|x s].
  - cbn [app]. replace (10 * digits_val [] + (c - 48)) with (c - 48) by (cbn; lia). constructor. lia.
  - apply sp_more; [apply IH; [discriminate|exact F]|lia].
Qed.
Lemma int_digits s : s <> [] -> forallb ch_digit s = true -> py_int s = Ok (digits_val s).
Proof.
  intros N F. unfold py_int. destruct s as [|c s]; [congruence|]. cbn [forallb] in F. apply andb_true_iff in F as [C F].
  assert (B : 48 <= c <= 57) by (unfold ch_digit in C; apply andb_true_iff in C as [A B]; apply Z.leb_le in A, B; lia).
  assert (X : forallb ch_digit (c :: s) = true) by (cbn [forallb]; now rewrite C, F).
  destruct c as [|c|c]; try lia. do 6 (try (destruct c as [c|c|]; try lia)); rewrite X; reflexivity.
Qed.

(** ** C87: who gets a report *)
(** Typing the number of a player selects that player. *)
Theorem C87_one : forall players input k, spells input k -> 1 <= k <= Z.of_nat (length players) ->
  exists p, nth_error players (Z.to_nat (k - 1)) = Some p /\ planned_players players input = Ok [p].
Proof.
  intros players input k S B. destruct (spells_read _ _ S) as (N & F & V).
  destruct (nth_error players (Z.to_nat (k - 1))) as [p|] eqn:E; [|apply nth_error_None in E; lia]. exists p. split; [reflexivity|].
  unfold planned_players, is_digit_text. destruct input as [|c s]; [congruence|]. rewrite F, (int_digits _ N F), V. cbn [bindr].
  replace (1 <=? k) with true by (symmetry; apply Z.leb_le; lia). replace (k <? _) with true by (symmetry; apply Z.ltb_lt; lia). cbn [andb].
  rewrite (nth_at players (k - 1) p) by (auto; lia). reflexivity.
Qed.
(** Typing anything else selects all of them. *)
Theorem C87_all : forall players input, (forall k, spells input k -> ~ 1 <= k <= Z.of_nat (length players)) ->
  planned_players players input = Ok players.
Proof.
  intros players input H. unfold planned_players, is_digit_text. destruct input as [|c s]; [reflexivity|].
  destruct (forallb ch_digit (c :: s)) eqn:F; [|reflexivity]. rewrite int_digits by (auto; discriminate). cbn [bindr].
  specialize (H _ (digits_spell (c :: s) ltac:(discriminate) F)).
  destruct (_ && _) eqn:E; [|reflexivity]. apply andb_true_iff in E as [A B]. apply Z.leb_le in A. apply Z.ltb_lt in B. lia.
Qed.
Lemma planned_total players input : exists l, planned_players players input = Ok l /\ (l = players \/ exists p, In p players /\ l = [p]).
Proof.
  unfold planned_players. destruct (is_digit_text input) eqn:D; [|eauto]. unfold is_digit_text in D. destruct input as [|c s]; [discriminate|].
  rewrite int_digits by (auto; discriminate). cbn [bindr]. destruct (_ && _) eqn:E; [|eauto].
  apply andb_true_iff in E as [A B]. apply Z.leb_le in A. apply Z.ltb_lt in B.
  destruct (nth_error players (Z.to_nat (digits_val (c :: s) - 1))) as [p|] eqn:X; [|apply nth_error_None in X; lia].
  rewrite (nth_at players _ p) by (auto; lia). exists [p]. split; [reflexivity|]. right. exists p. split; [now apply nth_error_In in X|reflexivity].
Qed.

(** ** C86: file names *)
Lemma from_right (a b x y : list Z) (c : Z) : ~ In c x -> ~ In c y -> a ++ c :: x = b ++ c :: y -> a = b /\ x = y.
Proof.
  intros X Y E. apply (f_equal (@rev Z)) in E. rewrite !rev_app_distr in E. cbn [rev] in E. rewrite <- !app_assoc in E. cbn [app] in E.
  assert (G : forall u v p q, ~ In c u -> ~ In c v -> u ++ c :: p = v ++ c :: q -> u = v /\ p = q).
  { clear. induction u as [|h u IH]; intros [|g v] p q U V E; cbn [app] in E.
    - injection E as ->. auto.
    - injection E as E1 _. exfalso. apply V. now left.
    - injection E as E1 _. exfalso. apply U. now left.
    - injection E as -> E. cbn [In] in U, V. destruct (IH v p q) as [-> ->]; auto. }
  destruct (G (rev x) (rev y) (rev a) (rev b)) as [P Q]; [rewrite <- in_rev; exact X|rewrite <- in_rev; exact Y|exact E|].
  split; [rewrite <- (rev_involutive a), Q; apply rev_involutive|rewrite <- (rev_involutive x), P; apply rev_involutive].
Qed.
Lemma from_left (c : Z) : forall u v p q, ~ In c u -> ~ In c v -> u ++ c :: p = v ++ c :: q -> u = v /\ p = q.
Proof.
  induction u as [|h u IH]; intros [|g v] p q U V E; cbn [app] in E.
  - injection E as ->. auto.
  - injection E as E1 _. exfalso. apply V. now left.
  - injection E as E1 _. exfalso. apply U. now left.
  - injection E as -> E. cbn [In] in U, V. destruct (IH v p q) as [-> ->]; auto.
Qed.
Lemma number_ends a b : 0 <= a -> 0 <= b -> forall x y, x ++ t_ "_" ++ str_int a ++ t_ ".html" = y ++ t_ "_" ++ str_int b ++ t_ ".html" -> x = y /\ a = b.
Proof.
  intros A B x y E. change (t_ "_") with [95] in E. cbn [app] in E.
  assert (W : forall n, 0 <= n -> ~ In 95 (str_int n ++ t_ ".html")).
  { intros n H I. apply in_app_iff in I as [I|I].
    - destruct (str_int_nonneg n H) as (_ & F & _). rewrite forallb_forall in F. apply F in I. discriminate.
    - cbn in I. repeat (destruct I as [I|I]; [discriminate I|]). exact I. }
  apply from_right in E as [-> E]; [|now apply W|now apply W]. split; [reflexivity|].
  change (t_ ".html") with (46 :: t_ "html") in E. apply str_int_end in E; [tauto|reflexivity|discriminate].
Qed.
(** Within one log, the reports of different players go to different files. *)
Lemma file_index id id' p p' : 0 <= pl_index p -> 0 <= pl_index p' -> file_name id p = file_name id' p' ->
  pl_index p = pl_index p' /\ id ++ t_ "_" ++ player_name p = id' ++ t_ "_" ++ player_name p'.
Proof.
  intros A B E. unfold file_name in E. apply app_inv_head in E.
  assert (E' : (id ++ t_ "_" ++ player_name p) ++ t_ "_" ++ str_int (pl_index p) ++ t_ ".html" =
               (id' ++ t_ "_" ++ player_name p') ++ t_ "_" ++ str_int (pl_index p') ++ t_ ".html") by (rewrite <- !app_assoc; exact E).
  apply number_ends in E'; tauto.
Qed.
Theorem C86_identifies : forall id id' p p', 0 <= pl_index p -> 0 <= pl_index p' -> ~ In 95 id -> ~ In 95 id' ->
  file_name id p = file_name id' p' -> id = id' /\ player_name p = player_name p' /\ pl_index p = pl_index p'.
Proof.
  intros id id' p p' A B I I' E. apply file_index in E as [X E]; auto. change (t_ "_") with [95] in E. cbn [app] in E.
  apply from_left in E as [-> ->]; auto.
Qed.

Lemma render_inv semi p r url id g out : render_template semi p r url id g = Ok out ->
  exists games ids pt rt, analyses r p = Ok games /\ player_str p = Ok pt /\ record_str r = Ok rt /\
    match url, id with
    | Some u, _ => exists i, log_id_from_url semi u = Ok i /\ ids = (Some u, i)
    | None, Some i => ids = (Some (log_id_to_url i), i)
    | None, None => g = false /\ ids = (None, [])
    end /\ out = (if g then Some (file_name (snd ids) p) else None, mkPage pt rt (fst ids) games all_tiles).
Proof.
  unfold render_template. intros H. destruct (analyses r p) as [games|]; [|discriminate]. cbn [bindr] in H.
  destruct (match url, id with Some url0, _ => _ | _, _ => _ end) as [ids|] eqn:E; [|discriminate]. cbn [bindr] in H.
  destruct (player_str p) as [pt|]; [|discriminate]. cbn [bindr] in H. destruct (record_str r) as [rt|]; [|discriminate]. cbn [bindr] in H.
  apply Ok_inj in H. exists games, ids, pt, rt. repeat (split; [reflexivity|]). split; [|exact H].
  destruct url as [u|].
  - destruct (log_id_from_url semi u) as [i|]; [|discriminate]. cbn [bindr] in E. apply Ok_inj in E. subst. exists i. auto.
  - destruct id as [i|]; [apply Ok_inj in E; exact E|]. destruct g; [discriminate|]. apply Ok_inj in E. auto.
Qed.
Lemma reports_names semi r url : forall planned files out, write_reports semi r url planned = (files, out) ->
  exists k, (k <= length planned)%nat /\ (out = Ok tt -> k = length planned) /\
    Forall2 (fun p f => render_template semi p r (Some url) None true = Ok (Some (fst f), snd f)) (firstn k planned) files.
Proof.
  induction planned as [|p rest IH]; intros files out H; cbn [write_reports] in H.
  - injection H as <- <-. exists 0%nat. split; [auto|]. split; [auto|constructor].
  - destruct (render_template semi p r (Some url) None true) as [[[f|] pg]|e] eqn:E.
    + destruct (write_reports semi r url rest) as [fs o] eqn:W. injection H as <- <-. destruct (IH _ _ eq_refl) as (k & A & B & C).
      exists (S k). split; [cbn [length]; lia|]. split; [intros O; cbn [length]; f_equal; auto|]. cbn [firstn]. constructor; [exact E|exact C].
    + injection H as <- <-. exists 0%nat. split; [lia|]. split; [discriminate|constructor].
    + injection H as <- <-. exists 0%nat. split; [lia|]. split; [discriminate|constructor].
Qed.
Lemma players_indexed events r i p : new_record events = Ok r -> nth_error (r_players r) i = Some p -> pl_index p = Z.of_nat i.
Proof. intros H N. apply (C57_players events r i p H N). Qed.
Lemma index_nodup : forall l k, (forall i p, nth_error l i = Some p -> pl_index p = Z.of_nat (k + i)) -> NoDup (map pl_index l).
Proof.
  induction l as [|p l IH]; intros k H; cbn [map]; constructor.
  - intros I. apply in_map_iff in I as (q & E & I). apply In_nth_error in I as (j & N). pose proof (H 0%nat p eq_refl). pose proof (H (S j) q N). lia.
  - apply (IH (S k)). intros i q N. rewrite (H (S i) q N). f_equal. lia.
Qed.
Lemma NoDup_firstn {A} (l : list A) k : NoDup l -> NoDup (firstn k l).
Proof.
  revert k. induction l as [|x l IH]; intros [|k] N; cbn [firstn]; [constructor|constructor|constructor|]. inversion N as [|? ? Q B]; subst.
  constructor; [|now apply IH]. intros I. apply Q. rewrite <- (firstn_skipn k l). apply in_app_iff. now left.
Qed.
Lemma in_firstn {A} (l : list A) k x : In x (firstn k l) -> In x l.
Proof. intros I. rewrite <- (firstn_skipn k l). apply in_app_iff. now left. Qed.
Lemma names_distinct semi r url : forall ps files, NoDup (map pl_index ps) -> (forall p, In p ps -> 0 <= pl_index p) ->
  Forall2 (fun p f => render_template semi p r (Some url) None true = Ok (Some (fst f), snd f)) ps files -> NoDup (map fst files).
Proof.
  intros ps files N P F. induction F as [|p f ps files R F IH]; [constructor|]. cbn [map] in N |- *. inversion N as [|? ? N1 N2]; subst.
  constructor; [|apply IH; [exact N2|intros q I; apply P; now right]]. intros I. apply in_map_iff in I as (f' & E & I).
  assert (X : exists p', In p' ps /\ render_template semi p' r (Some url) None true = Ok (Some (fst f'), snd f')).
  { clear - F I. induction F as [|q g ps files R F IH]; [contradiction|]. destruct I as [->|I]; [exists q; split; [now left|exact R]|].
    destruct (IH I) as (p' & A & B). exists p'. split; [now right|exact B]. }
  destruct X as (p' & I' & R'). apply render_inv in R as (? & ? & ? & ? & _ & _ & _ & (id & _ & ->) & O). apply render_inv in R' as (? & ? & ? & ? & _ & _ & _ & (id' & _ & ->) & O').
  cbn [fst snd] in O, O'. injection O as O _. injection O' as O' _. rewrite O, O' in E.
  apply N1. apply in_map_iff. exists p'. split; [|exact I']. apply file_index in E; [tauto|apply P; now right|apply P; now left].
Qed.
(** C86: the files of one run are all different, even if the run is cut short by an error, and
    belong to the first of the selected players, in order; to all of them if there is no error. *)
Theorem C86_files : forall semicolons events r url input files outcome, new_record events = Ok r ->
  main semicolons r url input = (files, outcome) ->
  NoDup (map fst files) /\
  exists planned k, planned_players (r_players r) input = Ok planned /\ (outcome = Ok tt -> k = length planned) /\
    Forall2 (fun p f => exists id, log_id_from_url semicolons url = Ok id /\
        fst f = t_ "tenhou_record_" ++ id ++ t_ "_" ++ player_name p ++ t_ "_" ++ str_int (pl_index p) ++ t_ ".html")
      (firstn k planned) files.
Proof.
  intros semi events r url input files out H M. unfold main in M. destruct (planned_total (r_players r) input) as (l & E & C). rewrite E in M.
  destruct (reports_names _ _ _ _ _ _ M) as (k & A & B & F).
  assert (Q : NoDup (map pl_index l) /\ forall p, In p l -> 0 <= pl_index p).
  { assert (Q0 : forall p, In p (r_players r) -> 0 <= pl_index p) by (intros p I; apply In_nth_error in I as (i & N); rewrite (players_indexed _ _ _ _ H N); lia).
    destruct C as [->|(p & I & ->)].
    - split; [|exact Q0]. apply (index_nodup _ 0). intros i p N. now rewrite (players_indexed _ _ _ _ H N).
    - split; [cbn [map]; constructor; [intros []|constructor]|]. intros q [<-|[]]. auto. }
  destruct Q as [Q1 Q2]. split.
  - apply (names_distinct semi r url (firstn k l)); [rewrite <- firstn_map; now apply NoDup_firstn|intros p I; apply Q2; now apply in_firstn in I|exact F].
  - exists l, k. split; [exact E|]. split; [exact B|]. clear - F. induction F as [|p f ps fs R F IH]; constructor; [|exact IH].
    apply render_inv in R as (? & ? & ? & ? & _ & _ & _ & (id & I & ->) & O). cbn [fst snd] in O. exists id. split; [exact I|]. injection O as O _. exact O.
Qed.

(** ** C88: what a page shows *)
Lemma mapM_at {A B} (f : A -> res B) : forall l l' i a, mapM f l = Ok l' -> nth_error l i = Some a -> exists b, nth_error l' i = Some b /\ f a = Ok b.
Proof.
  induction l as [|x l IH]; intros l' i a H N; [destruct i; discriminate|]. cbn [mapM] in H. destruct (f x) as [y|] eqn:E; [|discriminate]. cbn [bindr] in H.
  destruct (mapM f l) as [ys|]; [|discriminate]. cbn [bindr] in H. apply Ok_inj in H. subst l'. destruct i as [|i]; cbn [nth_error] in *.
  - injection N as <-. exists y. auto.
  - apply (IH ys); auto.
Qed.
Lemma analyses_at r p games j g : analyses r p = Ok games -> nth_error (r_games r) j = Some g ->
  exists name rows, nth_error games j = Some (name, rows) /\ game_caption (r_type r) (r_players r) g = Ok name /\
    game_reason_list (g_events g) (pl_index p) (Z.of_nat (length (r_players r))) = Ok rows.
Proof.
  intros A N. destruct (mapM_at _ _ _ _ _ A N) as (b & X & E). cbv beta in E.
  destruct (game_caption (r_type r) (r_players r) g) as [name|]; [|discriminate]. cbn [bindr] in E.
  destruct (game_reason_list _ _ _) as [rows|]; [|discriminate]. cbn [bindr] in E. apply Ok_inj in E. subst b. exists name, rows. auto.
Qed.
Lemma game_keeps l g : new_game l = Ok g -> g_events g = l.
Proof.
  unfold new_game. destruct l as [|i p]; [discriminate|]. intros H. destruct (first_end_index p); [|discriminate]. cbn [bindr] in H. cbv zeta in H.
  destruct (config_attr _ (t_ "INIT") (t_ "seed")); [|discriminate]. cbn [bindr] in H. destruct (number_list _); [|discriminate]. cbn [bindr] in H.
  destruct (config_attr _ _ _); [|discriminate]. cbn [bindr] in H. destruct (py_int _); [|discriminate]. cbn [bindr] in H. apply Ok_inj in H. now subst g.
Qed.
(** C88: the page of a player has one part per deal, in order; the part of a deal has the deal's
    caption and one row per discard of that player in it; the page names the player and the record
    and has the link that was given. *)
Theorem C88_page : forall semicolons head ds events r url id generate i p file pg, good_log head ds events -> new_record events = Ok r ->
  nth_error (r_players r) i = Some p ->
  render_template semicolons p r (Some url) id generate = Ok (file, pg) ->
  player_str p = Ok (pg_player pg) /\ record_str r = Ok (pg_record pg) /\ pg_url pg = Some url /\
  length (pg_games pg) = length ds /\
  forall j deal_events, nth_error ds j = Some deal_events -> exists g caption rows,
    nth_error (pg_games pg) j = Some (caption, rows) /\
    nth_error (r_games r) j = Some g /\ game_caption (r_type r) (r_players r) g = Ok caption /\
    forall acts, (i < 4)%nat -> log acts deal_events -> takes_turns (Z.of_nat i) acts ->
      length rows = length (discards_of (Z.of_nat i) acts).
Proof.
  intros semi head ds events r url id g0 i p file pg G H N R. apply render_inv in R as (games & ids & pt & rt & A & Pt & Rt & (k & _ & ->) & O).
  cbn [fst snd] in O. injection O as _ ->. cbn [pg_player pg_record pg_url pg_games]. split; [exact Pt|]. split; [exact Rt|]. split; [reflexivity|].
  pose proof (record_games _ _ _ _ G H) as RG. split.
  - unfold analyses in A. rewrite (mapM_same_length _ _ _ A). exact (mapM_same_length _ _ _ RG).
  - intros j es Nj. destruct (games_at _ _ _ _ RG Nj) as (g & Ng & Nr). destruct (analyses_at _ _ _ _ _ A Nr) as (name & rows & X & C & E).
    exists g, name, rows. split; [exact X|]. split; [exact Nr|]. split; [exact C|]. intros acts L LG TT.
    rewrite (game_keeps _ _ Ng), (players_indexed _ _ _ _ H N) in E. apply (C53_count (Z.of_nat i) (Z.of_nat (length (r_players r))) acts es rows); [unfold seat; lia|exact LG|exact TT|exact E].
Qed.
(** Every tile text has a picture among those handed to the page, and there is no other. *)
Theorem C88_pictures : forall s, In s all_tiles <-> picture s.
Proof.
  intros s. unfold picture, all_tiles. rewrite in_app_iff, in_flat_map, in_map_iff. split.
  - intros [(t & I & J)|(n & <- & I)].
    + apply in_map_iff in J as (n & <- & J). apply in_seq in J. exists (Z.of_nat n).
      destruct I as [<-|[<-|[<-|[]]]]; [exists Cm|exists Cp|exists Cs]; (split; [reflexivity|change (color_eqb Cm Cz) with false || change (color_eqb Cp Cz) with false || change (color_eqb Cs Cz) with false || change (color_eqb Cz Cz) with true; cbv iota; lia]).
    + apply in_seq in I. exists (Z.of_nat n), Cz. split; [reflexivity|change (color_eqb Cm Cz) with false || change (color_eqb Cp Cz) with false || change (color_eqb Cs Cz) with false || change (color_eqb Cz Cz) with true; cbv iota; lia].
  - intros (n & c & -> & B). destruct c; [change (color_eqb Cm Cz) with false in B|change (color_eqb Cp Cz) with false in B|change (color_eqb Cs Cz) with false in B|change (color_eqb Cz Cz) with true in B]; cbv iota in B; cbn [letter_of].
    1,2,3: left; eexists; split; [|apply in_map_iff; exists (Z.to_nat n); split; [rewrite Z2Nat.id by lia; reflexivity|apply in_seq; lia]].
    1: now left. 1: right; now left. 1: right; right; now left.
    right. exists (Z.to_nat n). split; [rewrite Z2Nat.id by lia; reflexivity|apply in_seq; lia].
Qed.

(** ** C89: the checker object *)
(** [main] for player number i+1 writes exactly what [parse] returns for index i. *)
Theorem C89_main : forall semicolons r url input i p file pg, (i < length (r_players r))%nat -> spells input (Z.of_nat i + 1) -> nth_error (r_players r) i = Some p ->
  (main semicolons r url input = ([(file, pg)], Ok tt) <-> parse semicolons (Link url (Ok r)) (Z.of_nat i) true = Ok (Some file, pg)).
Proof.
  intros semi r url input i p file pg L S N. destruct (C87_one (r_players r) input (Z.of_nat i + 1) S ltac:(lia)) as (q & Q & P).
  replace (Z.to_nat (Z.of_nat i + 1 - 1)) with i in Q by lia. assert (q = p) by congruence. subst q.
  unfold main, parse. rewrite P. cbn [bindr fst snd]. rewrite (nth_at (r_players r) (Z.of_nat i) p) by (try lia; rewrite Nat2Z.id; exact N). cbn [bindr write_reports].
  destruct (render_template semi p r (Some url) None true) as [[[f|] g]|e] eqn:E.
  - split; intros X; [injection X as -> ->; reflexivity|injection X as -> ->; reflexivity].
  - split; discriminate.
  - split; discriminate.
Qed.
(** The page of a record object is the page of its link, without the link. *)
Theorem C89_record : forall semicolons r url i file pg generate, parse semicolons (Link url (Ok r)) i generate = Ok (file, pg) ->
  parse semicolons (OfRecord r) i false = Ok (None, mkPage (pg_player pg) (pg_record pg) None (pg_games pg) (pg_tiles pg)).
Proof.
  intros semi r url i file pg g H. unfold parse in *. cbn [bindr fst snd] in *. destruct (py_nth (r_players r) i) as [p|]; [|discriminate]. cbn [bindr] in *.
  apply render_inv in H as (games & ids & pt & rt & A & Pt & Rt & (k & _ & ->) & O). injection O as _ ->.
  unfold render_template. rewrite A, Pt, Rt. reflexivity.
Qed.
(** Indices count from the end when negative; outside the table they are refused. *)
Theorem C89_index : forall semicolons r i generate, let n := Z.of_nat (length (r_players r)) in
  (- n <= i < 0 -> parse semicolons (OfRecord r) i generate = parse semicolons (OfRecord r) (n + i) generate) /\
  (i < - n \/ n <= i -> parse semicolons (OfRecord r) i generate = Err IndexError).
Proof.
  intros semi r i g n. unfold parse. cbn [bindr fst snd]. unfold py_nth. fold n. split; intros B.
  - replace (i <? 0) with true by (symmetry; apply Z.ltb_lt; lia). replace (n + i <? 0) with false by (symmetry; apply Z.ltb_ge; lia).
    now replace (i + n) with (n + i) by lia.
  - destruct (Z.ltb_spec i 0); [replace (i + n <? 0) with true by (symmetry; apply Z.ltb_lt; lia); reflexivity|].
    replace (i <? 0) with false by (symmetry; apply Z.ltb_ge; lia). replace (n <=? i) with true by (symmetry; apply Z.leb_le; lia). reflexivity.
Qed.
(** Asked for a file name, [parse] never succeeds on a record object, though it accepts one. *)
Theorem C89_file_name_refuted : forall semicolons r i out, parse semicolons (OfRecord r) i true <> Ok out.
Proof.
  intros semi r i out. unfold parse. cbn [bindr fst snd]. destruct (py_nth (r_players r) i) as [p|]; [|discriminate]. cbn [bindr]. intros H.
  apply render_inv in H as (? & ? & ? & ? & _ & _ & _ & (F & _) & _). discriminate.
Qed.

(** ** A log of one deal, in which the first player discards once *)
Definition rp_hand (p : Z) : text := comma_list (map (fun i => 13 * p + Z.of_nat i) (seq 0 13)).
Definition rp_init : event := mkEvent (t_ "INIT") [(t_ "seed", t_ "0,0,0,2,5,77"); (t_ "oya", t_ "0");
  (t_ "hai0", rp_hand 0); (t_ "hai1", rp_hand 1); (t_ "hai2", rp_hand 2); (t_ "hai3", rp_hand 3)].
Definition rp_deal : list event := [rp_init; ev "T52" []; ev "D52" []; ev "U53" []; sh_last].
Definition rp_log : list event := (sh_head ++ [rp_init; ev "T52" []; ev "D52" []; ev "U53" []]) ++ [sh_last].
Definition rp_url : text := t_ "http://tenhou.net/0/?log=2019010100gm-0009-0000-abc&tw=2".
Definition rp_pages (input : text) : list text * bool :=
  match new_record rp_log with
  | Ok r => let (files, out) := main true r rp_url input in (map fst files, is_ok out)
  | Err _ => ([], false)
  end.
Example C86_case : rp_pages (t_ "") =
  ([t_ "tenhou_record_2019010100gm-0009-0000-abc_" ++ [12354] ++ t_ "_0.html"; t_ "tenhou_record_2019010100gm-0009-0000-abc_b_1.html";
    t_ "tenhou_record_2019010100gm-0009-0000-abc_c_2.html"; t_ "tenhou_record_2019010100gm-0009-0000-abc_d_3.html"], true).
Proof. vm_compute. reflexivity. Qed.
Example C87_case : spells (t_ "02") 2 /\ rp_pages (t_ "02") = ([t_ "tenhou_record_2019010100gm-0009-0000-abc_b_1.html"], true) /\
  snd (rp_pages (t_ " 2")) = true /\ length (fst (rp_pages (t_ " 2"))) = 4%nat /\ length (fst (rp_pages (t_ "5"))) = 4%nat.
Proof.
  split; [exact (sp_more [48] 0 2 (sp_one 0 ltac:(lia)) ltac:(lia))|]. split; [vm_compute; reflexivity|].
  split; [vm_compute; reflexivity|]. split; [vm_compute; reflexivity|vm_compute; reflexivity].
Qed.
Example C89_case : (match new_record rp_log with Ok r => match parse true (Link rp_url (Ok r)) (-1) true with
    Ok (Some f, pg) => Some (f, length (pg_games pg), pg_url pg) | _ => None end | Err _ => None end) =
  Some (t_ "tenhou_record_2019010100gm-0009-0000-abc_d_3.html", 1%nat, Some rp_url).
Proof. vm_compute. reflexivity. Qed.

Definition rp_dealt : deal := mkDeal (fun p => map (fun i => 13 * p + Z.of_nat i) (seq 0 13)) [0; 0; 0; 2; 5] 77.
Definition rp_acts : list action := [Deal rp_dealt; Draw 0 52; Discard 0 52; Draw 1 53; Other].
Example C88_case : log rp_acts rp_deal /\ takes_turns 0 rp_acts /\ length (discards_of 0 rp_acts) = 1%nat /\
  match new_record rp_log with
  | Ok r => match parse true (Link rp_url (Ok r)) 0 true with Ok (_, pg) => map (fun g => length (snd g)) (pg_games pg) = [1%nat] | Err _ => False end
  | Err _ => False
  end.
Proof.
  split; [split|split; [|split]].
  - unfold rp_acts. repeat apply Forall_cons; cbn [legal_action]; try exact Logic.I; try (split; [unfold seat; lia|unfold Spec_Meld.valid_tile; lia]). constructor.
  - unfold rp_acts, rp_deal. repeat apply Forall2_cons; [| | | | |constructor]; cbn [writes].
    + split; [reflexivity|]. split; [vm_compute; reflexivity|]. intros p B. assert (X : p = 0 \/ p = 1 \/ p = 2 \/ p = 3) by lia.
      destruct X as [ -> | [ -> | [ -> | -> ] ] ]; vm_compute; reflexivity.
    + reflexivity.
    + reflexivity.
    + reflexivity.
    + split; [discriminate|]. split; [discriminate|]. split; [discriminate|]. intros (l & c & r & E & B & D). injection E as <- <- _. lia.
  - intros before after t t' E. unfold rp_acts in E. do 5 (destruct before as [|? before]; [discriminate E|injection E as _ E]). destruct before; discriminate E.
  - reflexivity.
  - vm_compute. reflexivity.
Qed.

Print Assumptions C86_identifies.
Print Assumptions C86_files.
Print Assumptions C87_one.
Print Assumptions C87_all.
Print Assumptions C88_page.
Print Assumptions C88_pictures.
Print Assumptions C89_main.
Print Assumptions C89_record.
Print Assumptions C89_index.
Print Assumptions C89_file_name_refuted.
