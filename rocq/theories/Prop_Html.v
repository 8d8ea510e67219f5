(** C106-C109: the report page as it is read and looked at. *)
From Coq Require Import String.
From Verif Require Import Base Category Tile TileSet Parse Text Tenhou Event Reader Url State Checker Show Report Spec_Checker Prop_Report CheckerRows StateProofs JsonProofs CsvValues Prop_Show Spec_Html Html HtmlProofs.
From Coq Require Import List ZArith QArith Lia Bool.
Import ListNotations.
Open Scope list_scope.
Open Scope Z_scope.

(** ** Tags *)
Lemma tags_app a b : tags (a ++ b) = tags a ++ tags b.
Proof. unfold tags. apply flat_map_app. Qed.
Lemma tags_chars s : tags (map Char s) = [].
Proof. now induction s. Qed.
Lemma tags_flat {A} (f : A -> list token) l : tags (flat_map f l) = flat_map (fun x => tags (f x)) l.
Proof. induction l as [|x l IH]; [reflexivity|]. cbn [flat_map]. now rewrite tags_app, IH. Qed.
Lemma tags_number z : tags (number_tok z) = [].
Proof. apply tags_chars. Qed.
Definition lacks (t : text) (ts : list token) : Prop := ~ In t (tags ts).
Lemma lacks_app t a b : lacks t a -> lacks t b -> lacks t (a ++ b).
Proof. unfold lacks. rewrite tags_app, in_app_iff. tauto. Qed.
Lemma lacks_chars t s : lacks t (map Char s).
Proof. unfold lacks. rewrite tags_chars. auto. Qed.
Lemma lacks_flat {A} t (f : A -> list token) l : (forall x, In x l -> lacks t (f x)) -> lacks t (flat_map f l).
Proof. intros H I. rewrite tags_flat in I. apply in_flat_map in I as (x & X & I). exact (H x X I). Qed.
Lemma lacks_tiles t size l : hd 0 t <> 100 -> t <> t_ "/div" -> lacks t (tiles_tok size l).
Proof.
  intros A B. apply lacks_flat. intros x _ [H|[H|[]]]; [|now apply B]. apply A. now rewrite <- H.
Qed.
Lemma after_skip t a b : lacks t a -> after_tag t (a ++ b) = after_tag t b.
Proof.
  induction a as [|[s|c] a IH]; intros H; cbn [app after_tag]; [reflexivity| |]; [|apply IH; exact H].
  destruct (text_eqb s t) eqn:E; [apply text_eqb_iff in E; subst; destruct H; now left|]. apply IH. intro X. apply H. now right.
Qed.
Lemma text_skip t a b : lacks t a -> text_after t (a ++ b) = text_after t b.
Proof.
  induction a as [|[s|c] a IH]; intros H; cbn [app text_after]; [reflexivity| |]; [|apply IH; exact H].
  destruct (text_eqb s t) eqn:E; [apply text_eqb_iff in E; subst; destruct H; now left|]. apply IH. intro X. apply H. now right.
Qed.
Lemma chars_text s u r : chars (map Char s ++ Tag u :: r) = s.
Proof. induction s as [|c s IH]; [reflexivity|]. cbn [map app chars]. now rewrite IH. Qed.
Lemma text_here t s u r : text_after t (Tag t :: map Char s ++ Tag u :: r) = s :: text_after t (Tag u :: r).
Proof.
  cbn [text_after]. replace (text_eqb t t) with true by (symmetry; now apply text_eqb_iff). now rewrite chars_text, (text_skip t (map Char s)) by apply lacks_chars.
Qed.

(** ** Looking *)
Definition closed (ts : list token) (l : list sight) : Prop := forall rest, seen_after [] (ts ++ rest) = l ++ seen_after [] rest.
Definition flushes (ts : list token) (l : list sight) : Prop := forall w rest, seen_after w (ts ++ rest) = word w ++ l ++ seen_after [] rest.
Lemma closed_nil : closed [] [].
Proof. intro. reflexivity. Qed.
Lemma closed_app a b i j : closed a i -> closed b j -> closed (a ++ b) (i ++ j).
Proof. intros A B rest. now rewrite <- app_assoc, A, B, app_assoc. Qed.
Lemma closed_flat {A} (f : A -> list token) g l : (forall x, In x l -> closed (f x) (g x)) -> closed (flat_map f l) (flat_map g l).
Proof.
  induction l as [|x l IH]; intros H; [apply closed_nil|]. cbn [flat_map]. apply closed_app; [apply H; now left|]. apply IH. intros y Y. apply H. now right.
Qed.
Lemma flush_closed ts l : flushes ts l -> closed ts l.
Proof. intros F rest. exact (F [] rest). Qed.
Lemma scan_text s : forall w v ts l rest, flushes ts l -> v = w -> seen_after v (map Char s ++ ts ++ rest) = seen_after w (map Char s) ++ l ++ seen_after [] rest.
Proof.
  induction s as [|c s IH]; intros w v ts l rest F ->; cbn [map app seen_after]; [apply F|].
  destruct (blank c); [|now apply IH]. rewrite <- app_assoc. f_equal. now apply IH.
Qed.
Lemma closed_text s ts l : flushes ts l -> closed (map Char s ++ ts) (words s ++ l).
Proof. intros F rest. rewrite <- !app_assoc. now apply scan_text. Qed.
Lemma no_blanks s : forall w, forallb (fun c => negb (blank c)) s = true -> seen_after w (map Char s) = word (w ++ s).
Proof.
  induction s as [|c s IH]; intros w H; cbn [map seen_after]; [now rewrite app_nil_r|]. cbn [forallb] in H. apply andb_true_iff in H as [A B].
  destruct (blank c); [discriminate|]. rewrite IH by exact B. now rewrite <- app_assoc.
Qed.
Lemma str_int_no_blanks z : forallb (fun c => negb (blank c)) (str_int z) = true.
Proof.
  pose proof (int_chars z) as H. rewrite forallb_forall in H |- *. intros c I. specialize (H c I). unfold number_char, Parse.ch_digit in H. unfold blank.
  destruct (Z.eqb_spec c 32); [subst; discriminate|]. destruct (Z.eqb_spec c 10); [subst; discriminate|]. destruct (Z.eqb_spec c 160); [subst; discriminate|]. reflexivity.
Qed.
Lemma words_int z : words (str_int z) = told z.
Proof.
  unfold words, seen. rewrite no_blanks by apply str_int_no_blanks. cbn [app]. unfold told, word. destruct (str_int_head z) as (c & r & -> & _). reflexivity.
Qed.
Lemma closed_number z ts l : flushes ts l -> closed (number_tok z ++ ts) (told z ++ l).
Proof. intros F. rewrite <- words_int. now apply closed_text. Qed.
(** Texts without characters that need escaping or end a class name. *)
Definition plain (t : text) : Prop := forall c, In c t -> ~ In c [38; 62; 60; 39; 34; 32].
Lemma plain_escape t : plain t -> escape t = t.
Proof.
  intros H. induction t as [|c t IH]; [reflexivity|]. cbn [escape flat_map]. fold (escape t). rewrite IH by (intros d D; apply H; now right).
  pose proof (H c (or_introl eq_refl)) as N. cbn [In] in N. unfold escape_char.
  destruct (Z.eqb_spec c 38); [exfalso; subst c; tauto|]. destruct (Z.eqb_spec c 62); [exfalso; subst c; tauto|]. destruct (Z.eqb_spec c 60); [exfalso; subst c; tauto|]. destruct (Z.eqb_spec c 39); [exfalso; subst c; tauto|].
  destruct (Z.eqb_spec c 34); [exfalso; subst c; tauto|]. reflexivity.
Qed.
Lemma start_app p s : without_start p (p ++ s) = Some s.
Proof. induction p as [|c p IH]; [reflexivity|]. cbn [app without_start]. now rewrite Z.eqb_refl. Qed.
Lemma up_to_app c t r : ~ In c t -> up_to c (t ++ c :: r) = (t, r).
Proof.
  induction t as [|x t IH]; intros H; cbn [app up_to]; [now rewrite Z.eqb_refl|]. destruct (Z.eqb_spec x c); [subst; destruct H; now left|].
  rewrite IH by (intro; apply H; now right). reflexivity.
Qed.
Lemma closed_tile size t : plain t -> size = "big"%string \/ size = "small"%string -> closed (tile_tok (t_ size) t) [Pic t (t_ size)].
Proof.
  intros P S rest. unfold tile_tok. cbn [app seen_after]. unfold shows at 1. rewrite start_app, (plain_escape t P).
  change (t ++ t_ " " ++ escape (t_ size) ++ [34]) with (t ++ 32 :: escape (t_ size) ++ [34]). rewrite up_to_app by (intro H; apply (P _ H); cbn; tauto).
  destruct S as [-> | ->]; reflexivity.
Qed.
Lemma closed_tiles size l : Forall plain l -> size = "big"%string \/ size = "small"%string -> closed (tiles_tok size l) (pics size l).
Proof.
  intros P S. unfold tiles_tok, pics. induction P as [|t l A B IH]; [apply closed_nil|]. cbn [flat_map map].
  change (Pic t (t_ size) :: map (fun t0 => Pic t0 (t_ size)) l) with ([Pic t (t_ size)] ++ map (fun t0 => Pic t0 (t_ size)) l).
  apply closed_app; [now apply closed_tile|exact IH].
Qed.
Lemma closed_cons_tag u l : shows u = l -> closed [Tag u] l.
Proof. intros <- rest. reflexivity. Qed.
Ltac flush := intros ? ?; vm_compute; reflexivity.
Definition plain_row (x : shown) : Prop := Forall plain (sh_discard x) /\ Forall plain (sh_useful x).
Ltac both := first [left; reflexivity|right; reflexivity].
Lemma closed_row x : plain_row x -> closed (row_tok x) (row_seen x).
Proof.
  intros [A B]. unfold row_tok, row_seen.
  apply closed_app; [apply flush_closed; flush|]. apply closed_app; [apply closed_tiles; [exact A|both]|]. apply closed_app; [apply flush_closed; flush|].
  rewrite app_assoc, (app_assoc (told (sh_step x))). apply closed_app; [apply closed_number; flush|].
  rewrite app_assoc, (app_assoc (told (sh_count x))). apply closed_app; [apply closed_number; flush|].
  rewrite <- (app_nil_r (pics "small" (sh_useful x))). apply closed_app; [apply closed_tiles; [exact B|both]|apply flush_closed; flush].
Qed.
Definition plain_round (r : round) : Prop :=
  rr_expected r <> [] /\ Forall plain (rr_hand r) /\ Forall (Forall plain) (rr_melds r) /\ plain_row (rr_choice r) /\
  Forall plain_row (rr_expected r) /\ Forall plain_row (rr_merged r) /\ rr_extra r = [].
Lemma pics_flat {A} size (f : A -> list text) l : pics size (flat_map f l) = flat_map (fun x => pics size (f x)) l.
Proof. unfold pics. induction l as [|x l IH]; [reflexivity|]. cbn [flat_map]. now rewrite map_app, IH. Qed.
Lemma pics_concat size l : pics size (concat l) = flat_map (pics size) l.
Proof. unfold pics. induction l as [|x l IH]; [reflexivity|]. cbn [concat flat_map]. now rewrite map_app, IH. Qed.
Ltac skip_lit := match goal with |- closed (tk ?x ++ ?b) ?l => change l with ([] ++ l); apply closed_app; [apply flush_closed; flush|] end.
Lemma closed_round fs i r : plain_round r -> closed (round_tok fs i r (best_of r)) (round_seen i r [] []).
Proof.
  intros (N & H & M & C & E & G & X). unfold round_tok, round_seen, extra. rewrite X. cbn [find flat_map].
  unfold best_of. rewrite pics_concat, pics_flat.
  assert (B : exists best more, rr_expected r = best :: more) by (destruct (rr_expected r); [contradiction|eauto]). destruct B as (best & more & B).
  replace (hd nothing (rr_expected r)) with best by now rewrite B. replace (firstn 1 (rr_expected r)) with [best] by now rewrite B. cbn [flat_map]. rewrite app_nil_r.
  skip_lit.
  match goal with |- closed (?x :: ?y) ?l => change (x :: y) with ([x] ++ y); change l with ([] ++ l) end. apply closed_app; [apply closed_cons_tag; destruct (rr_somebody_richii r); reflexivity|].
  skip_lit. rewrite app_assoc. apply closed_app; [rewrite <- (app_nil_r (told i)); apply closed_number; flush|].
  apply closed_app. { apply closed_flat. intros meld I. rewrite <- (app_nil_r (pics "big" meld)). rewrite Forall_forall in M. apply closed_app; [apply closed_tiles; [auto|both]|apply flush_closed; flush]. }
  skip_lit. apply closed_app; [apply closed_tiles; [exact H|both]|]. skip_lit. apply closed_app; [apply closed_tiles; [apply C|both]|]. skip_lit.
  apply closed_app. { apply closed_flat. intros x I. rewrite Forall_forall in E. skip_lit. apply closed_tiles; [apply (E x I)|both]. }
  rewrite <- !app_assoc.
  apply closed_app; [apply flush_closed; flush|]. rewrite app_assoc, (app_assoc (told (sh_step best))). apply closed_app; [apply closed_number; flush|].
  rewrite app_assoc, (app_assoc (told (sh_count best))). apply closed_app; [apply closed_number; flush|].
  rewrite app_assoc, (app_assoc (told (sh_step (rr_choice r)))). apply closed_app; [apply closed_number; flush|].
  rewrite app_assoc. apply closed_app; [rewrite <- (app_nil_r (told _)); apply closed_number; flush|].
  apply closed_app; [apply closed_flat; intros x I; rewrite Forall_forall in G; apply closed_row; auto|].
  cbn [app]. apply closed_app; [apply flush_closed; flush|]. rewrite <- (app_nil_r (say "Seven-Pair Reasoning" ++ [])). apply closed_app; apply flush_closed; flush.
Qed.
Lemma closed_rounds fs l : forall i, Forall plain_round l -> closed (rounds_tok fs i l) (rounds_seen i l).
Proof. induction l as [|r l IH]; intros i P; [apply closed_nil|]. inversion P; subst. cbn [rounds_tok rounds_seen]. apply closed_app; [now apply closed_round|now apply IH]. Qed.
Lemma closed_game fs g : Forall plain_round (snd g) -> closed (game_tok fs g) (deal_seen g).
Proof.
  intros P. unfold game_tok, deal_seen. skip_lit. rewrite app_assoc, (app_assoc (words (fst g))). apply closed_app; [apply closed_text; flush|].
  rewrite <- (app_nil_r (rounds_seen 1 (snd g))). apply closed_app; [now apply closed_rounds|apply flush_closed; flush].
Qed.
Definition plain_page (p : page) : Prop := Forall plain (pg_tiles p) /\ Forall (fun g => Forall plain_round (snd g)) (pg_games p).
Definition before_body : list token := firstn (length (tk L17) - 3) (tk L17).
Lemma body_split : tk L17 = before_body ++ Tag (t_ "body") :: [Char 10; Char 10].
Proof. vm_compute. reflexivity. Qed.
Lemma lacks_rules t bs : lacks t (flat_map rule_tok bs).
Proof.
  apply lacks_flat. intros r _. unfold rule_tok. apply lacks_app; [vm_compute; tauto|]. apply lacks_app; [apply lacks_chars|]. apply lacks_app; [vm_compute; tauto|].
  apply lacks_app; [apply lacks_chars|vm_compute; tauto].
Qed.
Lemma after_here t ts : after_tag t (Tag t :: ts) = ts.
Proof. cbn [after_tag]. replace (text_eqb t t) with true; [reflexivity|]. symmetry. now apply text_eqb_iff. Qed.
Lemma closed_seen ts l : closed ts l -> seen ts = l.
Proof. intros C. unfold seen. rewrite <- (app_nil_r ts), C. cbn [seen_after word]. apply app_nil_r. Qed.
Lemma closed_skip a b l : flushes a [] -> closed b l -> closed (a ++ b) l.
Proof. intros A B. rewrite <- (app_nil_l l). apply closed_app; [now apply flush_closed|exact B]. Qed.
Lemma flushes_nil_end a i : flushes a i -> closed a (i ++ []).
Proof. intros A. rewrite app_nil_r. now apply flush_closed. Qed.
Lemma link_closed : closed (tk L110_rest) (say "Link" ++ introduction).
Proof. intros rest. vm_compute. reflexivity. Qed.
Lemma page_shown fs bs p : plain_page p -> seen (after_tag (t_ "body") (page_tok fs bs p)) = page_seen p.
Proof.
  intros [T G]. unfold page_tok, page_seen.
  assert (A : lacks (t_ "body") (tk L1)) by (vm_compute; intuition discriminate). rewrite (after_skip _ _ _ A).
  rewrite after_skip by apply lacks_rules. rewrite body_split. rewrite <- app_assoc.
  assert (B : lacks (t_ "body") before_body) by (vm_compute; intuition discriminate). rewrite (after_skip _ _ _ B).
  rewrite <- app_comm_cons, after_here. apply closed_seen. apply closed_skip; [flush|]. apply closed_skip; [flush|].
  apply closed_app; [apply closed_tiles; [exact T|both]|]. apply closed_skip; [flush|]. apply closed_app; [apply closed_tiles; [exact T|both]|].
  apply closed_app; [apply flush_closed; flush|].
  rewrite app_assoc. apply closed_app; [rewrite <- (app_nil_r (words _)); apply closed_text; flush|].
  rewrite app_assoc. apply closed_app; [rewrite <- (app_nil_r (words _)); apply closed_text; flush|].
  rewrite (app_assoc (say "Link")). apply closed_app; [exact link_closed|].
  rewrite <- (app_nil_r (flat_map deal_seen _)). apply closed_app; [|apply flush_closed; flush].
  apply closed_flat. intros g I. rewrite Forall_forall in G. apply closed_game; auto.
Qed.

(** ** The texts of rounds are plain *)
Lemma plain_tile t : plain (tile_str t).
Proof.
  intros c I. unfold tile_str in I. apply in_app_iff in I as [I|[<-|[]]].
  - pose proof (int_chars (tnumber t)) as H. rewrite forallb_forall in H. specialize (H c I). intros J.
    repeat (destruct J as [<-|J]; [discriminate H|]). destruct J.
  - destruct (tcolor t); cbn; intuition discriminate.
Qed.
Lemma plain_tiles l : Forall plain (map tile_str l).
Proof. apply Forall_map, Forall_forall. intros t _. apply plain_tile. Qed.
Lemma plain_norm i : plain_row (norm i).
Proof. split; cbn [norm sh_discard sh_useful]; [constructor; [apply plain_tile|constructor]|apply plain_tiles]. Qed.
Lemma first_group_some l g : first_group l = Ok g -> g <> [].
Proof.
  unfold first_group. destruct l as [|x l]; [discriminate|]. intros H. apply ok_is in H. subst g. cbn [take_key]. unfold key_eqb. now rewrite !Z.eqb_refl.
Qed.
Lemma reasoned_plain e hs is p ms r : discard_reasoning e hs is p ms = Ok r -> plain_round r.
Proof.
  unfold discard_reasoning. intros E.
  destruct (opt_minus (invisible_value is) (hand_value hs)) as [inv|]; [|discriminate]. cbn [bindr] in E.
  destruct (hand_tiles (hand_value hs)) as [H|]; [|discriminate]. cbn [bindr] in E.
  destruct (merged_rows H inv (win_types (meld_count (meld_value ms)))) as [merged|] eqn:Em; [|discriminate]. cbn [bindr] in E.
  destruct (first_group merged) as [g|] eqn:Eg; [|discriminate]. cbn [bindr] in E.
  destruct (discard_tile_index p e); [|discriminate]. cbn [bindr] in E. destruct (tile_from_tenhou _); [|discriminate]. cbn [bindr] in E.
  destruct (choice_row _ _ _ _); [|discriminate]. cbn [bindr] in E. destruct (py_nth g 0); [|discriminate]. cbn [bindr] in E.
  destruct (wrong_rate _ _ _); [|discriminate]. cbn [bindr] in E. destruct (mapM _ _) as [strs|] eqn:Es; [|discriminate]. cbn [bindr] in E. apply ok_is in E. subst r.
  unfold plain_round. cbn [rr_expected rr_hand rr_melds rr_choice rr_merged rr_extra combine map].
  split; [intros X; apply map_eq_nil in X; exact (first_group_some _ _ Eg X)|]. split; [apply plain_tiles|]. split.
  { apply mapM_Forall2 in Es. clear - Es. induction Es as [|m s melds strs A B IH]; constructor; [|exact IH]. apply mapM_Forall2 in A. clear - A.
    induction A as [|x t l ts X Y IH]; constructor; [|exact IH]. destruct (tile_from_tenhou x); [|discriminate]. cbn [bindr] in X. apply ok_is in X. subst t. apply plain_tile. }
  split; [apply plain_norm|]. split; [apply Forall_map, Forall_forall; intros; apply plain_norm|]. split; [apply Forall_map, Forall_forall; intros; apply plain_norm|reflexivity].
Qed.
Lemma group_plain p s d richii g out : game_group p s richii d g = Ok out -> Forall plain_round (fst (fst out)).
Proof.
  unfold game_group. intros H. destruct d.
  - destruct g as [|e g]; [discriminate|]. destruct (discard_reasoning e _ _ p _) as [r|] eqn:E; [|discriminate]. cbn [bindr] in H.
    destruct (pass_states s (e :: g)); [|discriminate]. cbn [bindr] in H. apply ok_is in H. subst out. cbn [fst]. apply reasoned_plain in E. constructor; [exact E|constructor].
  - cbn [bindr] in H. destruct (pass_states s g); [|discriminate]. cbn [bindr] in H. apply ok_is in H. subst out. constructor.
Qed.
Lemma in_generator_inv {A} (x : res A) v : in_generator x = Ok v -> x = Ok v.
Proof. destruct x as [y|[]]; cbn [in_generator]; congruence. Qed.
Lemma loop_plain p es : forall s richii d g rows, game_loop p s richii d g es = Ok rows -> Forall plain_round rows.
Proof.
  induction es as [|e es IH]; intros s richii d g rows H; cbn [game_loop] in H.
  - destruct (in_generator (game_group p s richii d g)) as [out|] eqn:E; [|discriminate]. cbn [bindr] in H. apply ok_is in H. subst rows. apply in_generator_inv in E. eapply group_plain; eassumption.
  - destruct (is_discard p e) as [d'|]; [|discriminate]. cbn [bindr] in H. destruct (eqb d' d); [eapply IH; eassumption|].
    destruct (in_generator (game_group p s richii d g)) as [out|] eqn:E; [|discriminate]. cbn [bindr] in H.
    destruct (game_loop _ _ _ _ _ es) as [more|] eqn:M; [|discriminate]. cbn [bindr] in H. apply ok_is in H. subst rows. apply in_generator_inv in E.
    apply Forall_app. split; [eapply group_plain; eassumption|eapply IH; eassumption].
Qed.
Lemma reason_list_plain es p n rows : game_reason_list es p n = Ok rows -> Forall plain_round rows.
Proof.
  unfold game_reason_list, game_reasoning. destruct es as [|e es]; intros H; [apply ok_is in H; subst; constructor|].
  destruct (is_discard p e); [|discriminate]. cbn [bindr] in H. eapply loop_plain; eassumption.
Qed.
Lemma rendered_plain semi p r url id generate file pg : render_template semi p r url id generate = Ok (file, pg) -> plain_page pg.
Proof.
  unfold render_template. intros H. destruct (analyses r p) as [games|] eqn:A; [|discriminate]. cbn [bindr] in H.
  match type of H with (bindr ?x _) = _ => destruct x as [ids|]; [|discriminate] end. cbn [bindr] in H.
  destruct (player_str p); [|discriminate]. cbn [bindr] in H. destruct (record_str r); [|discriminate]. cbn [bindr] in H. apply ok_is in H. injection H as _ ->.
  unfold plain_page. cbn [pg_tiles pg_games]. split.
  { apply Forall_forall. intros t I. apply C88_pictures in I. destruct I as (n & c & -> & _). apply (plain_tile (Plain n c)). }
  unfold analyses in A. apply mapM_Forall2 in A. clear - A. induction A as [|g x l games H B IH]; constructor; [|exact IH].
  destruct (game_caption _ _ g); [|discriminate]. cbn [bindr] in H. destruct (game_reason_list _ _ _) as [rows|] eqn:E; [|discriminate]. cbn [bindr] in H. apply ok_is in H. subst x.
  cbn [snd]. eapply reason_list_plain; eassumption.
Qed.

(** ** C106: texts on the page are data *)
Section Render.
Variable load_raw : text -> res (list Z).
Variable float_str : Q -> text.
Notation render := (render load_raw float_str).
Definition caption_tag : text := t_ "span class=""game-caption""".
Lemma lacks_rows t l : hd 0 t = 115 -> lacks t (tk L87) -> lacks t (tk L89) -> lacks t (tk L91) -> lacks t (tk L92) -> lacks t (tk L95) -> lacks t (flat_map row_tok l).
Proof.
  intros N A B C D E. assert (X : hd 0 t <> 100) by lia. assert (Y : t <> t_ "/div") by (intros ->; discriminate).
  apply lacks_flat. intros x _. unfold row_tok, number_tok. repeat (apply lacks_app; [first [assumption|now apply lacks_tiles|apply lacks_chars]|]). assumption.
Qed.
Ltac lacks_lit := vm_compute; intuition discriminate.
Ltac lacks_any X Y :=
  match goal with
  | |- lacks _ (map Char _) => apply lacks_chars
  | |- lacks _ (tiles_tok _ _) => exact (lacks_tiles _ _ _ X Y)
  | |- lacks _ (flat_map row_tok _) => apply lacks_rows; [reflexivity|lacks_lit..]
  | |- lacks _ (tk _) => lacks_lit
  | |- lacks _ (flat_map _ _) => apply lacks_flat; intros ? _; apply lacks_app; lacks_any X Y
  end.
Lemma lacks_round i r best : lacks caption_tag (round_tok float_str i r best).
Proof.
  unfold round_tok, number_tok. assert (X : hd 0 caption_tag <> 100) by discriminate. assert (Y : caption_tag <> t_ "/div") by discriminate.
  apply lacks_app; [lacks_lit|].
  match goal with |- lacks _ (?x :: ?y) => change (x :: y) with ([x] ++ y) end. apply lacks_app; [intros [H|[]]; discriminate H|].
  repeat (apply lacks_app; [lacks_any X Y|]). lacks_any X Y.
Qed.
Lemma lacks_rounds l : forall i, lacks caption_tag (rounds_tok float_str i l).
Proof. induction l as [|r l IH]; intros i; [exact (fun x => x)|]. cbn [rounds_tok]. apply lacks_app; [apply lacks_round|apply IH]. Qed.
Definition L123_front : list token := removelast (tk L123).
Lemma captions gs : text_after caption_tag (flat_map (game_tok float_str) gs ++ tk L183) = map fst gs.
Proof.
  induction gs as [|g gs IH]; [reflexivity|]. cbn [flat_map map]. unfold game_tok at 1. rewrite <- !app_assoc.
  replace (tk L123) with (L123_front ++ [Tag caption_tag]) by reflexivity. rewrite <- app_assoc, text_skip by lacks_lit.
  replace (tk L126) with (Tag (t_ "/span") :: tl (tk L126)) by reflexivity. cbn [app]. rewrite text_here. f_equal. cbn [text_after].
  replace (text_eqb (t_ "/span") caption_tag) with false by reflexivity. rewrite text_skip by lacks_lit. rewrite text_skip by apply lacks_rounds. rewrite text_skip by lacks_lit. exact IH.
Qed.
Definition starts (p s : text) : bool := match without_start p s with Some _ => true | None => false end.
Definition pick (p : text) (ts : list token) : list text := filter (starts p) (tags ts).
Lemma pick_app p a b : pick p (a ++ b) = pick p a ++ pick p b.
Proof. unfold pick. now rewrite tags_app, filter_app. Qed.
Lemma pick_chars p s : pick p (map Char s) = [].
Proof. unfold pick. now rewrite tags_chars. Qed.
Lemma pick_number p z : pick p (number_tok z) = [].
Proof. apply pick_chars. Qed.
Lemma pick_flat {A} p (f : A -> list token) l : pick p (flat_map f l) = flat_map (fun x => pick p (f x)) l.
Proof. induction l as [|x l IH]; [reflexivity|]. cbn [flat_map]. now rewrite pick_app, IH. Qed.
Lemma flat_none {A B} (f : A -> list B) l : (forall x, f x = []) -> flat_map f l = [].
Proof. intros H. induction l as [|x l IH]; [reflexivity|]. cbn [flat_map]. now rewrite H, IH. Qed.
Definition a_tag : text := t_ "a ".
Definition tr_tag : text := t_ "tr style=".
Lemma pick_tiles p size l : p = a_tag \/ p = tr_tag -> pick p (tiles_tok size l) = [].
Proof. intros H. unfold tiles_tok. rewrite pick_flat. apply flat_none. intros t. destruct H as [-> | ->]; reflexivity. Qed.
Lemma pick_rows p l : p = a_tag \/ p = tr_tag -> pick p (flat_map row_tok l) = [].
Proof.
  intros H. rewrite pick_flat. apply flat_none. intros x. unfold row_tok. rewrite !pick_app, !pick_number, !pick_tiles by exact H.
  destruct H as [-> | ->]; vm_compute; reflexivity.
Qed.
Definition colour_of (r : round) : text := colour (escape (float_str (rr_wrong_rate r))) (rr_somebody_richii r).
Lemma pick_round p i r best : p = a_tag \/ p = tr_tag -> pick p (round_tok float_str i r best) = if starts p (colour_of r) then [colour_of r] else [].
Proof.
  intros H. unfold round_tok. fold (colour_of r).
  match goal with |- context [tk L135_space ++ ?x :: ?y] => change (x :: y) with ([x] ++ y) end.
  rewrite !pick_app, !pick_number, !pick_tiles, !pick_rows by exact H. rewrite !pick_flat.
  rewrite (flat_none (fun x => pick p (tiles_tok "big" x ++ tk L139))), (flat_none (fun x => pick p (tk L144 ++ tiles_tok "big" (sh_discard x)))).
  2,3: intros x; rewrite pick_app, pick_tiles by exact H; destruct H as [-> | ->]; vm_compute; reflexivity.
  replace (pick p [Tag (colour_of r)]) with (if starts p (colour_of r) then [colour_of r] else []) by (unfold pick; cbn [tags flat_map app filter]; reflexivity).
  replace (pick p (tk L135_space)) with (@nil text) by reflexivity.
  assert (E : forall x, In x [L136_rest; L137; L140; L141; L142; L145; L153; L154; L158; L159; L163; L168; L174] -> pick p (tk x) = []).
  { intros x I. repeat (destruct I as [<-|I]; [destruct H as [-> | ->]; vm_compute; reflexivity|]). destruct I. }
  rewrite !E by (cbn [In]; tauto). cbn [app]. now rewrite !app_nil_r.
Qed.
Lemma pick_a_rounds l : forall i, pick a_tag (rounds_tok float_str i l) = [].
Proof. induction l as [|r l IH]; intros i; [reflexivity|]. cbn [rounds_tok]. rewrite pick_app, pick_round, IH by now left. unfold colour_of, colour. now destruct (rr_somebody_richii r). Qed.
Lemma pick_tr_rounds l : forall i, pick tr_tag (rounds_tok float_str i l) = map colour_of l.
Proof.
  induction l as [|r l IH]; intros i; [reflexivity|]. cbn [rounds_tok map]. rewrite pick_app, pick_round, IH by now right.
  replace (starts tr_tag (colour_of r)) with true; [reflexivity|]. unfold colour_of, colour. now destruct (rr_somebody_richii r).
Qed.
Lemma pick_game p g : p = a_tag \/ p = tr_tag -> pick p (game_tok float_str g) = pick p (rounds_tok float_str 1 (snd g)).
Proof.
  intros H. unfold game_tok. rewrite !pick_app, pick_chars.
  assert (E : forall x, In x [L123; L126; L179] -> pick p (tk x) = []).
  { intros x I. repeat (destruct I as [<-|I]; [destruct H as [-> | ->]; vm_compute; reflexivity|]). destruct I. }
  rewrite !E by (cbn [In]; tauto). cbn [app]. now rewrite app_nil_r.
Qed.
Lemma pick_rules p bs : p = a_tag \/ p = tr_tag -> pick p (flat_map rule_tok bs) = [].
Proof.
  intros H. rewrite pick_flat. apply flat_none. intros x. unfold rule_tok. rewrite !pick_app, !pick_chars. destruct H as [-> | ->]; reflexivity.
Qed.
Lemma pick_page p bs pg : p = a_tag \/ p = tr_tag -> pick p (page_tok float_str bs pg) =
  (if starts p (t_ "a href=""" ++ escape (link_of pg) ++ [34]) then [t_ "a href=""" ++ escape (link_of pg) ++ [34]] else []) ++
  flat_map (fun g => pick p (rounds_tok float_str 1 (snd g))) (pg_games pg).
Proof.
  intros H. unfold page_tok. rewrite !pick_app, !pick_chars, !pick_tiles, pick_rules, pick_flat by exact H.
  rewrite (flat_map_ext _ _ (fun g => pick_game p g H)).
  assert (E : forall x, In x [L1; L17; L77; L102; L106; L108; L110_rest; L183] -> pick p (tk x) = []).
  { intros x I. repeat (destruct I as [<-|I]; [destruct H as [-> | ->]; vm_compute; reflexivity|]). destruct I. }
  rewrite !E by (cbn [In]; tauto). cbn [app]. rewrite app_nil_r. f_equal. 
Qed.
(** Everything before the text of the player lacks a tag that is no division. *)
Definition front_tok (bs : list (text * list Z)) (p : page) : list token :=
  tk L1 ++ flat_map rule_tok bs ++ tk L17 ++ tk L77 ++ tiles_tok "big" (pg_tiles p) ++ tk L102 ++ tiles_tok "small" (pg_tiles p).
Lemma front_lacks t bs p : hd 0 t <> 100 -> t <> t_ "/div" -> lacks t (tk L1) -> lacks t (tk L17) -> lacks t (tk L77) -> lacks t (tk L102) -> lacks t (front_tok bs p).
Proof.
  intros X Y A B C D. unfold front_tok. apply lacks_app; [exact A|]. apply lacks_app; [apply lacks_rules|]. apply lacks_app; [exact B|]. apply lacks_app; [exact C|].
  apply lacks_app; [now apply lacks_tiles|]. apply lacks_app; [exact D|now apply lacks_tiles].
Qed.
Definition link_tag (p : page) : text := t_ "a href=""" ++ escape (link_of p) ++ [34].
Definition back_tok (p : page) : list token := tk L110_rest ++ flat_map (game_tok float_str) (pg_games p) ++ tk L183.
Lemma lines_join (a b u v w : text) (x : token) player rec rest :
  ([Char 10; Char 10] ++ Tag a :: map Char b) ++ map Char player ++ (map Char u ++ Tag v :: [Char 10; Tag w]) ++ map Char rec ++ [Char 32; x] ++ rest =
  [Char 10; Char 10] ++ Tag a :: map Char (b ++ player ++ u) ++ Tag v :: [Char 10] ++ Tag w :: map Char (rec ++ [32]) ++ x :: rest.
Proof. rewrite !map_app. cbn [app map]. rewrite <- !app_assoc. cbn [app]. reflexivity. Qed.
Lemma page_parts bs p : page_tok float_str bs p =
  front_tok bs p ++ [Char 10; Char 10] ++ Tag (t_ "p") :: map Char (t_ " Player: " ++ pg_player p ++ t_ " ") ++ Tag (t_ "/p") ::
  [Char 10] ++ Tag (t_ "p") :: map Char (pg_record p ++ t_ " ") ++ Tag (link_tag p) :: back_tok p.
Proof.
  unfold page_tok, front_tok, back_tok, link_tag. rewrite <- !app_assoc. do 7 f_equal.
  replace (tk L106) with ([Char 10; Char 10] ++ Tag (t_ "p") :: map Char (t_ " Player: ")) by reflexivity.
  replace (tk L108) with (map Char (t_ " ") ++ Tag (t_ "/p") :: [Char 10; Tag (t_ "p")]) by reflexivity.
  apply lines_join.
Qed.
Lemma text_other t u r : text_eqb u t = false -> text_after t (Tag u :: r) = text_after t r.
Proof. intros H. cbn [text_after]. now rewrite H. Qed.
Lemma paragraphs bs p : firstn 2 (text_after (t_ "p") (page_tok float_str bs p)) = [t_ " Player: " ++ pg_player p ++ t_ " "; pg_record p ++ t_ " "].
Proof.
  rewrite page_parts, text_skip by (apply front_lacks; [discriminate|discriminate|lacks_lit..]). rewrite text_skip by lacks_lit.
  rewrite text_here, text_other by reflexivity. rewrite text_skip by lacks_lit. rewrite text_here. reflexivity.
Qed.
Lemma not_caption u : text_eqb (97 :: u) caption_tag = false.
Proof. reflexivity. Qed.
Lemma page_captions bs p : text_after caption_tag (page_tok float_str bs p) = map fst (pg_games p).
Proof.
  rewrite page_parts, text_skip by (apply front_lacks; [discriminate|discriminate|lacks_lit..]). rewrite text_skip by lacks_lit.
  rewrite text_other by reflexivity. rewrite text_skip by apply lacks_chars. rewrite text_other by reflexivity. rewrite text_skip by lacks_lit.
  rewrite text_other by reflexivity. rewrite text_skip by apply lacks_chars. rewrite text_other by exact (not_caption _).
  unfold back_tok. rewrite text_skip by lacks_lit. apply captions.
Qed.
Lemma link_means s : means (escape s) s.
Proof. split; [apply escape_quote|apply reads_escape]. Qed.
Theorem C106_texts : forall p h, render p = Ok h -> exists ts link, reads h ts /\
  firstn 2 (text_after (t_ "p") ts) = [t_ " Player: " ++ pg_player p ++ t_ " "; pg_record p ++ t_ " "] /\
  text_after (t_ "span class=""game-caption""") ts = map fst (pg_games p) /\
  filter (starts (t_ "a ")) (tags ts) = [t_ "a href=""" ++ link ++ t_ """"] /\
  means link (match pg_url p with Some u => u | None => t_ "None" end).
Proof.
  intros p h R. apply reads_page in R as (bs & _ & _ & R). exists (page_tok float_str (combine (pg_tiles p) bs) p), (escape (link_of p)).
  split; [exact R|]. split; [apply paragraphs|]. split; [apply page_captions|]. split; [|apply link_means].
  change (filter (starts (t_ "a ")) (tags ?x)) with (pick a_tag x). fold (pick a_tag (page_tok float_str (combine (pg_tiles p) bs) p)).
  rewrite (pick_page a_tag) by now left. rewrite flat_none by (intros g; apply pick_a_rounds). reflexivity.
Qed.

Lemma reads_det h ts us : reads h ts -> reads h us -> ts = us.
Proof. unfold reads. congruence. Qed.
Lemma tags_game c d rs : tags (game_tok float_str (c, rs)) = tags (game_tok float_str (d, rs)).
Proof. unfold game_tok. cbn [fst snd]. now rewrite !tags_app, !tags_chars. Qed.
Lemma tags_games l : forall k, map snd l = map snd k -> tags (flat_map (game_tok float_str) l) = tags (flat_map (game_tok float_str) k).
Proof.
  induction l as [|[c rs] l IH]; intros [|[d qs] k] H; try discriminate; [reflexivity|]. cbn [map snd] in H. injection H as -> H.
  cbn [flat_map]. rewrite !tags_app, (tags_game c d). f_equal. now apply IH.
Qed.
Theorem C106_markup : forall p q h k ts us, pg_url p = pg_url q -> pg_tiles p = pg_tiles q -> map snd (pg_games p) = map snd (pg_games q) ->
  render p = Ok h -> render q = Ok k -> reads h ts -> reads k us -> tags ts = tags us.
Proof.
  intros p q h k ts us U T G P Q R S. apply reads_page in P as (bs & B & _ & P). apply reads_page in Q as (cs & C & _ & Q).
  rewrite <- T in C, Q. assert (bs = cs) by congruence. subst cs.
  rewrite (reads_det _ _ _ R P), (reads_det _ _ _ S Q). unfold page_tok, link_of. rewrite T, U, !tags_app, !tags_chars, (tags_games _ _ G). reflexivity.
Qed.

(** ** C107: what is seen on a report *)
Theorem C107_shown : forall semicolons player r url id generate file p h, render_template semicolons player r url id generate = Ok (file, p) -> render p = Ok h ->
  exists ts, reads h ts /\ seen (after_tag (t_ "body") ts) = page_seen p.
Proof.
  intros semi pl r url id g file p h T R. apply reads_page in R as (bs & _ & _ & R). eexists. split; [exact R|]. apply page_shown. eapply rendered_plain; eassumption.
Qed.
Lemma colours bs p : filter (starts (t_ "tr style=")) (tags (page_tok float_str bs p)) = map colour_of (flat_map snd (pg_games p)).
Proof.
  change (pick tr_tag (page_tok float_str bs p) = map colour_of (flat_map snd (pg_games p))). rewrite pick_page by now right.
  replace (starts tr_tag _) with false by reflexivity. rewrite app_nil_l.
  rewrite (flat_map_ext _ (fun g => map colour_of (snd g)) (fun g => pick_tr_rounds (snd g) 1)).
  induction (pg_games p) as [|g l IH]; [reflexivity|]. cbn [flat_map]. now rewrite map_app, IH.
Qed.
Theorem C107_colours : forall p h, render p = Ok h -> exists ts, reads h ts /\
  Forall2 (fun r tag => exists rate, tag = colour rate (rr_somebody_richii r) /\ means rate (float_str (rr_wrong_rate r)))
    (flat_map snd (pg_games p)) (filter (starts (t_ "tr style=")) (tags ts)).
Proof.
  intros p h R. apply reads_page in R as (bs & _ & _ & R). eexists. split; [exact R|]. rewrite colours.
  induction (flat_map snd (pg_games p)) as [|r l IH]; constructor; [|exact IH]. exists (escape (float_str (rr_wrong_rate r))). split; [reflexivity|apply link_means].
Qed.

(** ** C109: the pictures *)
Definition byte (b : Z) : Prop := 0 <= b < 256.
Lemma sextet_char n : 0 <= n < 64 -> sextet (b64_char n) = Some n.
Proof.
  intros B. assert (H : forallb (fun k => match sextet (b64_char (Z.of_nat k)) with Some m => m =? Z.of_nat k | None => false end) (seq 0 64) = true) by (vm_compute; reflexivity).
  rewrite forallb_forall in H. specialize (H (Z.to_nat n)). rewrite Z2Nat.id in H by lia. assert (X := H ltac:(apply in_seq; lia)).
  destruct (sextet (b64_char n)) as [m|]; [|discriminate]. apply Z.eqb_eq in X. now subst.
Qed.
Lemma b64_decodes bytes : Forall byte bytes -> decodes (b64encode bytes) bytes.
Proof.
  assert (H : forall n bytes, (length bytes <= n)%nat -> Forall byte bytes -> decodes (b64encode bytes) bytes).
  2:{ intros F. now apply (H (length bytes)). }
  clear. induction n as [|n IH]; intros bytes L F; [destruct bytes; [constructor|cbn in L; lia]|].
  destruct bytes as [|a [|b [|c r]]]; [constructor| | |].
  - apply Forall_inv in F. unfold byte in F. cbn [b64encode].
    pose proof (decodes_one _ _ _ _ (sextet_char (a / 4) ltac:(Z.to_euclidean_division_equations; lia)) (sextet_char (a mod 4 * 16) ltac:(Z.to_euclidean_division_equations; lia))) as D.
    cbv zeta in D. match type of D with decodes _ [?x] => replace x with a in D by (Z.to_euclidean_division_equations; lia) end. exact D.
  - assert (A := Forall_inv F). apply Forall_inv_tail, Forall_inv in F. unfold byte in A, F. cbn [b64encode].
    pose proof (decodes_two _ _ _ _ _ _ (sextet_char (a / 4) ltac:(Z.to_euclidean_division_equations; lia)) (sextet_char (a mod 4 * 16 + b / 16) ltac:(Z.to_euclidean_division_equations; lia))
      (sextet_char (b mod 16 * 4) ltac:(Z.to_euclidean_division_equations; lia))) as D.
    cbv zeta in D. match type of D with decodes _ [?x; ?y] => replace x with a in D by (Z.to_euclidean_division_equations; lia); replace y with b in D by (Z.to_euclidean_division_equations; lia) end. exact D.
  - assert (A := Forall_inv F). assert (B := Forall_inv (Forall_inv_tail F)). assert (C := Forall_inv (Forall_inv_tail (Forall_inv_tail F))).
    do 3 apply Forall_inv_tail in F. unfold byte in A, B, C. cbn [b64encode].
    pose proof (decodes_three _ _ _ _ _ _ _ _ _ _ (sextet_char (a / 4) ltac:(Z.to_euclidean_division_equations; lia)) (sextet_char (a mod 4 * 16 + b / 16) ltac:(Z.to_euclidean_division_equations; lia))
      (sextet_char (b mod 16 * 4 + c / 64) ltac:(Z.to_euclidean_division_equations; lia)) (sextet_char (c mod 64) ltac:(Z.to_euclidean_division_equations; lia)) (IH r ltac:(cbn in L; lia) F)) as D.
    cbv zeta in D. set (N := ((a / 4 * 64 + (a mod 4 * 16 + b / 16)) * 64 + (b mod 16 * 4 + c / 64)) * 64 + c mod 64) in D.
    assert (E : N = a * 65536 + b * 256 + c) by (unfold N; Z.to_euclidean_division_equations; lia). rewrite E in D.
    replace ((a * 65536 + b * 256 + c) / 65536) with a in D by (Z.to_euclidean_division_equations; lia).
    replace ((a * 65536 + b * 256 + c) / 256 mod 256) with b in D by (rewrite Z.mod_eq by lia; rewrite Z.div_div by lia; Z.to_euclidean_division_equations; lia).
    replace ((a * 65536 + b * 256 + c) mod 256) with c in D by (Z.to_euclidean_division_equations; lia). exact D.
Qed.
Definition style_tag : text := t_ "style type=""text/css""".
Definition rule_text (r : text * list Z) : text := L13 ++ fst r ++ L14 ++ b64encode (snd r) ++ L15.
Definition L1_rules : text := chars (after_tag style_tag (tk L1)).
Definition L17_rules : text := chars (tk L17).
Lemma rules_text bs : flat_map rule_tok bs = map Char (flat_map rule_text bs).
Proof.
  induction bs as [|r bs IH]; [reflexivity|]. cbn [flat_map]. rewrite map_app, <- IH. f_equal. unfold rule_tok, rule_text. rewrite !map_app. reflexivity.
Qed.
Lemma style_first t a x y z u c rest : lacks t a ->
  firstn 1 (text_after t ((a ++ Tag t :: map Char x) ++ map Char y ++ (map Char z ++ Tag u :: c) ++ rest)) = [x ++ y ++ z].
Proof.
  intros A. rewrite <- app_assoc, text_skip by exact A. rewrite <- app_comm_cons.
  replace (map Char x ++ map Char y ++ (map Char z ++ Tag u :: c) ++ rest) with (map Char (x ++ y ++ z) ++ Tag u :: c ++ rest) by (rewrite !map_app, <- !app_assoc; reflexivity).
  now rewrite text_here.
Qed.
Lemma styles bs p : firstn 1 (text_after style_tag (page_tok float_str bs p)) = [L1_rules ++ flat_map rule_text bs ++ L17_rules].
Proof.
  unfold page_tok. rewrite rules_text.
  replace (tk L1) with (firstn (length (tk L1) - S (length L1_rules)) (tk L1) ++ Tag style_tag :: map Char L1_rules) by (vm_compute; reflexivity).
  replace (tk L17) with (map Char L17_rules ++ Tag (t_ "/style") :: after_tag (t_ "/style") (tk L17)) by (vm_compute; reflexivity).
  apply style_first. lacks_lit.
Qed.
Lemma loaded l : forall bs, mapM (fun t => load_raw (t ++ t_ ".png")) l = Ok bs -> forall t, In t l -> exists bytes, load_raw (t ++ t_ ".png") = Ok bytes /\ In (t, bytes) (combine l bs).
Proof.
  induction l as [|x l IH]; intros bs H t I; [destruct I|]. cbn [mapM] in H. destruct (load_raw (x ++ t_ ".png")) as [b|] eqn:E; [|discriminate]. cbn [bindr] in H.
  destruct (mapM _ l) as [cs|] eqn:M; [|discriminate]. cbn [bindr] in H. apply ok_is in H. subst bs. destruct I as [<-|I].
  - exists b. split; [exact E|now left].
  - destruct (IH cs eq_refl t I) as (c & C & J). exists c. split; [exact C|now right].
Qed.
Theorem C109_pictures : forall p h, render p = Ok h -> exists ts css, reads h ts /\ firstn 1 (text_after (t_ "style type=""text/css""") ts) = [css] /\
  forall tile, In tile (pg_tiles p) -> exists bytes code before after, load_raw (tile ++ t_ ".png") = Ok bytes /\
    css = before ++ t_ ".pic" ++ tile ++ t_ " {" ++ [10] ++ t_ "                background-image: url(""data:image/png;base64," ++ code ++ t_ """);" ++ after /\
    (Forall byte bytes -> decodes code bytes).
Proof.
  intros p h R. apply reads_page in R as (bs & B & _ & R).
  exists (page_tok float_str (combine (pg_tiles p) bs) p), (L1_rules ++ flat_map rule_text (combine (pg_tiles p) bs) ++ L17_rules). split; [exact R|]. split; [apply styles|].
  intros t I. destruct (loaded _ _ B t I) as (bytes & L & J). exists bytes, (b64encode bytes). apply in_split in J as (l & r & Q).
  exists (L1_rules ++ flat_map rule_text l ++ [10] ++ repeat 32 12), ([10] ++ t_ "            }" ++ [10] ++ t_ "        " ++ flat_map rule_text r ++ L17_rules).
  split; [exact L|]. split; [|apply b64_decodes].
  etransitivity; [exact (f_equal (fun z => L1_rules ++ flat_map rule_text z ++ L17_rules) Q)|]. cbv beta. rewrite flat_map_app. cbn [flat_map]. unfold rule_text at 2. cbn [fst snd].
  replace L13 with (([10] ++ repeat 32 12) ++ t_ ".pic") by reflexivity.
  replace L14 with (t_ " {" ++ [10] ++ t_ "                background-image: url(""data:image/png;base64,") by reflexivity.
  replace L15 with (t_ """);" ++ [10] ++ t_ "            }" ++ [10] ++ t_ "        ") by reflexivity. rewrite <- !app_assoc. reflexivity.
Qed.
Lemma rounds_total l : Forall plain_round l -> forall i, exists x, rounds_html float_str i l = Ok x.
Proof.
  induction 1 as [|r l A B IH]; intros i; [eexists; reflexivity|]. cbn [rounds_html]. unfold round_html. destruct A as [A _].
  destruct (rr_expected r) as [|best more]; [contradiction|]. cbn [bindr]. destruct (IH (i + 1)) as [x ->]. cbn [bindr]. eexists. reflexivity.
Qed.
Theorem C109_complete : forall semicolons player r url id generate file p, render_template semicolons player r url id generate = Ok (file, p) ->
  (forall tile, picture tile -> exists bytes, load_raw (tile ++ t_ ".png") = Ok bytes) -> exists h, render p = Ok h.
Proof.
  intros semi pl r url id g file p T L. assert (P := rendered_plain _ _ _ _ _ _ _ _ T). destruct P as [_ P].
  assert (A : pg_tiles p = all_tiles).
  { destruct (render_inv _ _ _ _ _ _ _ T) as (? & ? & ? & ? & _ & _ & _ & _ & O). injection O as _ ->. reflexivity. }
  unfold Html.render.
  assert (X : exists rules, mapM (rule load_raw) (pg_tiles p) = Ok rules).
  { apply mapM_total. intros t I. rewrite A in I. apply C88_pictures, L in I as [b E]. unfold rule. rewrite E. cbn [bindr]. eexists. reflexivity. }
  destruct X as [rules ->]. cbn [bindr].
  assert (Y : exists games, mapM (game_html float_str) (pg_games p) = Ok games).
  { apply mapM_total. intros x I. rewrite Forall_forall in P. destruct (rounds_total _ (P x I) 1) as [y E]. unfold game_html. rewrite E. cbn [bindr]. eexists. reflexivity. }
  destruct Y as [games ->]. cbn [bindr]. eexists. reflexivity.
Qed.
End Render.

(** ** C108: the sections of the two patterns *)
(** The sections are filled from attributes that are never set: in every page they stay empty ... *)
Theorem C108_empty : forall semicolons player r url id generate file p, render_template semicolons player r url id generate = Ok (file, p) ->
  forall caption rounds x, In (caption, rounds) (pg_games p) -> In x rounds -> extra "normal_reasonings" x = [] /\ extra "seven_pair_reasonings" x = [].
Proof.
  intros semi pl r url id g file p T c rs x I J. apply rendered_plain in T as [_ T]. rewrite Forall_forall in T. specialize (T _ I). cbn [snd] in T. rewrite Forall_forall in T.
  destruct (T x J) as (_ & _ & _ & _ & _ & _ & E). unfold extra. rewrite E. split; reflexivity.
Qed.
Definition rp_page : option page :=
  match new_record rp_log with Ok r => match parse true (Link rp_url (Ok r)) 0 true with Ok (_, pg) => Some pg | Err _ => None end | Err _ => None end.
(** ... also of a decision that has an analysis. *)
Theorem C108_sections_refuted : exists semicolons events r player url file p caption rounds x,
  new_record events = Ok r /\ render_template semicolons player r (Some url) None true = Ok (file, p) /\ In (caption, rounds) (pg_games p) /\ In x rounds /\
  rr_merged x <> [] /\ extra "normal_reasonings" x ++ extra "seven_pair_reasonings" x = [].
Proof.
  assert (W : match new_record rp_log with Ok r => match nth_error (r_players r) 0 with Some pl => match render_template true pl r (Some rp_url) None true with
    Ok (f, pg) => match pg_games pg with (c, x :: _) :: _ => match rr_merged x with [] => false | _ => true end | _ => false end | _ => false end | _ => false end | _ => false end = true)
    by (vm_compute; reflexivity).
  destruct (new_record rp_log) as [r|] eqn:R; [|discriminate]. destruct (nth_error (r_players r) 0) as [pl|]; [|discriminate].
  destruct (render_template true pl r (Some rp_url) None true) as [[f pg]|] eqn:T; [|discriminate]. destruct (pg_games pg) as [|[c [|x xs]] gs] eqn:G; [discriminate|discriminate|].
  exists true, rp_log, r, pl, rp_url, f, pg, c, (x :: xs), x. split; [exact R|]. split; [exact T|]. rewrite G. split; [now left|]. split; [now left|].
  split; [intros E; rewrite E in W; discriminate|]. destruct (C108_empty _ _ _ _ _ _ _ _ T c (x :: xs) x) as [-> ->]; [rewrite G; now left|now left|reflexivity].
Qed.

(** ** A page: the report for the first player of the log of one deal, with made-up pictures; and texts with markup. *)
Definition no_picture (name : text) : res (list Z) := Ok [137; 80; 78; 71].
Definition tenth (q : Q) : text := t_ "0.1".
Example C107_case : match rp_page with
  | Some p => match render no_picture tenth p with
    | Ok h => let ts := snd (read Data h) in
      fst (read Data h) = Data /\ length (filter (starts (t_ "tr style=")) (tags ts)) = 1%nat /\
      length (filter (fun s => match s with Pic _ _ => true | Word _ => false end) (seen (after_tag (t_ "body") ts))) = 97%nat
    | Err _ => False end
  | None => False end.
Proof. vm_compute. repeat split; reflexivity. Qed.
Example C107_meets : exists r player file p h, new_record rp_log = Ok r /\ render_template true player r (Some rp_url) None true = Ok (file, p) /\
  render no_picture tenth p = Ok h /\ flat_map snd (pg_games p) <> [].
Proof.
  destruct C108_sections_refuted as (semi & _). clear semi.
  assert (W : match new_record rp_log with Ok r => match nth_error (r_players r) 0 with Some pl => match render_template true pl r (Some rp_url) None true with
    Ok (f, pg) => match flat_map snd (pg_games pg) with [] => false | _ => true end | _ => false end | _ => false end | _ => false end = true)
    by (vm_compute; reflexivity).
  destruct (new_record rp_log) as [r|] eqn:R; [|discriminate]. destruct (nth_error (r_players r) 0) as [pl|]; [|discriminate].
  destruct (render_template true pl r (Some rp_url) None true) as [[f pg]|] eqn:T; [|discriminate].
  destruct (C109_complete no_picture tenth _ _ _ _ _ _ _ _ T) as [h H]; [intros; eexists; reflexivity|].
  exists r, pl, f, pg, h. split; [reflexivity|]. split; [exact T|]. split; [exact H|]. intros E. rewrite E in W. discriminate.
Qed.
(** A player called <b>"&amp;", in a deal whose caption is markup as well. *)
Definition evil : text := t_ "<b>""&amp;""</p>'".
Definition evil_page : page := mkPage evil evil (Some (t_ "http://x/?a=1&log=""><script>")) [(evil, [])] [t_ "1m"; t_ "5z"].
Definition tame_page : page := mkPage (t_ "x") [] (Some (t_ "http://x/?a=1&log=""><script>")) [([], [])] [t_ "1m"; t_ "5z"].
Example C106_case : match render no_picture tenth evil_page with
  | Ok h => let ts := snd (read Data h) in fst (read Data h) = Data /\ firstn 1 (text_after (t_ "p") ts) = [t_ " Player: " ++ evil ++ t_ " "] /\
    match render no_picture tenth tame_page with Ok k => tags (snd (read Data k)) = tags ts | Err _ => False end
  | Err _ => False end.
Proof. vm_compute. repeat split; reflexivity. Qed.
Example C109_case : decodes (t_ "iVBORw==") [137; 80; 78; 71] /\ b64encode [137; 80; 78; 71] = t_ "iVBORw==".
Proof. split; [|reflexivity]. apply (b64_decodes [137; 80; 78; 71]). repeat constructor; unfold byte; lia. Qed.

(** ** C110: where a report is saved *)
(** The file is in the current directory exactly if neither the log id nor the name has a slash. *)
Theorem C110_directory_partial : forall id p, In 47 (file_name id p) <-> In 47 id \/ In 47 (player_name p).
Proof.
  intros id p. unfold file_name. rewrite !in_app_iff.
  assert (A : ~ In 47 (t_ "tenhou_record_")) by (vm_compute; intuition discriminate). assert (B : ~ In 47 (t_ "_")) by (vm_compute; intuition discriminate).
  assert (C : ~ In 47 (t_ ".html")) by (vm_compute; intuition discriminate).
  assert (D : ~ In 47 (str_int (pl_index p))).
  { intros I. pose proof (int_chars (pl_index p)) as H. rewrite forallb_forall in H. specialize (H 47 I). discriminate H. }
  tauto.
Qed.
(** A player called [../x]: the report is saved one directory up. *)
Definition up_un : event := mkEvent (t_ "UN") (map (fun kv => if text_eqb (fst kv) (t_ "n0") then (t_ "n0", t_ "%2E%2E%2Fx") else kv) (attrib sh_un)).
Definition up_log : list event := (firstn 2 sh_head ++ up_un :: skipn 3 sh_head ++ removelast rp_deal) ++ [sh_last].
Theorem C110_directory_refuted : exists events r url files, new_record events = Ok r /\ main true r url (t_ "1") = (files, Ok tt) /\
  map fst files = [t_ "tenhou_record_2019010100gm-0009-0000-abc_../x_0.html"].
Proof.
  assert (W : match new_record up_log with Ok r => let (files, out) := main true r rp_url (t_ "1") in (map fst files, is_ok out) | Err _ => ([], false) end =
    ([t_ "tenhou_record_2019010100gm-0009-0000-abc_../x_0.html"], true)) by (vm_compute; reflexivity).
  exists up_log. destruct (new_record up_log) as [r|]; [|discriminate]. exists r, rp_url. destruct (main true r rp_url (t_ "1")) as [files [[]|]]; [|discriminate].
  exists files. split; [reflexivity|]. split; [reflexivity|]. congruence.
Qed.
