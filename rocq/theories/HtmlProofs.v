(** Facts about the report page: how its parts are read. *)
From Verif Require Import Base Category Tile TileSet Parse Text Tenhou Event Reader Url State Checker Show Report Spec_Html Html.
From Coq Require Import String List ZArith QArith Lia Bool.
Import ListNotations.
Open Scope list_scope.
Open Scope Z_scope.

Lemma ok_is {A} (a b : A) : Ok a = Ok b -> b = a.
Proof. congruence. Qed.

(** ** Reading *)
Lemma read_app a b m : read m (a ++ b) = let '(m1, t1) := read m a in let '(m2, t2) := read m1 b in (m2, t1 ++ t2).
Proof.
  revert m. induction a as [|c a IH]; intro m; cbn [app read]; [now destruct (read m b)|].
  destruct (step m c) as [m1 t1]. rewrite IH. destruct (read m1 a) as [m2 t2]. destruct (read m2 b) as [m3 t3]. now rewrite app_assoc.
Qed.
Lemma reads_app a b ta tb : reads a ta -> reads b tb -> reads (a ++ b) (ta ++ tb).
Proof. unfold reads. intros A B. now rewrite read_app, A, B. Qed.
Lemma reads_nil : reads [] [].
Proof. reflexivity. Qed.
Lemma reads_char c : reads (escape_char c) [Char c].
Proof.
  unfold escape_char, reads.
  destruct (Z.eqb_spec c 38); [subst; reflexivity|]. destruct (Z.eqb_spec c 62); [subst; reflexivity|]. destruct (Z.eqb_spec c 60); [subst; reflexivity|].
  destruct (Z.eqb_spec c 39); [subst; reflexivity|]. destruct (Z.eqb_spec c 34); [subst; reflexivity|].
  cbn [read step]. destruct (Z.eqb_spec c 60); [lia|]. destruct (Z.eqb_spec c 38); [lia|]. reflexivity.
Qed.
Lemma reads_escape s : reads (escape s) (map Char s).
Proof. induction s as [|c s IH]; [reflexivity|]. exact (reads_app _ _ [Char c] _ (reads_char c) IH). Qed.
Lemma reads_flat {A} (f : A -> text) (g : A -> list token) l : (forall x, In x l -> reads (f x) (g x)) -> reads (flat_map f l) (flat_map g l).
Proof.
  induction l as [|x l IH]; intros H; [reflexivity|]. cbn [flat_map]. apply reads_app; [apply H; now left|]. apply IH. intros y Y. apply H. now right.
Qed.
Lemma escape_char_quote c : ~ In 34 (escape_char c).
Proof.
  unfold escape_char. destruct (Z.eqb_spec c 38); [vm_compute; intuition discriminate|]. destruct (Z.eqb_spec c 62); [vm_compute; intuition discriminate|].
  destruct (Z.eqb_spec c 60); [vm_compute; intuition discriminate|]. destruct (Z.eqb_spec c 39); [vm_compute; intuition discriminate|].
  destruct (Z.eqb_spec c 34); [vm_compute; intuition discriminate|]. intros [X|[]]. congruence.
Qed.
Lemma escape_quote s : ~ In 34 (escape s).
Proof. unfold escape. intros H. apply in_flat_map in H as (c & _ & H). exact (escape_char_quote c H). Qed.
Lemma read_name name : ~ In 62 name -> ~ In 34 name -> forall s rest, read (InTag s) (name ++ rest) = read (InTag (s ++ name)) rest.
Proof.
  induction name as [|c name IH]; intros A B s rest; cbn [app]; [now rewrite app_nil_r|]. cbn [read step].
  destruct (Z.eqb_spec c 62); [subst; destruct A; now left|]. destruct (Z.eqb_spec c 34); [subst; destruct B; now left|].
  rewrite IH; [|intro; apply A; now right|intro; apply B; now right]. rewrite <- app_assoc. cbn [app]. destruct (read _ rest). reflexivity.
Qed.
Lemma read_quoted q : ~ In 34 q -> forall s rest, read (InQuotes s) (q ++ rest) = read (InQuotes (s ++ q)) rest.
Proof.
  induction q as [|c q IH]; intros B s rest; cbn [app]; [now rewrite app_nil_r|]. cbn [read step].
  destruct (Z.eqb_spec c 34); [subst; destruct B; now left|].
  rewrite IH; [|intro; apply B; now right]. rewrite <- app_assoc. cbn [app]. destruct (read _ rest). reflexivity.
Qed.
(** A tag with one attribute. *)
Lemma reads_tag name q : ~ In 62 name -> ~ In 34 name -> ~ In 34 q ->
  reads (60 :: name ++ 34 :: q ++ [34; 62]) [Tag (name ++ 34 :: q ++ [34])].
Proof.
  intros A B C. unfold reads. cbn [read step Z.eqb Pos.eqb]. rewrite read_name by assumption. cbn [app read step Z.eqb Pos.eqb].
  rewrite read_quoted by assumption. cbn [app read step Z.eqb Pos.eqb]. cbn [app]. do 2 f_equal. f_equal. rewrite <- !app_assoc. reflexivity.
Qed.

(** ** The tokens of the parts *)
Definition tk (s : text) : list token := snd (read Data s).
Definition tile_tok (size t : text) : list token := [Tag (t_ "div class=""pic" ++ escape t ++ t_ " " ++ escape size ++ [34]); Tag (t_ "/div")].
Definition tiles_tok (size : string) (l : list text) : list token := flat_map (tile_tok (t_ size)) l.
Definition number_tok (z : Z) : list token := map Char (str_int z).
Definition rule_tok (r : text * list Z) : list token := tk L13 ++ map Char (fst r) ++ tk L14 ++ map Char (b64encode (snd r)) ++ tk L15.
Definition row_tok (x : shown) : list token :=
  tk L87 ++ tiles_tok "small" (sh_discard x) ++ tk L89 ++ number_tok (sh_step x) ++ tk L91 ++ number_tok (sh_count x) ++
  tk L92 ++ tiles_tok "small" (sh_useful x) ++ tk L95.
Definition L135_space : text := 10 :: repeat 32 20.
Definition L136_rest : text := skipn 4 L136.
Definition round_tok (float_str : Q -> text) (i : Z) (r : round) (best : shown) : list token :=
  tk L135_space ++ Tag (colour (escape (float_str (rr_wrong_rate r))) (rr_somebody_richii r)) :: tk L136_rest ++ number_tok i ++
  tk L137 ++ flat_map (fun meld => tiles_tok "big" meld ++ tk L139) (rr_melds r) ++
  tk L140 ++ tiles_tok "big" (rr_hand r) ++
  tk L141 ++ tiles_tok "big" (sh_discard (rr_choice r)) ++
  tk L142 ++ flat_map (fun x => tk L144 ++ tiles_tok "big" (sh_discard x)) (rr_expected r) ++
  tk L145 ++ number_tok (sh_step best) ++ tk L153 ++ number_tok (sh_count best) ++
  tk L154 ++ number_tok (sh_step (rr_choice r)) ++ tk L158 ++ number_tok (sh_count (rr_choice r)) ++
  tk L159 ++ flat_map row_tok (rr_merged r) ++
  tk L163 ++ flat_map row_tok (extra "normal_reasonings" r) ++
  tk L168 ++ flat_map row_tok (extra "seven_pair_reasonings" r) ++
  tk L174.
Definition nothing : shown := mkShown [] 0 [] 0.
Definition best_of (r : round) : shown := hd nothing (rr_expected r).
Fixpoint rounds_tok (float_str : Q -> text) (i : Z) (l : list round) : list token :=
  match l with [] => [] | r :: rest => round_tok float_str i r (best_of r) ++ rounds_tok float_str (i + 1) rest end.
Definition game_tok (float_str : Q -> text) (g : text * list round) : list token :=
  tk L123 ++ map Char (fst g) ++ tk L126 ++ rounds_tok float_str 1 (snd g) ++ tk L179.
Definition link_of (p : page) : text := match pg_url p with Some u => u | None => t_ "None" end.
Definition L110_rest : text := skipn 2 L110.
Definition page_tok (float_str : Q -> text) (rules : list (text * list Z)) (p : page) : list token :=
  tk L1 ++ flat_map rule_tok rules ++ tk L17 ++ tk L77 ++ tiles_tok "big" (pg_tiles p) ++ tk L102 ++ tiles_tok "small" (pg_tiles p) ++
  tk L106 ++ map Char (pg_player p) ++ tk L108 ++ map Char (pg_record p) ++
  [Char 32; Tag (t_ "a href=""" ++ escape (link_of p) ++ [34])] ++
  tk L110_rest ++ flat_map (game_tok float_str) (pg_games p) ++ tk L183.

Ltac lit := unfold reads; vm_compute; reflexivity.
Ltac not_there := vm_compute; intuition discriminate.
Lemma reads_tile size t : reads (L81 ++ escape t ++ L82 ++ escape size ++ L83) (tile_tok size t).
Proof.
  replace (L81 ++ escape t ++ L82 ++ escape size ++ L83)
    with ((60 :: t_ "div class=" ++ 34 :: (t_ "pic" ++ escape t ++ t_ " " ++ escape size) ++ [34; 62]) ++ t_ "</div>").
  2:{ unfold L81, L82, L83. rewrite <- !app_assoc. cbn [app]. change (t_ "<div class=""pic") with (60 :: t_ "div class=" ++ 34 :: t_ "pic").
      cbn [app]. rewrite <- !app_assoc. cbn [app]. rewrite <- !app_assoc. reflexivity. }
  replace (tile_tok size t) with ([Tag (t_ "div class=" ++ 34 :: (t_ "pic" ++ escape t ++ t_ " " ++ escape size) ++ [34])] ++ [Tag (t_ "/div")]).
  2:{ unfold tile_tok. cbn [app]. f_equal. f_equal. rewrite <- !app_assoc. reflexivity. }
  apply reads_app; [apply reads_tag; [not_there|not_there|]|lit].
  rewrite !in_app_iff. intros [H|[H|[H|H]]]; [revert H; not_there|exact (escape_quote _ H)|revert H; not_there|exact (escape_quote _ H)].
Qed.
Lemma reads_tiles size l : reads (tile_divs (t_ size) l) (tiles_tok size l).
Proof. apply reads_flat. intros t _. apply reads_tile. Qed.
Lemma reads_number z : reads (number z) (number_tok z).
Proof. apply reads_escape. Qed.
Lemma reads_row x : reads (reasoning_row x) (row_tok x).
Proof.
  unfold reasoning_row, row_tok. repeat (apply reads_app; [first [apply reads_tiles|apply reads_number|lit]|]). lit.
Qed.
Lemma reads_rows l : reads (reasoning_display l) (flat_map row_tok l).
Proof. apply reads_flat. intros x _. apply reads_row. Qed.
Section Page.
Variable load_raw : text -> res (list Z).
Variable float_str : Q -> text.
Lemma reads_round i r h : round_html float_str i r = Ok h -> rr_expected r <> [] /\ reads h (round_tok float_str i r (best_of r)).
Proof.
  unfold round_html. destruct (rr_expected r) as [|best more] eqn:Ex; [discriminate|]. replace (best_of r) with best by (unfold best_of; now rewrite Ex). rewrite <- Ex. intros H. apply ok_is in H. subst h.
  split; [rewrite Ex; discriminate|].
  replace (L135 ++ (if rr_somebody_richii r then L136_blue else L136_red) ++ escape (float_str (rr_wrong_rate r)) ++ L136 ++ number i ++
    L137 ++ flat_map (fun meld => tile_divs (t_ "big") meld ++ L139) (rr_melds r) ++
    L140 ++ tile_divs (t_ "big") (rr_hand r) ++
    L141 ++ tile_divs (t_ "big") (sh_discard (rr_choice r)) ++
    L142 ++ flat_map (fun reasoning => L144 ++ tile_divs (t_ "big") (sh_discard reasoning)) (rr_expected r) ++
    L145 ++ number (sh_step best) ++ L153 ++ number (sh_count best) ++
    L154 ++ number (sh_step (rr_choice r)) ++ L158 ++ number (sh_count (rr_choice r)) ++
    L159 ++ reasoning_display (rr_merged r) ++
    L163 ++ reasoning_display (extra "normal_reasonings" r) ++
    L168 ++ reasoning_display (extra "seven_pair_reasonings" r) ++
    L174)
  with (L135_space ++ (60 :: t_ "tr style=" ++ 34 :: (t_ "background-color: " ++ (if rr_somebody_richii r then L136_blue else L136_red) ++
          escape (float_str (rr_wrong_rate r)) ++ t_ ");") ++ [34; 62]) ++ L136_rest ++ number i ++
    L137 ++ flat_map (fun meld => tile_divs (t_ "big") meld ++ L139) (rr_melds r) ++
    L140 ++ tile_divs (t_ "big") (rr_hand r) ++
    L141 ++ tile_divs (t_ "big") (sh_discard (rr_choice r)) ++
    L142 ++ flat_map (fun reasoning => L144 ++ tile_divs (t_ "big") (sh_discard reasoning)) (rr_expected r) ++
    L145 ++ number (sh_step best) ++ L153 ++ number (sh_count best) ++
    L154 ++ number (sh_step (rr_choice r)) ++ L158 ++ number (sh_count (rr_choice r)) ++
    L159 ++ reasoning_display (rr_merged r) ++
    L163 ++ reasoning_display (extra "normal_reasonings" r) ++
    L168 ++ reasoning_display (extra "seven_pair_reasonings" r) ++
    L174).
  2:{ replace L135 with (L135_space ++ 60 :: t_ "tr style=" ++ 34 :: t_ "background-color: ") by reflexivity.
      replace L136 with (t_ ");" ++ [34; 62] ++ L136_rest) by reflexivity.
      rewrite <- !app_assoc. cbn [app]. rewrite <- !app_assoc. cbn [app]. rewrite <- !app_assoc. cbn [app]. reflexivity. }
  unfold round_tok. apply reads_app; [lit|].
  match goal with |- reads (?a ++ ?b) (?x :: ?y) => change (x :: y) with ([x] ++ y) end.
  apply reads_app.
  { replace (colour (escape (float_str (rr_wrong_rate r))) (rr_somebody_richii r)) with
      (t_ "tr style=" ++ 34 :: (t_ "background-color: " ++ (if rr_somebody_richii r then L136_blue else L136_red) ++
          escape (float_str (rr_wrong_rate r)) ++ t_ ");") ++ [34]).
    2:{ unfold colour. destruct (rr_somebody_richii r); rewrite <- !app_assoc; reflexivity. }
    apply reads_tag; [not_there|not_there|]. rewrite !in_app_iff.
    intros [H|[H|[H|H]]]; [revert H; not_there|destruct (rr_somebody_richii r); revert H; not_there|exact (escape_quote _ H)|revert H; not_there]. }
  repeat (apply reads_app; [first [apply reads_tiles|apply reads_number|apply reads_rows|lit|apply reads_flat; intros ? _; apply reads_app; first [apply reads_tiles|lit]]|]). lit.
Qed.
Lemma reads_rounds l : forall i h, rounds_html float_str i l = Ok h -> Forall (fun r => rr_expected r <> []) l /\ reads h (rounds_tok float_str i l).
Proof.
  induction l as [|r l IH]; intros i h H; cbn [rounds_html] in H; [injection H as <-; split; [constructor|apply reads_nil]|].
  destruct (round_html float_str i r) as [a|] eqn:Ea; [|discriminate]. cbn [bindr] in H. destruct (rounds_html float_str (i + 1) l) as [b|] eqn:Eb; [|discriminate].
  cbn [bindr] in H. apply ok_is in H. subst h. apply reads_round in Ea as [N A]. apply IH in Eb as [F B]. split; [now constructor|]. cbn [rounds_tok]. now apply reads_app.
Qed.
Lemma reads_game g h : game_html float_str g = Ok h -> Forall (fun r => rr_expected r <> []) (snd g) /\ reads h (game_tok float_str g).
Proof.
  unfold game_html. destruct (rounds_html float_str 1 (snd g)) as [rows|] eqn:E; [|discriminate]. cbn [bindr]. intros H. apply ok_is in H. subst h.
  apply reads_rounds in E as [F E]. split; [exact F|]. unfold game_tok.
  apply reads_app; [lit|]. apply reads_app; [apply reads_escape|]. apply reads_app; [lit|]. apply reads_app; [exact E|lit].
Qed.
Lemma reads_games gs : forall hs, mapM (game_html float_str) gs = Ok hs ->
  Forall (fun g => Forall (fun r => rr_expected r <> []) (snd g)) gs /\ reads (concat hs) (flat_map (game_tok float_str) gs).
Proof.
  induction gs as [|g gs IH]; intros hs H; cbn [mapM] in H; [injection H as <-; split; [constructor|apply reads_nil]|].
  destruct (game_html float_str g) as [a|] eqn:Ea; [|discriminate]. cbn [bindr] in H. destruct (mapM _ gs) as [b|] eqn:Eb; [|discriminate]. cbn [bindr] in H. injection H as <-.
  apply reads_game in Ea as [N A]. destruct (IH b eq_refl) as [F B]. split; [now constructor|]. cbn [concat flat_map]. now apply reads_app.
Qed.
Lemma b64_char_in n : In (b64_char n) b64_alphabet.
Proof. unfold b64_char. destruct (nth_in_or_default (Z.to_nat n) b64_alphabet 65) as [H| ->]; [exact H|]. left. reflexivity. Qed.
Lemma b64_in bytes : forall c, In c (b64encode bytes) -> In c (61 :: b64_alphabet).
Proof.
  assert (H : forall n bytes, (length bytes <= n)%nat -> forall c, In c (b64encode bytes) -> In c (61 :: b64_alphabet)).
  2:{ intros c. exact (H _ bytes (le_n _) c). }
  clear bytes. induction n as [|n IH]; intros bytes L c H; [destruct bytes; [destruct H|cbn in L; lia]|].
  destruct bytes as [|x [|y [|z r]]]; [destruct H| | |]; cbn [b64encode] in H.
  - destruct H as [<-|[<-|[<-|[<-|[]]]]]; try (now left); right; apply b64_char_in.
  - destruct H as [<-|[<-|[<-|[<-|[]]]]]; try (now left); right; apply b64_char_in.
  - destruct H as [<-|[<-|[<-|[<-|H]]]]; [right; apply b64_char_in..|]. apply (IH r); [cbn in L; lia|exact H].
Qed.
Lemma reads_plain s : (forall c, In c s -> c <> 60 /\ c <> 38) -> reads s (map Char s).
Proof.
  induction s as [|c s IH]; intros H; [apply reads_nil|]. destruct (H c (or_introl eq_refl)) as [A B]. unfold reads. cbn [read step].
  destruct (Z.eqb_spec c 60); [contradiction|]. destruct (Z.eqb_spec c 38); [contradiction|]. rewrite IH by (intros d D; apply H; now right). reflexivity.
Qed.
Lemma reads_b64 bytes : reads (b64encode bytes) (map Char (b64encode bytes)).
Proof.
  apply reads_plain. intros c H. apply b64_in in H. assert (F : Forall (fun c => c <> 60 /\ c <> 38) (61 :: b64_alphabet)) by (vm_compute; repeat constructor; discriminate).
  rewrite Forall_forall in F. auto.
Qed.
Lemma reads_rules l : forall hs, mapM (rule load_raw) l = Ok hs ->
  exists bs, mapM (fun t => load_raw (t ++ t_ ".png")) l = Ok bs /\ reads (concat hs) (flat_map rule_tok (combine l bs)).
Proof.
  induction l as [|t l IH]; intros hs H; cbn [mapM] in H; [injection H as <-; exists []; split; [reflexivity|apply reads_nil]|].
  unfold rule at 1 in H. destruct (load_raw (t ++ t_ ".png")) as [bytes|] eqn:Eb; [|discriminate]. cbn [bindr] in H. destruct (mapM (rule load_raw) l) as [b|] eqn:Er; [|discriminate].
  cbn [bindr] in H. apply ok_is in H. subst hs. destruct (IH b eq_refl) as (bs & A & B). exists (bytes :: bs). cbn [mapM]. rewrite Eb. cbn [bindr]. rewrite A. split; [reflexivity|].
  cbn [concat combine flat_map]. apply reads_app; [|exact B]. unfold rule_tok. cbn [fst snd].
  apply reads_app; [lit|]. apply reads_app; [apply reads_escape|]. apply reads_app; [lit|]. apply reads_app; [apply reads_b64|lit].
Qed.
(** The tokens of the page. *)
Lemma reads_page p h : render load_raw float_str p = Ok h ->
  exists bs, mapM (fun t => load_raw (t ++ t_ ".png")) (pg_tiles p) = Ok bs /\
    Forall (fun g => Forall (fun r => rr_expected r <> []) (snd g)) (pg_games p) /\
    reads h (page_tok float_str (combine (pg_tiles p) bs) p).
Proof.
  unfold render. destruct (mapM (rule load_raw) (pg_tiles p)) as [rules|] eqn:Er; [|discriminate]. cbn [bindr].
  destruct (mapM (game_html float_str) (pg_games p)) as [games|] eqn:Eg; [|discriminate]. cbn [bindr]. intros H. apply ok_is in H. subst h.
  apply reads_rules in Er as (bs & A & R). apply reads_games in Eg as [F G]. exists bs. split; [exact A|]. split; [exact F|]. unfold page_tok, link_of.
  set (link := match pg_url p with Some u => u | None => t_ "None" end).
  do 2 (apply reads_app; [first [exact R|lit]|]). do 2 (apply reads_app; [lit|]). apply reads_app; [apply reads_tiles|]. apply reads_app; [lit|]. apply reads_app; [apply reads_tiles|].
  apply reads_app; [lit|]. apply reads_app; [apply reads_escape|]. apply reads_app; [lit|]. apply reads_app; [apply reads_escape|].
  replace (L109 ++ escape link ++ L110 ++ concat games ++ L183) with
    ((t_ " " ++ (60 :: t_ "a href=" ++ 34 :: escape link ++ [34; 62])) ++ L110_rest ++ concat games ++ L183).
  2:{ replace L109 with (t_ " " ++ 60 :: t_ "a href=" ++ [34]) by reflexivity. replace L110 with ([34; 62] ++ L110_rest) by reflexivity.
      rewrite <- !app_assoc. cbn [app]. rewrite <- !app_assoc. cbn [app]. rewrite <- !app_assoc. reflexivity. }
  apply reads_app.
  { change [Char 32; Tag (t_ "a href=""" ++ escape link ++ [34])] with ([Char 32] ++ [Tag (t_ "a href=" ++ 34 :: escape link ++ [34])]).
    apply reads_app; [lit|]. apply reads_tag; [not_there|not_there|apply escape_quote]. }
  apply reads_app; [lit|]. apply reads_app; [exact G|lit].
Qed.
End Page.
