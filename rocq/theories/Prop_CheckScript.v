(** C116: the script that makes the reports, from the lines typed in to the pages looked at. *)
From Coq Require Import String.
From Verif Require Import Base Category Tile TileSet Parse Text Tenhou Event Reader Url State Spec_Log Checker Spec_Checker Show Record Spec_Read Report Prop_Report Prop_Show Prop_Meld Spec_Turns Prop_Turns Prop_TurnsPage.
From Verif Require Import Xml Spec_Xml FromText Prop_Xml Html Prop_Html Export Spec_Export Prop_Export Spec_Url Prop_Url LogCheck TurnsCheck Prop_TurnsExample Spec_Html CheckScript.
From Coq Require Import List ZArith QArith Lia Bool.
Import ListNotations.
Open Scope list_scope.
Open Scope Z_scope.

Section Script.
Variable semicolons : bool.
Variable server : text -> res text.
Variable load_raw : text -> res (list Z).
Variable float_str : Q -> text.
Variable opens : text -> res unit.
Variable abspath : text -> text.
Local Notation check := (check semicolons server load_raw float_str opens abspath).
Local Notation save_reports := (save_reports semicolons load_raw float_str opens abspath).

(** The page of a player can be made: [h] is its content. *)
Definition page_of (r : record) (url : text) (p : player) (h : text) : Prop :=
  exists file pg, render_template semicolons p r (Some url) None true = Ok (file, pg) /\ render load_raw float_str pg = Ok h.

Lemma save_inv r url id : log_id_from_url semicolons url = Ok id -> forall planned d o, save_reports r url planned = (d, o) ->
  exists pages rest, planned = map fst pages ++ rest /\
    d = flat_map (fun ph => [Saved (file_name id (fst ph)) (snd ph); Said (t_ "report has been saved to " ++ abspath (file_name id (fst ph)))]) pages /\
    Forall (fun ph => page_of r url (fst ph) (snd ph) /\ opens (file_name id (fst ph)) = Ok tt) pages /\
    match rest with
    | [] => o = Ok tt
    | p :: _ => o <> Ok tt /\ forall h, page_of r url p h -> opens (file_name id p) <> Ok tt
    end.
Proof.
  intro Ei. induction planned as [|p planned IH]; intros d o E; cbn [CheckScript.save_reports] in E.
  - injection E as <- <-. exists [], []. repeat split; auto.
  - destruct (render_template semicolons p r (Some url) None true) as [[file pg]|x] eqn:R.
    2:{ cbn [bindr] in E. injection E as <- <-. exists [], (p :: planned). split; [reflexivity|]. split; [reflexivity|]. split; [constructor|]. split; [discriminate|].
        intros h (f & pg & Q & _). rewrite Q in R. discriminate. }
    assert (Ef : file = Some (file_name id p)).
    { apply render_inv in R. destruct R as (games & ids & pt & rt & _ & _ & _ & (i & Q & ->) & O). rewrite Ei in Q. apply Ok_inj in Q. subst i. injection O as -> _. reflexivity. }
    subst file. cbn [bindr fst snd] in E. destruct (render load_raw float_str pg) as [h|x] eqn:Rh.
    2:{ cbn [bindr] in E. injection E as <- <-. exists [], (p :: planned). split; [reflexivity|]. split; [reflexivity|]. split; [constructor|]. split; [discriminate|].
        intros h (f & pg' & Q & Q'). assert (pg' = pg) by congruence. congruence. }
    cbn [bindr] in E. destruct (opens (file_name id p)) as [[]|x] eqn:Op.
    2:{ cbn [bindr] in E. injection E as <- <-. exists [], (p :: planned). split; [reflexivity|]. split; [reflexivity|]. split; [constructor|]. split; [discriminate|].
        intros. rewrite Op. discriminate. }
    cbn [bindr] in E. destruct (save_reports r url planned) as [d' o'] eqn:Es. injection E as <- <-.
    destruct (IH d' o' eq_refl) as (pages & rest & -> & -> & F & O). exists ((p, h) :: pages), rest. split; [reflexivity|]. split; [reflexivity|]. split; [|exact O].
    constructor; [|exact F]. split; [|exact Op]. exists (Some (file_name id p)), pg. auto.
Qed.
(** Numbered from [i]. *)
Fixpoint numbered (i : Z) (names : list text) : list deed :=
  match names with [] => [] | s :: r => Said (t_ "[" ++ str_int i ++ t_ "]: " ++ s) :: numbered (i + 1) r end.
Lemma listed players names : Forall2 (fun p s => player_str p = Ok s) players names -> forall i, list_players i players = (numbered i names, Ok tt).
Proof. induction 1 as [|p s players names E F IH]; intro i; cbn [list_players numbered]; [reflexivity|]. now rewrite E, IH. Qed.
Lemma listing players : forall i d o, list_players i players = (d, o) -> forall f h, ~ In (Saved f h) d.
Proof.
  induction players as [|p players IH]; intros i d o E f h; cbn [list_players] in E; [injection E as <- _; now intros []|].
  destruct (player_str p); [|injection E as <- _; now intros []]. destruct (list_players (i + 1) players) as [d' o'] eqn:El. injection E as <- _.
  intros [Q|Q]; [discriminate|]. exact (IH _ _ _ El _ _ Q).
Qed.
Lemma url_read url id t root events : log_id_from_url semicolons url = Ok id -> server (t_ "http://e.mjv.jp/0/log/?" ++ id) = Ok t ->
  document root events t -> CheckScript.from_url semicolons server url = Read (new_record events).
Proof. intros A B D. unfold CheckScript.from_url, download_url. rewrite A. cbn [bindr]. rewrite B. exact (C112_record _ _ _ D). Qed.
Lemma url_inv url r : CheckScript.from_url semicolons server url = Read (Ok r) ->
  exists id t root events, log_id_from_url semicolons url = Ok id /\ server (t_ "http://e.mjv.jp/0/log/?" ++ id) = Ok t /\ document root events t /\ new_record events = Ok r.
Proof.
  unfold CheckScript.from_url, download_url. destruct (log_id_from_url semicolons url) as [id|]; [|discriminate]. cbn [bindr].
  destruct (server _) as [t|] eqn:S; [|discriminate]. unfold from_file, with_elements. destruct (fromstring t) as [root es| |] eqn:F; try discriminate.
  intro Q. injection Q as Q. exists id, t, root, es. split; [reflexivity|]. split; [exact S|]. split; [now apply C112_exactly|exact Q].
Qed.

(** What is asked, printed and written, in order: the pages of the first of the selected players,
    of all of them unless an error ends the run. *)
Theorem C116_transcript : forall line answer id t root events r names planned,
  log_id_from_url semicolons (py_strip line) = Ok id -> server (t_ "http://e.mjv.jp/0/log/?" ++ id) = Ok t -> document root events t -> new_record events = Ok r ->
  Forall2 (fun p s => player_str p = Ok s) (r_players r) names -> planned_players (r_players r) answer = Ok planned ->
  exists pages rest outcome, planned = map fst pages ++ rest /\ (outcome = Ok tt <-> rest = []) /\
    Forall (fun ph => page_of r (py_strip line) (fst ph) (snd ph)) pages /\
    check line answer =
      ([Asked (t_ "Input your tenhou.net log link:"); Said (t_ "read successful. pick a number to select player:")] ++ numbered 1 names ++
       [Asked (t_ "please select a number[1-" ++ str_int (Z.of_nat (length (r_players r))) ++ t_ "] as player id , otherwise for all players:")] ++
       flat_map (fun ph => [Saved (file_name id (fst ph)) (snd ph); Said (t_ "report has been saved to " ++ abspath (file_name id (fst ph)))]) pages,
       Read outcome).
Proof.
  intros line answer id t root events r names planned A B D N L P.
  destruct (save_reports r (py_strip line) planned) as [d o] eqn:E. destruct (save_inv r _ id A planned d o E) as (pages & rest & P1 & P2 & P3 & P4).
  exists pages, rest, o. split; [exact P1|]. split; [|split].
  - destruct rest; [tauto|]. split; [tauto|discriminate].
  - eapply Forall_impl; [|exact P3]. intros ph X. apply X.
  - unfold CheckScript.check. cbv zeta. rewrite (url_read _ _ _ _ _ A B D), N, (listed _ _ L), P, E, P2. rewrite <- !app_assoc. reflexivity.
Qed.
(** If the analysis of all selected players can be made, the pictures can be loaded and the files
    opened, then all are written. *)
Theorem C116_all : forall line answer id t root events r names planned,
  log_id_from_url semicolons (py_strip line) = Ok id -> server (t_ "http://e.mjv.jp/0/log/?" ++ id) = Ok t -> document root events t -> new_record events = Ok r ->
  Forall2 (fun p s => player_str p = Ok s) (r_players r) names -> planned_players (r_players r) answer = Ok planned ->
  (forall tile, picture tile -> exists bytes, load_raw (tile ++ t_ ".png") = Ok bytes) -> (forall f, opens f = Ok tt) ->
  Forall (fun p => exists out, render_template semicolons p r (Some (py_strip line)) None true = Ok out) planned ->
  exists deeds, check line answer = (deeds, Read (Ok tt)) /\
    flat_map (fun d => match d with Saved f _ => [f] | _ => [] end) deeds = map (file_name id) planned.
Proof.
  intros line answer id t root events r names planned A B D N L P Pic Op Rd.
  destruct (save_reports r (py_strip line) planned) as [d o] eqn:E. destruct (save_inv r _ id A planned d o E) as (pages & rest & P1 & P2 & P3 & P4).
  assert (rest = []).
  { destruct rest as [|p rest]; [reflexivity|]. exfalso. destruct P4 as [_ P4]. rewrite P1 in Rd. apply Forall_app in Rd. destruct Rd as [_ Rd]. inversion Rd as [|? ? [[file pg] R] _]; subst.
    destruct (C109_complete load_raw float_str _ _ _ _ _ _ _ _ R Pic) as [h Rh]. apply (P4 h); [|apply Op]. exists file, pg. auto. }
  subst rest. rewrite app_nil_r in P1.
  eexists. split.
  - unfold CheckScript.check. cbv zeta. rewrite (url_read _ _ _ _ _ A B D), N, (listed _ _ L), P, E. rewrite P4. reflexivity.
  - assert (G : forall i, flat_map (fun d => match d with Saved f _ => [f] | _ => [] end) (numbered i names) = []) by (clear; induction names; intro i; cbn [numbered flat_map app]; auto).
    rewrite flat_map_app. cbn [flat_map app]. rewrite flat_map_app, G. cbn [flat_map app]. rewrite P2, P1. clear. induction pages as [|ph pages IH]; cbn [flat_map map app]; [reflexivity|]. now rewrite IH.
Qed.

(** Nothing is written but pages of players of a log that was found and read. *)
Theorem C116_only : forall line answer deeds o file h, check line answer = (deeds, o) -> In (Saved file h) deeds ->
  exists id t root events r p, log_id_from_url semicolons (py_strip line) = Ok id /\ server (t_ "http://e.mjv.jp/0/log/?" ++ id) = Ok t /\
    document root events t /\ new_record events = Ok r /\ In p (r_players r) /\ file = file_name id p /\ page_of r (py_strip line) p h.
Proof.
  intros line answer deeds o file h E I0. unfold CheckScript.check in E. cbv zeta in E.
  destruct (CheckScript.from_url semicolons server (py_strip line)) as [[r|x]| |] eqn:U; try (injection E as <- _; destruct I0 as [Q|[]]; discriminate).
  destruct (url_inv _ _ U) as (id & t & root & events & A & B & D & N).
  destruct (list_players 1 (r_players r)) as [d0 o0] eqn:El. pose proof (listing _ _ _ _ El) as Nl.
  destruct o0; [|injection E as <- _; destruct I0 as [Q|[Q|Q]]; try discriminate; exfalso; now apply (Nl _ _ Q)].
  destruct (planned_players (r_players r) answer) as [planned|] eqn:P.
  2:{ injection E as <- _. destruct I0 as [Q|[Q|Q]]; try discriminate. apply in_app_or in Q. destruct Q as [Q|[Q|[]]]; [exfalso; now apply (Nl _ _ Q)|discriminate]. }
  destruct (save_reports r (py_strip line) planned) as [d1 o1] eqn:Es. injection E as <- _.
  destruct I0 as [Q|[Q|Q]]; try discriminate. apply in_app_or in Q. destruct Q as [Q|Q].
  { apply in_app_or in Q. destruct Q as [Q|[Q|[]]]; [exfalso; now apply (Nl _ _ Q)|discriminate]. }
  destruct (save_inv r _ id A planned d1 o1 Es) as (pages & rest & P1 & P2 & P3 & _). rewrite P2 in Q. apply in_flat_map in Q. destruct Q as ([p h'] & Ip & [Q|[Q|[]]]); [|discriminate].
  cbn [fst snd] in Q. injection Q as <- <-. rewrite Forall_forall in P3. destruct (P3 _ Ip) as [Pg _]. cbn [fst snd] in Pg.
  exists id, t, root, events, r, p. do 4 (split; [assumption|]). split; [|split; [reflexivity|exact Pg]].
  assert (In p planned) by (rewrite P1; apply in_or_app; left; apply in_map_iff; exists (p, h'); auto).
  clear - H P. unfold planned_players in P. destruct (is_digit_text answer); [|apply Ok_inj in P; now subst].
  destruct (py_int answer) as [k|]; [|discriminate]. cbn [bindr] in P. destruct (_ && _); [|apply Ok_inj in P; now subst].
  destruct (py_nth (r_players r) (k - 1)) as [q|] eqn:Q; [|discriminate]. cbn [bindr] in P. apply Ok_inj in P. subst planned. destruct H as [<-|[]].
  unfold py_nth in Q. destruct (_ || _); [discriminate|]. destruct (nth_error _ _) eqn:N; [|discriminate]. apply Ok_inj in Q. subst. eapply nth_error_In. exact N.
Qed.

(** ** What is seen. The deals [ds] of the log are told by the actions [actss]; [p] is the seat of
    the player, [n] the number of players. *)
(** One list of rows for each deal, one row for each discard, right about it. *)
Definition right_deals (p n : Z) (actss : list (list action)) (ds : list (list event)) (games : list (text * list round)) : Prop :=
  length games = length ds /\ forall j acts es, nth_error actss j = Some acts -> nth_error ds j = Some es ->
    exists caption rows, nth_error games j = Some (caption, rows) /\ Forall2 (right_about p n es) (own_discards p [] acts) rows.
(** The decisions of all deals, in order: whether somebody had declared riichi before. *)
Definition decisions (p : Z) (actss : list (list action)) (ds : list (list event)) : list Prop :=
  flat_map (fun ae => map (fun pt => somebody_declared_riichi (firstn (length (fst pt)) (snd ae))) (own_discards p [] (fst ae))) (combine actss ds).

Lemma page_right r head ds events url i p file pg actss : good_log head ds events -> new_record events = Ok r ->
  nth_error (r_players r) i = Some p -> length (r_players r) = 3%nat \/ length (r_players r) = 4%nat ->
  render_template semicolons p r (Some url) None true = Ok (file, pg) ->
  Forall2 log actss ds -> Forall (fun acts => exists b, playing (Z.of_nat i) acts b) actss ->
  right_deals (Z.of_nat i) (Z.of_nat (length (r_players r))) actss ds (pg_games pg).
Proof.
  intros G H N Ln R L P. split.
  - destruct (C88_page _ _ _ _ _ _ _ _ _ _ _ _ G H N R) as (_ & _ & _ & X & _). exact X.
  - intros j acts es Na Ne. assert (LG : log acts es).
    { clear - L Na Ne. revert j Na Ne. induction L as [|a d actss ds X L IH]; intros [|j] Na Ne; cbn [nth_error] in *; try discriminate; [congruence|eauto]. }
    rewrite Forall_forall in P. destruct (P acts (nth_error_In _ _ Na)) as [b Pl].
    eapply C115_page; eassumption.
Qed.
Lemma colours_right p n : forall actss ds games tags, length actss = length ds -> right_deals p n actss ds games ->
  Forall2 (fun r tag => exists rate, tag = colour rate (rr_somebody_richii r) /\ means rate (float_str (rr_wrong_rate r))) (flat_map snd games) tags ->
  Forall2 (fun (declared : Prop) tag => exists rate blue, tag = colour rate blue /\ (blue = true <-> declared)) (decisions p actss ds) tags.
Proof.
  induction actss as [|acts actss IH]; intros [|es ds] games tags Ll [Lg Rg] F; try discriminate.
  - destruct games; [|discriminate]. cbn [flat_map] in F. inversion F; subst. constructor.
  - destruct games as [|g games]; [discriminate|]. cbn [flat_map] in F. apply Forall2_app_inv_l in F. destruct F as (t1 & t2 & F1 & F2 & ->).
    destruct (Rg 0%nat acts es eq_refl eq_refl) as (c & rows & Q & X). cbn [nth_error] in Q. injection Q as ->. cbn [snd] in F1.
    unfold decisions. cbn [combine flat_map]. apply Forall2_app.
    + cbn [fst snd]. clear - F1 X. revert t1 F1. induction X as [|pt row pts rows Rp X IH]; intros t1 F1; inversion F1 as [|? tag ? tags (rate & -> & _) F1']; subst; cbn [map]; constructor; auto.
      exists rate, (rr_somebody_richii row). split; [reflexivity|]. destruct pt as [before t]. destruct Rp as (hand & _ & _ & _ & _ & _ & _ & _ & Y). exact Y.
    + apply IH with (games := games); [now injection Ll| |exact F2]. split; [now injection Lg|]. intros j a e Na Ne. exact (Rg (S j) a e Na Ne).
Qed.
(** Whatever page is written for the text of a good log: somebody looking at it sees the player and
    the record, and for every deal the player plays by the rules one row for each discard, right
    about it; the row is blue if somebody had declared riichi, and red otherwise. *)
Theorem C116_seen : forall line answer deeds o file h id t root head ds events r,
  log_id_from_url semicolons (py_strip line) = Ok id -> server (t_ "http://e.mjv.jp/0/log/?" ++ id) = Ok t -> document root events t ->
  good_log head ds events -> new_record events = Ok r -> length (r_players r) = 3%nat \/ length (r_players r) = 4%nat ->
  check line answer = (deeds, o) -> In (Saved file h) deeds ->
  exists i p who what ts games, nth_error (r_players r) i = Some p /\ file = file_name id p /\ player_str p = Ok who /\ record_str r = Ok what /\
    reads h ts /\
    seen (after_tag (t_ "body") ts) =
      pics "big" all_tiles ++ pics "small" all_tiles ++ say "Player:" ++ words who ++ words what ++ say "Link" ++ introduction ++ flat_map deal_seen games /\
    forall actss, Forall2 log actss ds -> Forall (fun acts => exists b, playing (Z.of_nat i) acts b) actss ->
      right_deals (Z.of_nat i) (Z.of_nat (length (r_players r))) actss ds games /\
      Forall2 (fun (declared : Prop) tag => exists rate blue, tag = colour rate blue /\ (blue = true <-> declared))
        (decisions (Z.of_nat i) actss ds) (filter (starts (t_ "tr style=")) (tags ts)).
Proof.
  intros line answer deeds o file h id t root head ds events r A B D G N Ln E I0.
  destruct (C116_only _ _ _ _ _ _ E I0) as (id' & t' & root' & events' & r' & p & A' & B' & D' & N' & Ip & -> & Pg).
  rewrite A in A'. apply Ok_inj in A'. subst id'. rewrite B in B'. apply Ok_inj in B'. subst t'. destruct (C112_unambiguous _ _ _ _ _ D D') as [<- <-].
  rewrite N in N'. apply Ok_inj in N'. subst r'. apply In_nth_error in Ip. destruct Ip as [i Ni]. destruct Pg as (f & pg & R & Rh).
  destruct (C107_shown load_raw float_str _ _ _ _ _ _ _ _ _ R Rh) as (ts & T1 & T2). destruct (C107_colours load_raw float_str _ _ Rh) as (ts' & T1' & T3).
  assert (ts' = ts) by (unfold reads in *; congruence). subst ts'.
  pose proof (render_inv _ _ _ _ _ _ _ R) as (games & ids & pt & rt & _ & Q2 & Q3 & _ & O). injection O as _ ->.
  exists i, p, pt, rt, ts, games. do 5 (split; [first [assumption|reflexivity]|]). split; [exact T2|].
  intros actss La Pa. pose proof (page_right _ _ _ _ _ _ _ _ _ _ G N Ni Ln R La Pa) as RD. cbn [pg_games] in RD. split; [exact RD|].
  eapply colours_right; [|exact RD|exact T3]. eapply pairs_length. exact La.
Qed.
End Script.

(** The text of a log with the deal of Prop_TurnsExample.v, a link with blanks around it and the
    answer 1: the page of the dealer is written, with three coloured rows. *)
Definition pon_whole : list event :=
  match pon_deal with e :: l => mkEvent (tag e) (attrib e ++ [(t_ "oya", t_ "0")]) :: l ++ [sh_last] | [] => [] end.
Definition pon_log : list event := sh_head ++ pon_whole.
Definition pon_text : text := t_ "<mjloggm ver=""2.3"">" ++ flat_map (fun e => tostring (fun l => l) e ++ [10]) pon_log ++ t_ "</mjloggm>".
Definition pon_server (address : text) : res text :=
  if text_eqb address (t_ "http://e.mjv.jp/0/log/?2019010100gm-0009-0000-abc") then Ok pon_text else Err ValueError.
Definition pon_run : list deed * reading (res unit) :=
  CheckScript.check true pon_server no_picture tenth (fun _ => Ok tt) (fun f => t_ "/home/" ++ f) (t_ " " ++ rp_url ++ [10]) (t_ "1").
Example C116_case : log_id_from_url true (py_strip (t_ " " ++ rp_url ++ [10])) = Ok (t_ "2019010100gm-0009-0000-abc") /\
  (exists root, document root pon_log pon_text) /\ (exists head, good_log head [pon_whole] pon_log) /\
  (exists r, new_record pon_log = Ok r /\ length (r_players r) = 4%nat) /\
  log (acts_in pon_whole) pon_whole /\ playing 0 (acts_in pon_whole) false /\
  snd pon_run = Read (Ok tt) /\
  match rev (fst pon_run) with
  | Said s :: Saved file h :: _ => s = t_ "report has been saved to /home/" ++ file /\
      length (filter (starts (t_ "tr style=""background-color:  rgba(0, 0, 255")) (tags (snd (read Data h)))) = 1%nat /\
      length (filter (starts (t_ "tr style=""background-color:  rgba(255, 0, 0")) (tags (snd (read Data h)))) = 2%nat
  | _ => False
  end.
Proof.
  split; [vm_compute; reflexivity|]. split; [|split; [assert (G : good_log_b pon_log = true) by (vm_compute; reflexivity); apply good_log_parts in G; eexists; exact G|split; [eexists; split; [vm_compute; reflexivity|reflexivity]|]]].
  - assert (X : exists root, fromstring pon_text = Document root pon_log) by (eexists; vm_compute; reflexivity). destruct X as [root X]. exists root. now apply C112_exactly.
  - split; [apply log_is; vm_compute; reflexivity|]. split; [apply playing_is; vm_compute; reflexivity|].
    assert (X : match pon_run with (d, Read (Ok tt)) => match rev d with
        | Said s :: Saved file h :: _ => text_eqb s (t_ "report has been saved to /home/" ++ file) &&
          Nat.eqb (length (filter (starts (t_ "tr style=""background-color:  rgba(0, 0, 255")) (tags (snd (read Data h))))) 1 &&
          Nat.eqb (length (filter (starts (t_ "tr style=""background-color:  rgba(255, 0, 0")) (tags (snd (read Data h))))) 2
        | _ => false end | _ => false end = true) by (vm_compute; reflexivity).
    destruct pon_run as [d [[[]|]| |]]; try discriminate. split; [reflexivity|]. cbn [fst]. destruct (rev d) as [|[|s|] [|[| |file h] l]]; try discriminate.
    rewrite !andb_true_iff, !Nat.eqb_eq in X. destruct X as [[X Y] Z]. apply StateProofs.text_eqb_iff in X. auto.
Qed.
Print Assumptions C116_transcript.
Print Assumptions C116_all.
Print Assumptions C116_only.
Print Assumptions C116_seen.
