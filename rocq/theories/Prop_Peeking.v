(** C128: the advice to a player uses only what the player can see. *)
From Coq Require Import String.
From Verif Require Import Base Parse Text Tenhou Event State Spec_Log Prop_Meld Checker Spec_Checker LogCheck TurnsCheck Prop_TurnsExample.
From Coq Require Import List ZArith QArith Lia Bool.
Import ListNotations.
Open Scope list_scope.
Open Scope Z_scope.

(** ** Specification: two events that player [p] cannot tell apart *)
Inductive seen_alike (p : Z) : event -> event -> Prop :=
(** the same event *)
| same_event e : seen_alike p e e
(** another player draws a tile, whichever it is *)
| draw_of_other q t t' e e' : seat q -> q <> p -> tag e = draw_letter q :: str_int t -> tag e' = draw_letter q :: str_int t' -> seen_alike p e e'
(** a deal with the same header, which has the dora indicator, and the same hand for [p] *)
| hands_of_others e e' : tag e = t_ "INIT" -> tag e' = t_ "INIT" ->
    (forall s, holds e (t_ "seed") s <-> holds e' (t_ "seed") s) ->
    (forall s, holds e (t_ "hai" ++ str_int p) s <-> holds e' (t_ "hai" ++ str_int p) s) -> seen_alike p e e'
(** the end of the deal, which shows hands *)
| result e e' : In (tag e) [t_ "AGARI"; t_ "RYUUKYOKU"] -> In (tag e') [t_ "AGARI"; t_ "RYUUKYOKU"] -> seen_alike p e e'.

(** ** Proofs *)
(** Events that say nothing to the three trackers of [p]. *)
Record silent (p : Z) (e : event) : Prop := {
  sl_init : is_game_init e = false; sl_draw : draw_match p e = Ok None; sl_discard : discard_match p e = Ok None; sl_value : discard_value e = None;
  sl_open : is_open_hand e = false; sl_dora : is_dora_indicator_event e = false; sl_richii : is_richii e = false }.
Lemma draw_silent p q t e : seat p -> seat q -> q <> p -> tag e = draw_letter q :: str_int t -> silent p e.
Proof.
  intros P Q N T. assert (p = 0 \/ p = 1 \/ p = 2 \/ p = 3) as K by (unfold seat in P; lia). assert (q = 0 \/ q = 1 \/ q = 2 \/ q = 3) as K' by (unfold seat in Q; lia).
  destruct K as [->|[->|[->| ->]]], K' as [->|[->|[->| ->]]]; try contradiction;
    (split; [unfold is_game_init, has_tag|unfold draw_match|unfold discard_match|unfold discard_value|unfold is_open_hand, has_tag|unfold is_dora_indicator_event, has_tag|unfold is_richii, has_tag]; rewrite T; reflexivity).
Qed.
Lemma end_silent p e : seat p -> In (tag e) [t_ "AGARI"; t_ "RYUUKYOKU"] -> silent p e.
Proof.
  intros P T. assert (p = 0 \/ p = 1 \/ p = 2 \/ p = 3) as K by (unfold seat in P; lia). destruct T as [T|[T|[]]]; symmetry in T;
  destruct K as [->|[->|[->| ->]]];
    (split; [unfold is_game_init, has_tag|unfold draw_match|unfold discard_match|unfold discard_value|unfold is_open_hand, has_tag|unfold is_dora_indicator_event, has_tag|unfold is_richii, has_tag]; rewrite T; reflexivity).
Qed.
Definition of_player (p : Z) (s : gstate) : Prop :=
  match s with SHand q _ | SMeld q _ => q = p | SInvisible _ _ => True | _ => False end.
Lemma silent_open p e : silent p e -> player_open_hand p e = Ok false.
Proof. intro S. pose proof (sl_open _ _ S) as O. unfold is_open_hand in O. unfold player_open_hand, triggered_by. rewrite O. reflexivity. Qed.
Lemma silent_scan p s e : silent p e -> of_player p s -> scan s e = Ok (s, false) /\ is_key_event s e = Ok false.
Proof.
  intros S O. destruct s as [q h|q l| | |n i|]; cbn [of_player] in O; try contradiction.
  - subst q. assert (E : scan (SHand p h) e = Ok (SHand p h, false)).
    { cbn [scan]. unfold hand_scan, is_draw, is_discard. rewrite (sl_init _ _ S), (sl_draw _ _ S), (sl_discard _ _ S), (silent_open _ _ S). reflexivity. }
    split; [exact E|]. unfold is_key_event. rewrite E. reflexivity.
  - subst q. cbn [scan is_key_event]. unfold meld_scan. rewrite (silent_open _ _ S), (sl_init _ _ S). split; reflexivity.
  - assert (E : scan (SInvisible n i) e = Ok (SInvisible n i, false)).
    { cbn [scan]. unfold invisible_scan. rewrite (sl_init _ _ S), (sl_value _ _ S), (sl_open _ _ S), (sl_dora _ _ S). reflexivity. }
    split; [exact E|]. unfold is_key_event. rewrite E. reflexivity.
Qed.
Lemma attr_alike e e' n : (forall s, holds e n s <-> holds e' n s) -> attr e n = attr e' n.
Proof.
  intro H. unfold holds in H. unfold attr. destruct (lookup n (attrib e)) as [v|] eqn:A.
  - rewrite (proj1 (H v) eq_refl). reflexivity.
  - destruct (lookup n (attrib e')) as [w|]; [|reflexivity]. pose proof (proj2 (H w) eq_refl). discriminate.
Qed.
Lemma alike_match p e e' : seat p -> seen_alike p e e' -> discard_match p e = discard_match p e' /\ is_richii e = is_richii e'.
Proof.
  intros P A. destruct A as [e|q t t' e e' Q N T T'|e e' T T' _ _|e e' T T'].
  - auto.
  - pose proof (draw_silent p q t e P Q N T) as S. pose proof (draw_silent p q t' e' P Q N T') as S'. rewrite (sl_discard _ _ S), (sl_discard _ _ S'), (sl_richii _ _ S), (sl_richii _ _ S'). auto.
  - unfold discard_match, is_richii, has_tag. rewrite T, T'. auto.
  - pose proof (end_silent p e P T) as S. pose proof (end_silent p e' P T') as S'. rewrite (sl_discard _ _ S), (sl_discard _ _ S'), (sl_richii _ _ S), (sl_richii _ _ S'). auto.
Qed.
Lemma alike_scan p s e e' : seat p -> of_player p s -> seen_alike p e e' -> scan s e = scan s e' /\ is_key_event s e = is_key_event s e'.
Proof.
  intros P O A. destruct A as [e|q t t' e e' Q N T T'|e e' T T' B C|e e' T T'].
  - auto.
  - destruct (silent_scan p s e (draw_silent p q t e P Q N T) O) as [-> ->]. destruct (silent_scan p s e' (draw_silent p q t' e' P Q N T') O) as [-> ->]. auto.
  - assert (G : is_game_init e = true) by (unfold is_game_init, has_tag; rewrite T; reflexivity). assert (G' : is_game_init e' = true) by (unfold is_game_init, has_tag; rewrite T'; reflexivity).
    assert (Op : forall q, player_open_hand q e = Ok false) by (intro q; unfold player_open_hand, triggered_by, has_tag; rewrite T; reflexivity).
    assert (Op' : forall q, player_open_hand q e' = Ok false) by (intro q; unfold player_open_hand, triggered_by, has_tag; rewrite T'; reflexivity).
    destruct s as [q h|q l| | |n i|]; cbn [of_player] in O; try contradiction.
    + subst q. assert (E : scan (SHand p h) e = scan (SHand p h) e') by (cbn [scan]; unfold hand_scan; rewrite G, G', (attr_alike _ _ _ C); reflexivity).
      split; [exact E|]. unfold is_key_event. rewrite E. reflexivity.
    + subst q. cbn [scan is_key_event]. unfold meld_scan. rewrite Op, Op', G, G'. auto.
    + assert (E : scan (SInvisible n i) e = scan (SInvisible n i) e') by (cbn [scan]; unfold invisible_scan, dora_scan; rewrite G, G', (attr_alike _ _ _ B); reflexivity).
      split; [exact E|]. unfold is_key_event. rewrite E. reflexivity.
  - destruct (silent_scan p s e (end_silent p e P T) O) as [-> ->]. destruct (silent_scan p s e' (end_silent p e' P T') O) as [-> ->]. auto.
Qed.
Lemma scan_of_player p s e s' : of_player p s -> scan s e = Ok s' -> of_player p (fst s').
Proof.
  intros O E. destruct s as [q h|q l| | |n i|]; cbn [of_player] in O; try contradiction; cbn [scan] in E; unfold wrap in E;
  match type of E with bindr ?x _ = _ => destruct x as [o|]; [|discriminate E] end; cbn [bindr] in E; apply Ok_inj in E; subst s'; destruct o; exact O.
Qed.
Lemma alike_passed p self es es' : seat p -> of_player p self -> Forall2 (seen_alike p) es es' ->
  passed_events self es = passed_events self es' /\ forall s, passed_events self es = Ok s -> of_player p s.
Proof.
  intros P O F. unfold passed_events. assert (G : forall cur, of_player p cur -> key_events self cur es = key_events self cur es' /\ forall s, key_events self cur es = Ok s -> of_player p s); [|apply G; exact O].
  induction F as [|e e' es es' A F IH]; intros cur C; cbn [key_events]; [split; [reflexivity|]; intros s E; apply Ok_inj in E; subst s; exact C|].
  destruct (alike_scan p self e e' P O A) as [_ ->]. destruct (is_key_event self e') as [k|]; [|split; [reflexivity|discriminate]]. cbn [bindr]. destruct k; [|apply IH; exact C].
  destruct (alike_scan p cur e e' P C A) as [-> _]. destruct (scan cur e') as [s|] eqn:Sc; [|split; [reflexivity|discriminate]]. cbn [bindr]. apply IH. exact (scan_of_player _ _ _ _ C Sc).
Qed.
Definition states_of (p : Z) (s : states) : Prop := of_player p (st_hand s) /\ of_player p (st_invisible s) /\ of_player p (st_meld s).
Lemma alike_pass p s es es' : seat p -> states_of p s -> Forall2 (seen_alike p) es es' ->
  pass_states s es = pass_states s es' /\ forall s', pass_states s es = Ok s' -> states_of p s'.
Proof.
  intros P (O1 & O2 & O3) F. unfold pass_states.
  destruct (alike_passed p _ _ _ P O1 F) as [<- U1]. destruct (alike_passed p _ _ _ P O2 F) as [<- U2]. destruct (alike_passed p _ _ _ P O3 F) as [<- U3]. split; [reflexivity|].
  intros s' E. destruct (passed_events (st_hand s) es) as [h|]; [|discriminate]. cbn [bindr] in E. destruct (passed_events (st_invisible s) es) as [i|]; [|discriminate]. cbn [bindr] in E.
  destruct (passed_events (st_meld s) es) as [m|]; [|discriminate]. cbn [bindr] in E. apply Ok_inj in E. subst s'. split; [auto|split; auto].
Qed.
Lemma alike_reasoning p hs is ms e e' : seat p -> seen_alike p e e' -> discard_reasoning e hs is p ms = discard_reasoning e' hs is p ms.
Proof. intros P A. unfold discard_reasoning, discard_tile_index. rewrite (proj1 (alike_match p e e' P A)). reflexivity. Qed.
Lemma alike_riichi p es es' : seat p -> Forall2 (seen_alike p) es es' -> existsb is_richii es = existsb is_richii es'.
Proof. intros P F. induction F as [|e e' es es' A F IH]; [reflexivity|]. cbn [existsb]. now rewrite IH, (proj2 (alike_match p e e' P A)). Qed.
Lemma alike_group p s richii d g g' : seat p -> states_of p s -> Forall2 (seen_alike p) g g' ->
  game_group p s richii d g = game_group p s richii d g' /\ forall out, game_group p s richii d g = Ok out -> states_of p (snd (fst out)).
Proof.
  intros P O F. unfold game_group. rewrite (alike_riichi p g g' P F). destruct (alike_pass p s g g' P O F) as [Q U]. rewrite <- Q. cbv zeta. split.
  - destruct d; [|reflexivity]. destruct F as [|e e' g g' A F]; [reflexivity|]. rewrite (alike_reasoning p _ _ _ e e' P A). reflexivity.
  - intros out E. match type of E with bindr ?x _ = _ => destruct x as [rows|]; [|discriminate E] end. cbn [bindr] in E. destruct (pass_states s g) as [s'|]; [|discriminate E]. cbn [bindr] in E. apply Ok_inj in E. subst out. cbn [fst snd]. auto.
Qed.
Lemma alike_loop p es es' : seat p -> Forall2 (seen_alike p) es es' -> forall s richii d g g', states_of p s -> Forall2 (seen_alike p) g g' ->
  game_loop p s richii d g es = game_loop p s richii d g' es'.
Proof.
  intros P F. induction F as [|e e' es es' A F IH]; intros s richii d g g' O G; cbn [game_loop]; destruct (alike_group p s richii d g g' P O G) as [<- U].
  - reflexivity.
  - unfold is_discard. rewrite (proj1 (alike_match p e e' P A)). destruct (discard_match p e') as [m|]; [|reflexivity]. cbn [bindr]. destruct (eqb (matched m) d).
    + apply IH; [exact O|]. apply Forall2_app; [exact G|constructor; [exact A|constructor]].
    + destruct (game_group p s richii d g) as [out|er]; [|destruct er; reflexivity]. cbn [in_generator bindr]. rewrite (IH (snd (fst out)) (snd out) (matched m) [e] [e']); [reflexivity|apply U; reflexivity|constructor; [exact A|constructor]].
Qed.

(** The report for a player is the same for two deals that the player cannot tell apart, also when it fails. *)
Theorem C128_no_peeking : forall p players es es', seat p -> Forall2 (seen_alike p) es es' ->
  game_reason_list es p players = game_reason_list es' p players.
Proof.
  intros p players es es' P F. unfold game_reason_list, game_reasoning. destruct F as [|e e' es es' A F]; [reflexivity|].
  unfold is_discard. rewrite (proj1 (alike_match p e e' P A)). destruct (discard_match p e') as [m|]; [|reflexivity]. cbn [bindr].
  apply alike_loop; [exact P|exact F|split; [reflexivity|split; [exact I|reflexivity]]|constructor; [exact A|constructor]].
Qed.

(** ** A case: other hands for the others, another tile drawn by the right neighbour, another end. *)
Definition other_deal : list event :=
  mkEvent (t_ "INIT") [(t_ "hai3", t_ "8,9"); (t_ "seed", t_ "0,0,0,1,2,7"); (t_ "hai0", t_ "1,4,12,18,40,44,48,57,60,80,109,124,130")] ::
  said "T132" :: said "D130" :: said "U77" :: skipn 4 pon_deal.
Example C128_case : seat 0 /\ Forall2 (seen_alike 0) pon_deal other_deal /\
  seen_alike 0 (mkEvent (t_ "AGARI") [(t_ "who", t_ "0")]) (mkEvent (t_ "RYUUKYOKU") []) /\
  exists rows, game_reason_list other_deal 0 4 = Ok rows /\ length rows = 3%nat.
Proof.
  assert (A : Forall2 (seen_alike 0) pon_deal other_deal); [|split; [split; lia|]; split; [exact A|]; split].
  2: apply result; [left; reflexivity|right; left; reflexivity].
  2: destruct C115_case as (_ & _ & _ & _ & _ & rows & Er & M & _); exists rows; rewrite <- (C128_no_peeking 0 4 _ _ ltac:(split; lia) A); split; [exact Er|];
     apply (f_equal (@length _)) in M; rewrite map_length in M; exact M.
  constructor; [apply hands_of_others; [reflexivity|reflexivity|intro s; reflexivity|intro s; reflexivity]|]. do 2 (constructor; [apply same_event|]).
  constructor; [apply (draw_of_other 0 1 128 77); [split; lia|lia|reflexivity|reflexivity]|]. do 7 (constructor; [apply same_event|]). constructor.
Qed.
Print Assumptions C128_no_peeking.
