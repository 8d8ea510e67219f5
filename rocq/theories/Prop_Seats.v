(** C129: all seats are treated alike. *)
From Coq Require Import String.
From Verif Require Import Base Parse Text Tenhou Event State Spec_Log StateProofs Prop_Meld Checker Spec_Checker LogCheck TurnsCheck Prop_TurnsExample.
From Coq Require Import List ZArith QArith Lia Bool.
Import ListNotations.
Open Scope list_scope.
Open Scope Z_scope.

(** ** Specification: the same play with other seats *)
(** [r] gives every seat another one, different ones to different ones. *)
Definition seating (r : Z -> Z) : Prop := (forall q, seat q -> seat (r q)) /\ forall q q', seat q -> seat q' -> r q = r q' -> q = q'.
Inductive moved (r : Z -> Z) : action -> action -> Prop :=
| moved_deal d d' : d_round d' = d_round d -> d_dora d' = d_dora d -> (forall q, seat q -> d_hands d' (r q) = d_hands d q) -> moved r (Deal d) (Deal d')
| moved_draw q t : moved r (Draw q t) (Draw (r q) t)
| moved_discard q t : moved r (Discard q t) (Discard (r q) t)
| moved_call q v : moved r (Call q v) (Call (r q) v)
| moved_dora t : moved r (NewDora t) (NewDora t)
| moved_other : moved r Other Other.
(** The events of two logs; whether somebody declares riichi is the same, too. *)
Definition reseated (r : Z -> Z) (e e' : event) : Prop :=
  exists a a', legal_action a /\ moved r a a' /\ writes a e /\ writes a' e' /\ (tag e = t_ "REACH" <-> tag e' = t_ "REACH").

(** ** Proofs *)
Definition like_meld (m m' : meld) : Prop := m_class m = m_class m' /\ m_self m = m_self m' /\ m_borrowed m = m_borrowed m'.
Definition like {A B} (R : A -> B -> Prop) (x : res A) (y : res B) : Prop :=
  match x, y with Ok a, Ok b => R a b | Err a, Err b => a = b | _, _ => False end.
Lemma like_bind {A B C D} (R : A -> B -> Prop) (T : C -> D -> Prop) x y (f : A -> res C) (g : B -> res D) :
  like R x y -> (forall a b, R a b -> like T (f a) (g b)) -> like T (bindr x f) (bindr y g).
Proof. intros H K. destruct x as [a|], y as [b|]; cbn [like bindr] in *; auto; contradiction. Qed.
Lemma like_same {A B} (T : B -> B -> Prop) (x : res A) f g : (forall a, like T (f a) (g a)) -> like T (bindr x f) (bindr x g).
Proof. intro H. destruct x as [a|]; cbn [like bindr]; auto. Qed.
Lemma code_like who who' v : like like_meld (meld_from_code who v) (meld_from_code who' v).
Proof.
  unfold meld_from_code. apply like_same. intro ty.
  assert (L : forall c a b f f', like like_meld (Ok (mkMeld c a b f)) (Ok (mkMeld c a b f'))) by (intros; repeat split).
  assert (F : forall kui (g h : Z -> res meld), (forall f f', like like_meld (g f) (h f')) -> like like_meld (bindr (from_who who kui) g) (bindr (from_who who' kui) h)).
  { intros kui g h G. unfold from_who. destruct (py_nth FROM_MAP kui); [|reflexivity]. cbn [bindr]. apply G. }
  destruct (negb (fld ty "syuntsu" =? 0)); [|destruct (negb (fld ty "koutsu" =? 0)); [|destruct (negb (fld ty "chakan" =? 0)); [|destruct (negb (fld ty "nuki" =? 0))]]].
  - unfold new_flush. repeat (apply like_same; intro). destruct a1 as [|x [|y [|z [|]]]]; try reflexivity. repeat (apply like_same; intro). apply F. intros; apply L.
  - unfold new_triplet. repeat (apply like_same; intro). destruct a2 as [|x [|y [|]]]; try reflexivity. apply like_same. intros [|u [|w [|]]]; try reflexivity. cbv zeta. repeat (apply like_same; intro). apply F. intros; apply L.
  - unfold new_added_kan. repeat (apply like_same; intro). destruct a2 as [|x [|y [|]]]; try reflexivity. apply like_same. intros [|u [|w [|]]]; try reflexivity. repeat (apply like_same; intro). apply F. intros; apply L.
  - unfold new_kita. apply like_same. intro. apply F. intros; apply L.
  - unfold new_kan. repeat (apply like_same; intro). destruct a0 as [|x [|y [|z [|]]]]; try reflexivity. apply like_same. intro. apply F. intros. destruct (fld a "kui" =? 0); [apply L|]. apply like_same. intro. apply L.
Qed.
Lemma upgrade_like m m' i i' : like_meld m m' -> like_meld i i' -> like like_meld (upgrade m i) (upgrade m' i').
Proof.
  intros M J. unfold upgrade, is_triplet_of_added_kan, kan_from_triplet. destruct M as (M1 & M2 & M3), J as (J1 & J2 & J3). rewrite <- J1, <- M2, <- J2, <- J3.
  assert (K : like like_meld (Ok i) (Ok i')) by (repeat split; assumption). destruct (m_class i); try exact K.
  apply like_same. intro b. destruct b; [repeat split; assumption|exact K].
Qed.
Lemma mapM_like {A B C D} (R : A -> B -> Prop) (T : C -> D -> Prop) (f : A -> res C) (g : B -> res D) l l' :
  Forall2 R l l' -> (forall a b, R a b -> like T (f a) (g b)) -> like (Forall2 T) (mapM f l) (mapM g l').
Proof.
  intros F H. induction F as [|a b l l' E F IH]; [constructor|]. cbn [mapM]. apply (like_bind T); [auto|]. intros x y Q. apply (like_bind (Forall2 T)); [exact IH|]. intros u v W. cbn [like]. constructor; assumption.
Qed.
Inductive like_state (p p' : Z) : gstate -> gstate -> Prop :=
| like_hand h : like_state p p' (SHand p h) (SHand p' h)
| like_invisible n i : like_state p p' (SInvisible n i) (SInvisible n i)
| like_melds l l' : Forall2 like_meld l l' -> like_state p p' (SMeld p l) (SMeld p' l').
Definition like_scan (p p' : Z) (x y : gstate * bool) : Prop := like_state p p' (fst x) (fst y) /\ snd x = snd y.

Section Seats.
Context (r : Z -> Z) (RS : seating r) (p : Z) (P : seat p).
Lemma P' : seat (r p). Proof. apply (proj1 RS). exact P. Qed.
Lemma moved_legal a a' : moved r a a' -> legal_action a -> legal_action a'.
Proof. intros M L. destruct M; cbn [legal_action] in *; try exact L; destruct L as [L1 L2]; (split; [apply (proj1 RS); exact L1|exact L2]). Qed.
Lemma seat_eqb q : seat q -> (r q =? r p) = (q =? p).
Proof. intro Q. destruct (Z.eqb_spec q p) as [->|N]; [apply Z.eqb_refl|]. apply Z.eqb_neq. intro E. apply N. apply (proj2 RS); assumption. Qed.
Lemma like_discard_match e e' : reseated r e e' -> discard_match p e = discard_match (r p) e'.
Proof.
  intros (a & a' & L & M & W & W' & _). rewrite (discard_match_eq p a e P L W), (discard_match_eq (r p) a' e' P' (moved_legal _ _ M L) W').
  destruct M; try reflexivity. cbn [legal_action] in L. rewrite (seat_eqb q (proj1 L)). reflexivity.
Qed.
Lemma like_richii e e' : reseated r e e' -> is_richii e = is_richii e'.
Proof.
  intros (a & a' & _ & _ & _ & _ & H). unfold is_richii, has_tag. destruct (text_eqb (tag e) (t_ "REACH")) eqn:E.
  - symmetry. apply text_eqb_iff. apply H. apply text_eqb_iff. exact E.
  - destruct (text_eqb (tag e') (t_ "REACH")) eqn:E'; [|reflexivity]. apply text_eqb_iff in E'. apply H in E'. apply text_eqb_iff in E'. congruence.
Qed.
Lemma wrap_like {A} (mk mk' : A -> gstate) old old' x : (forall a, like_state p (r p) (mk a) (mk' a)) -> like_state p (r p) old old' -> like (like_scan p (r p)) (wrap mk old x) (wrap mk' old' x).
Proof. intros M O. unfold wrap. apply like_same. intros [a|]; cbn [like]; split; cbn [fst snd]; auto. Qed.
Lemma like_scanned s s' e e' : like_state p (r p) s s' -> reseated r e e' ->
  like (like_scan p (r p)) (scan s e) (scan s' e') /\ is_key_event s e = is_key_event s' e'.
Proof.
  intros Ls Re. pose proof (like_discard_match e e' Re) as Dm. destruct Re as (a & a' & L & M & W & W' & _). pose proof (moved_legal _ _ M L) as L'.
  pose proof (init_tag a e L W) as In1. pose proof (init_tag a' e' L' W') as In2. pose proof (player_open_eq p a e L W) as O1. pose proof (player_open_eq (r p) a' e' L' W') as O2.
  assert (Ini : is_game_init e = is_game_init e') by (rewrite In1, In2; destruct M; reflexivity).
  assert (Opn : player_open_hand p e = player_open_hand (r p) e').
  { rewrite O1, O2. destruct M; try reflexivity. cbn [legal_action] in L. rewrite (seat_eqb q (proj1 L)). reflexivity. }
  assert (Mf : forall q v, a = Call q v -> like like_meld (meld_from e) (meld_from e')).
  { intros q v ->. inversion M; subst. rewrite (meld_from_eq q v e W), (meld_from_eq (r q) v e' W'). apply code_like. }
  assert (Sd : is_game_init e = true -> attr e (t_ "seed") = attr e' (t_ "seed") /\ attr e (t_ "hai" ++ str_int p) = attr e' (t_ "hai" ++ str_int (r p))).
  { intro G. rewrite In1 in G. destruct M as [d d' M1 M2 M3|q t|q t|q v|t|]; try discriminate G. destruct W as (_ & W1 & W2), W' as (_ & W1' & W2').
    rewrite (holds_attr _ _ _ W1), (holds_attr _ _ _ W1'), (holds_attr _ _ _ (W2 p P)), (holds_attr _ _ _ (W2' (r p) P')), M1, M2, (M3 p P). auto. }
  destruct Ls as [h|n i|l l' F].
  - assert (E : like (like_scan p (r p)) (scan (SHand p h) e) (scan (SHand (r p) h) e')).
    { cbn [scan]. assert (Q : hand_scan p h e = hand_scan (r p) h e').
      { unfold hand_scan. rewrite <- Ini. destruct (is_game_init e) eqn:G; [destruct (Sd eq_refl) as [_ ->]; reflexivity|].
        unfold is_draw, is_discard, draw_tile_index, discard_tile_index. rewrite (draw_match_eq p a e P L W), (draw_match_eq (r p) a' e' P' L' W'), <- Dm, <- Opn.
        replace (match a' with Draw q t => if q =? r p then Some (str_int t) else None | _ => None end) with (match a with Draw q t => if q =? p then Some (str_int t) else None | _ => None end)
          by (destruct M; try reflexivity; cbn [legal_action] in L; rewrite (seat_eqb q (proj1 L)); reflexivity).
        cbn [bindr]. destruct (matched _); [reflexivity|]. destruct (discard_match p e) as [m|]; [|reflexivity]. cbn [bindr]. destruct (matched m); [reflexivity|].
        rewrite O1. cbn [bindr]. destruct a as [| | |q v| |]; try reflexivity. destruct (q =? p); [|reflexivity].
        pose proof (Mf q v eq_refl) as K. destruct (meld_from e) as [x|], (meld_from e') as [y|]; cbn [like bindr] in *; try contradiction; [|now subst]. destruct K as (_ & -> & _). reflexivity. }
      rewrite Q. apply wrap_like; constructor. }
    split; [exact E|]. unfold is_key_event. destruct (scan (SHand p h) e) as [x|], (scan (SHand (r p) h) e') as [y|]; cbn [like bindr] in *; try contradiction; [|now subst]. destruct E as [_ ->]. reflexivity.
  - assert (E : scan (SInvisible n i) e = scan (SInvisible n i) e').
    { cbn [scan]. unfold invisible_scan, dora_scan. rewrite <- Ini. destruct (is_game_init e) eqn:G; [destruct (Sd eq_refl) as [-> _]; reflexivity|].
      rewrite (discard_value_eq a e L W), (discard_value_eq a' e' L' W'). pose proof (dora_tag a e L W) as D1. pose proof (dora_tag a' e' L' W') as D2. unfold is_open_hand. rewrite (open_tag a e L W), (open_tag a' e' L' W'), D1, D2.
      destruct M as [d d' M1 M2 M3|q t|q t|q v|t|]; cbn [is_Call is_NewDora].
      - reflexivity.
      - reflexivity.
      - reflexivity.
      - pose proof (Mf q v eq_refl) as K. destruct (meld_from e) as [x|], (meld_from e') as [y|]; cbn [like bindr] in *; try contradiction; [|now subst]. destruct K as (_ & -> & _). reflexivity.
      - destruct W as [_ W], W' as [_ W']. rewrite (holds_attr _ _ _ W), (holds_attr _ _ _ W'). reflexivity.
      - reflexivity. }
    split; [|unfold is_key_event; rewrite E; reflexivity]. rewrite E. destruct (scan (SInvisible n i) e') as [x|] eqn:K; cbn [like]; [|reflexivity]. split; [|reflexivity].
    cbn [scan] in K. unfold wrap in K. destruct (invisible_scan n i e') as [o|]; [|discriminate]. cbn [bindr] in K. apply Ok_inj in K. subst x. destruct o; constructor.
  - cbn [scan is_key_event]. rewrite <- Opn, <- Ini. split; [|reflexivity]. unfold meld_scan. rewrite <- Opn, <- Ini, O1. cbn [bindr].
    destruct a as [d|q t|q t|q v|t|]; try (destruct (is_game_init e); cbn [wrap bindr like]; (split; [constructor; [constructor || exact F]|reflexivity])).
    destruct (q =? p); [|destruct (is_game_init e); cbn [wrap bindr like]; (split; [constructor; [constructor || exact F]|reflexivity])].
    pose proof (Mf q v eq_refl) as K. destruct (meld_from e) as [x|], (meld_from e') as [y|]; cbn [like] in K; try contradiction; cbn [bindr]; [|now subst].
    pose proof K as (K1 & _). rewrite <- K1. assert (Ap : Forall2 like_meld (l ++ [x]) (l' ++ [y])) by (apply Forall2_app; [exact F|constructor; [exact K|constructor]]).
    destruct (m_class x); cbn [wrap bindr like]; try (split; [constructor; exact Ap|reflexivity]).
    pose proof (mapM_like like_meld like_meld (upgrade x) (upgrade y) l l' F (fun i j => upgrade_like x y i j K)) as U.
    destruct (mapM (upgrade x) l) as [u|], (mapM (upgrade y) l') as [w|]; cbn [like bindr] in *; try contradiction; [|exact U]. split; [constructor; exact U|reflexivity].
Qed.
Lemma like_passed self self' es es' : like_state p (r p) self self' -> Forall2 (reseated r) es es' -> like (like_state p (r p)) (passed_events self es) (passed_events self' es').
Proof.
  intros S F. unfold passed_events. assert (G : forall cur cur', like_state p (r p) cur cur' -> like (like_state p (r p)) (key_events self cur es) (key_events self' cur' es')); [|apply G; exact S].
  induction F as [|e e' es es' A F IH]; intros cur cur' C; cbn [key_events]; [exact C|].
  destruct (like_scanned self self' e e' S A) as [_ ->]. apply like_same. intros [|]; [|apply IH; exact C].
  apply (like_bind (like_scan p (r p))); [apply like_scanned; assumption|]. intros x y [Q _]. apply IH. exact Q.
Qed.
Definition like_states (s s' : states) : Prop := like_state p (r p) (st_hand s) (st_hand s') /\ like_state p (r p) (st_invisible s) (st_invisible s') /\ like_state p (r p) (st_meld s) (st_meld s').
Lemma like_pass s s' es es' : like_states s s' -> Forall2 (reseated r) es es' -> like like_states (pass_states s es) (pass_states s' es').
Proof.
  intros (S1 & S2 & S3) F. unfold pass_states. apply (like_bind (like_state p (r p))); [apply like_passed; assumption|]. intros h h' H.
  apply (like_bind (like_state p (r p))); [apply like_passed; assumption|]. intros i i' J. apply (like_bind (like_state p (r p))); [apply like_passed; assumption|]. intros m m' M. cbn [like]. split; [exact H|split; [exact J|exact M]].
Qed.
Lemma like_reasoning s s' e e' : like_states s s' -> reseated r e e' ->
  discard_reasoning e (st_hand s) (st_invisible s) p (st_meld s) = discard_reasoning e' (st_hand s') (st_invisible s') (r p) (st_meld s').
Proof.
  intros (S1 & S2 & S3) A.
  assert (H : hand_value (st_hand s') = hand_value (st_hand s)) by (destruct S1; reflexivity).
  assert (J : invisible_value (st_invisible s') = invisible_value (st_invisible s)) by (destruct S2; reflexivity).
  assert (M : Forall2 like_meld (meld_value (st_meld s)) (meld_value (st_meld s'))) by (destruct S3; [constructor|constructor|assumption]).
  unfold discard_reasoning. rewrite H, J. unfold discard_tile_index. rewrite <- (like_discard_match e e' A).
  assert (C : meld_count (meld_value (st_meld s')) = meld_count (meld_value (st_meld s))).
  { unfold meld_count. assert (Q : length (filter (fun m => negb (is_kita m)) (meld_value (st_meld s'))) = length (filter (fun m => negb (is_kita m)) (meld_value (st_meld s)))); [|rewrite Q; reflexivity].
    clear - M. induction M as [|m m' l l' K M IH]; [reflexivity|]. cbn [filter]. destruct K as [K _]. assert (Q : is_kita m' = is_kita m) by (unfold is_kita; rewrite K; reflexivity). rewrite Q. destruct (is_kita m); cbn [negb length]; congruence. }
  rewrite C. assert (T : mapM (fun m => mapM (fun x => do t <- tile_from_tenhou x; Ok (tile_str t)) (m_self m ++ m_borrowed m)) (meld_value (st_meld s')) =
                         mapM (fun m => mapM (fun x => do t <- tile_from_tenhou x; Ok (tile_str t)) (m_self m ++ m_borrowed m)) (meld_value (st_meld s))).
  { clear - M. induction M as [|m m' l l' K M IH]; [reflexivity|]. cbn [mapM]. destruct K as (_ & K2 & K3). rewrite <- K2, <- K3, IH. reflexivity. }
  cbv zeta. rewrite T. reflexivity.
Qed.
Definition like_out (x y : list round * states * bool) : Prop := fst (fst x) = fst (fst y) /\ like_states (snd (fst x)) (snd (fst y)) /\ snd x = snd y.
Lemma like_group s s' richii d g g' : like_states s s' -> Forall2 (reseated r) g g' -> like like_out (game_group p s richii d g) (game_group (r p) s' richii d g').
Proof.
  intros S F. unfold game_group. cbv zeta. assert (Ri : existsb is_richii g = existsb is_richii g') by (clear - F; induction F as [|e e' g g' A F IH]; [reflexivity|]; cbn [existsb]; now rewrite IH, (like_richii e e' A)).
  rewrite Ri. apply (like_bind eq).
  - destruct d; [|reflexivity]. destruct F as [|e e' g g' A F]; [reflexivity|]. rewrite (like_reasoning s s' e e' S A). apply like_same. intro x. reflexivity.
  - intros x y ->. apply (like_bind like_states); [apply like_pass; assumption|]. intros u w U. cbn [like]. split; [reflexivity|split; [exact U|reflexivity]].
Qed.
Lemma like_loop es es' : Forall2 (reseated r) es es' -> forall s s' richii d g g', like_states s s' -> Forall2 (reseated r) g g' ->
  game_loop p s richii d g es = game_loop (r p) s' richii d g' es'.
Proof.
  intro F. induction F as [|e e' es es' A F IH]; intros s s' richii d g g' S G; cbn [game_loop]; pose proof (like_group s s' richii d g g' S G) as U.
  - destruct (game_group p s richii d g) as [x|er], (game_group (r p) s' richii d g') as [y|er']; cbn [like] in U; try contradiction; [|subst; reflexivity]. destruct U as (U & _). cbn [in_generator bindr]. rewrite U. reflexivity.
  - unfold is_discard. rewrite (like_discard_match e e' A). destruct (discard_match (r p) e') as [m|]; [|reflexivity]. cbn [bindr]. destruct (eqb (matched m) d).
    + apply IH; [exact S|]. apply Forall2_app; [exact G|constructor; [exact A|constructor]].
    + destruct (game_group p s richii d g) as [x|er], (game_group (r p) s' richii d g') as [y|er']; cbn [like] in U; try contradiction; [|subst; destruct er'; reflexivity].
      destruct U as (U1 & U2 & U3). cbn [in_generator bindr]. rewrite U1, U3, (IH (snd (fst x)) (snd (fst y)) (snd y) (matched m) [e] [e'] U2 ltac:(constructor; [exact A|constructor])). reflexivity.
Qed.
End Seats.

(** The report on a player is the report on whoever sits in that player's place when the same deal is played with other seats. *)
Theorem C129_seats : forall r p players es es', seating r -> seat p -> Forall2 (reseated r) es es' ->
  game_reason_list es p players = game_reason_list es' (r p) players.
Proof.
  intros r p players es es' RS P F. unfold game_reason_list, game_reasoning. destruct F as [|e e' es es' A F]; [reflexivity|].
  unfold is_discard. rewrite (like_discard_match r RS p P e e' A). destruct (discard_match (r p) e') as [m|]; [|reflexivity]. cbn [bindr].
  apply (like_loop r RS p P); [exact F|split; [constructor|split; constructor; constructor]|constructor; [exact A|constructor]].
Qed.

(** ** A case: everybody moves to the right neighbour's seat. *)
Definition to_the_right (q : Z) : Z := (q + 1) mod 4.
Lemma right_seating : seating to_the_right.
Proof.
  split; [intros q Q; unfold to_the_right, seat in *; apply Z.mod_pos_bound; lia|]. unfold to_the_right, seat. intros q q' Q Q' E.
  assert (q = 0 \/ q = 1 \/ q = 2 \/ q = 3) as K by lia. assert (q' = 0 \/ q' = 1 \/ q' = 2 \/ q' = 3) as K' by lia.
  destruct K as [->|[->|[->| ->]]], K' as [->|[->|[->| ->]]]; vm_compute in E; congruence.
Qed.
Definition right_deal : list event :=
  [mkEvent (t_ "INIT") [(t_ "seed", t_ "0,0,0,1,2,7"); (t_ "hai1", t_ "1,4,12,18,40,44,48,57,60,80,109,124,130");
     (t_ "hai2", t_ "134,5"); (t_ "hai3", t_ "2,6"); (t_ "hai0", t_ "3")];
   said "U132"; said "E130"; said "V128"; said "F128"; said "U133"; said "E124"; mkEvent (t_ "REACH") [(t_ "who", t_ "2")]; said "F134";
   mkEvent (t_ "N") [(t_ "who", t_ "1"); (t_ "m", t_ "51817")]; said "E109"].
Lemma reseated_logs r acts acts' es es' : log acts es -> log acts' es' -> Forall2 (moved r) acts acts' ->
  Forall2 (fun e e' => tag e = t_ "REACH" <-> tag e' = t_ "REACH") es es' -> Forall2 (reseated r) es es'.
Proof.
  intros [L W] [_ W'] M F. revert acts' es' W' M F L. induction W as [|a e acts es We W IH]; intros acts' es' W' M F L.
  - inversion F; subst. constructor.
  - inversion F as [|? e' ? es1 Fe F1]; subst. inversion M as [|? a' ? acts1 Ma M1]; subst. inversion W' as [|? ? ? ? We' W1']; subst. inversion L; subst.
    constructor; [exists a, a'; auto|]. eapply IH; eauto.
Qed.
Example C129_case : seating to_the_right /\ seat 0 /\ Forall2 (reseated to_the_right) pon_deal right_deal /\
  exists rows, game_reason_list right_deal 1 4 = Ok rows /\ length rows = 3%nat.
Proof.
  assert (A : Forall2 (reseated to_the_right) pon_deal right_deal); [|split; [exact right_seating|]; split; [split; lia|]; split; [exact A|]].
  2: destruct C115_case as (_ & _ & _ & _ & _ & rows & Er & M & _); exists rows; rewrite <- Er; split;
     [symmetry; exact (C129_seats to_the_right 0 4 _ _ right_seating ltac:(split; lia) A)|apply (f_equal (@length _)) in M; rewrite map_length in M; exact M].
  apply (reseated_logs _ (acts_in pon_deal) (acts_in right_deal)); [apply log_is; vm_compute; reflexivity|apply log_is; vm_compute; reflexivity| |].
  - unfold acts_in. destruct (acts_of pon_deal) as [l|] eqn:A; [|vm_compute in A; discriminate A]. destruct (acts_of right_deal) as [l'|] eqn:A'; [|vm_compute in A'; discriminate A'].
    vm_compute in A, A'. injection A as <-. injection A' as <-.
    constructor. { constructor; [reflexivity|reflexivity|]. intros q Q. assert (q = 0 \/ q = 1 \/ q = 2 \/ q = 3) as K by (unfold seat in Q; lia). destruct K as [->|[->|[->| ->]]]; vm_compute; reflexivity. }
    repeat (constructor; [match goal with
      | |- moved _ (Draw ?q ?t) _ => exact (moved_draw to_the_right q t)
      | |- moved _ (Discard ?q ?t) _ => exact (moved_discard to_the_right q t)
      | |- moved _ (Call ?q ?v) _ => exact (moved_call to_the_right q v)
      | |- _ => constructor end|]). constructor.
  - repeat (constructor; [split; intro H; first [reflexivity|discriminate H]|]). constructor.
Qed.
Print Assumptions C129_seats.
