(** Properties C27, C32-C35: what the record state objects hold after any event sequence.
    The vocabulary of the statements is in Spec_Log.v and Spec_Meld.v. *)
From Verif Require Import Base Category Tile Parse Text Tenhou TenhouProofs Spec_Meld MeldProofs Prop_Meld Event State Spec_Log StateProofs.
From Verif Require Import TileSetFacts.
From Coq Require Import String List ZArith Lia Bool.
Import ListNotations.
Open Scope list_scope.
Open Scope Z_scope.

(** ** C35: filtering by key events loses nothing. [passed_events] ends where scanning
    every event ends, with the same exception if one is raised, and can be split. The
    states are all those the constructors make ([constructed], State.v), nested
    collections included. *)
Lemma scan_all_with : forall es s, scan_all s es = do l <- with_events s es; Ok (last l s).
Proof.
  induction es as [|e r IH]; intros s; auto. cbn [scan_all with_events]. destruct (scan s e) as [[b n]|]; auto.
  cbn [bindr fst]. rewrite IH. destruct (with_events b r) as [l|]; auto. cbn [bindr]. f_equal.
  destruct l as [|x l]; auto. cbn [last]. clear. revert x. induction l as [|y l IH]; intros x; auto. cbn [last] in *. apply IH.
Qed.
Theorem C35_passed_is_scanning : forall s es, constructed s ->
  passed_events s es = do l <- with_events s es; Ok (last l s).
Proof. intros s es C. now rewrite passed_is_scan, scan_all_with. Qed.
Lemma scan_all_app : forall a b s, scan_all s (a ++ b) = do s' <- scan_all s a; scan_all s' b.
Proof. induction a as [|e a IH]; intros b s; auto. cbn [scan_all app]. destruct (scan s e); auto. cbn [bindr]. apply IH. Qed.
Lemma scan_all_constructed : forall es s s', constructed s -> scan_all s es = Ok s' -> constructed s'.
Proof.
  induction es as [|e r IH]; intros s s' C E; [now injection E as <-|]. cbn [scan_all] in E.
  destruct (scan s e) as [[b n]|] eqn:S; [|discriminate]. cbn [bindr fst] in E.
  apply (IH b); auto. eapply (scan_alike s s e b n); eauto. apply alike_refl.
Qed.
Theorem C35_passed_app : forall s a b, constructed s ->
  passed_events s (a ++ b) = do s' <- passed_events s a; passed_events s' b.
Proof.
  intros s a b C. rewrite !passed_is_scan, scan_all_app by auto. destruct (scan_all s a) as [s'|] eqn:E; auto.
  cbn [bindr]. symmetry. apply passed_is_scan. eapply scan_all_constructed; eauto.
Qed.
(** Fresh objects of every class are such states. *)
Theorem C35_fresh : forall n p, constructed (SInvisible n (initial_invisible n)) /\ constructed (SHand p []) /\
  constructed (SMeld p []) /\ constructed (SDiscard p []) /\ constructed (SDora []).
Proof. intros n p. cbn. destruct (initial_invisible n) eqn:E; auto. Qed.

(** ** C32. *)
Lemma flat_step : forall p start start' acts a t, 
  (In t start' <-> puts p t a \/ (In t start /\ ~ touches p t a)) ->
  in_hand p start (a :: acts) t <-> in_hand p start' acts t.
Proof.
  intros p start start' acts a t H. unfold in_hand. split.
  - intros [(before & x & after & E & P & F)|[I F]].
    + destruct before as [|y before]; injection E as -> ->.
      * right. tauto.
      * left. exists before, x, after. auto.
    + inversion F; subst. right. tauto.
  - intros [(before & x & after & E & P & F)|[I F]].
    + left. exists (a :: before), x, after. subst. auto.
    + apply H in I as [I|[I J]].
      * left. exists [], a, acts. auto.
      * right. auto.
Qed.
Lemma in_add1 : forall t h x, In t (set_union h [x]) <-> In t h \/ x = t.
Proof. intros. rewrite in_set_union. cbn. tauto. Qed.
Lemma in_sub1 : forall t h x, In t (set_minus h [x]) <-> In t h /\ x <> t.
Proof. intros. rewrite in_set_minus. cbn. intuition. Qed.

Lemma hand_step : forall p h a e, seat p -> legal_action a -> writes a e -> (forall d, a = Deal d -> d_hands d p <> []) ->
  exists h' n, scan (SHand p h) e = Ok (SHand p h', n) /\
    forall t, In t h' <-> puts p t a \/ (In t h /\ ~ touches p t a).
Proof.
  intros p h a e P L W D. cbn [scan]. unfold hand_scan, is_draw, is_discard, draw_tile_index, discard_tile_index.
  rewrite (init_tag a e L W), (draw_match_eq p a e P L W), (discard_match_eq p a e P L W), (player_open_eq p a e L W).
  unfold touches. destruct a as [d|q x|q x|q v|x|]; cbn [is_Deal bindr matched].
  - destruct W as (_ & _ & W). rewrite (holds_attr _ _ _ (W p P)). cbn [bindr]. rewrite int_list_comma by now apply D.
    cbn [bindr wrap]. exists (set_of (d_hands d p)), true. split; auto. intros t. rewrite in_set_of. cbn [puts takes]. tauto.
  - destruct (q =? p) eqn:E; cbn [matched bindr].
    + apply Z.eqb_eq in E. subst q. cbn [wrap bindr]. rewrite (proj2 (proj2 (str_int_nonneg x ltac:(destruct L; unfold valid_tile in *; lia)))).
      eexists _, _. split; [reflexivity|]. intros t. rewrite in_add1. cbn [puts takes].
      destruct (Z.eq_dec x t); tauto.
    + apply Z.eqb_neq in E. cbn [wrap bindr]. eexists _, _. split; [reflexivity|]. intros t. cbn [puts takes]. tauto.
  - destruct (q =? p) eqn:E; cbn [matched bindr].
    + apply Z.eqb_eq in E. subst q. cbn [wrap bindr]. rewrite (proj2 (proj2 (str_int_nonneg x ltac:(destruct L; unfold valid_tile in *; lia)))).
      eexists _, _. split; [reflexivity|]. intros t. rewrite in_sub1. cbn [puts takes]. tauto.
    + apply Z.eqb_neq in E. cbn [wrap bindr]. eexists _, _. split; [reflexivity|]. intros t. cbn [puts takes]. tauto.
  - destruct (q =? p) eqn:E; cbn [matched bindr].
    + apply Z.eqb_eq in E. subst q. rewrite (meld_from_eq _ _ _ W).
      destruct (decode_call p v L) as (m & -> & _ & S & _). cbn [wrap bindr].
      eexists _, _. split; [reflexivity|]. intros t. rewrite in_set_minus, S. cbn [puts takes]. tauto.
    + apply Z.eqb_neq in E. cbn [wrap bindr]. eexists _, _. split; [reflexivity|]. intros t. cbn [puts takes]. tauto.
  - cbn [wrap bindr]. eexists _, _. split; [reflexivity|]. intros t. cbn [puts takes]. tauto.
  - cbn [wrap bindr]. eexists _, _. split; [reflexivity|]. intros t. cbn [puts takes]. tauto.
Qed.
Theorem C32_player_hand : forall p start acts es, seat p -> log acts es -> plays p acts ->
  exists hand, passed_events (SHand p start) es = Ok (SHand p hand) /\
    forall t, In t hand <-> in_hand p start acts t.
Proof.
  intros p start acts es P [L W] D. rewrite passed_is_scan by exact I. revert start L D.
  induction W as [|a e acts es W1 W2 IH]; intros start L D.
  - exists start. split; auto. intros t. unfold in_hand. split; [auto|].
    intros [(before & x & after & E & _)|[I _]]; auto. destruct before; discriminate.
  - inversion L as [|? ? L1 L2]; subst.
    destruct (hand_step p start a e P L1 W1) as (h' & n & E & H); [intros d ->; apply D; now left|].
    destruct (IH h' L2) as (hand & E' & H'); [intros d I; apply D; now right|].
    exists hand. cbn [scan_all]. rewrite E. cbn [bindr fst]. split; auto. intros t. rewrite H'. symmetry. now apply flat_step.
Qed.

(** ** C33: discards and dora indicators since the last deal. *)
Theorem deal_cases : forall acts, no_deal acts \/ exists d after, last_deal acts d after.
Proof.
  induction acts as [|a acts [IH|(d & after & before & E & N)]].
  - left. constructor.
  - destruct a as [d|p t|p t|p v|t|]; try (left; constructor; [now intros []|exact IH]).
    right. exists d, acts, []. auto.
  - right. exists d, after, (a :: before). subst. auto.
Qed.
(** What a tracker holds is determined action by action; from that, since the last deal. *)
Lemma since_deal : forall {A} (step : A -> action -> A) (reset : deal -> A),
  (forall x d, step x (Deal d) = reset d) -> forall acts x d after, last_deal acts d after ->
  fold_left step acts x = fold_left step after (reset d).
Proof.
  intros A step reset H acts x d after (before & -> & N). rewrite fold_left_app. cbn [fold_left]. now rewrite H.
Qed.

Definition discard_step (p : Z) (l : list Z) (a : action) : list Z :=
  match a with Deal _ => [] | Discard q t => if q =? p then l ++ [t] else l | _ => l end.
Lemma discard_scan_eq : forall p l a e, seat p -> legal_action a -> writes a e ->
  exists n, scan (SDiscard p l) e = Ok (SDiscard p (discard_step p l a), n).
Proof.
  intros p l a e P L W. cbn [scan]. unfold discard_scan, is_discard, discard_tile_index.
  rewrite (init_tag a e L W), (discard_match_eq p a e P L W). unfold wrap.
  destruct a as [d|q x|q x|q v|x|]; cbn [is_Deal bindr matched discard_step]; eauto.
  destruct (q =? p); cbn [matched bindr]; eauto.
  rewrite (proj2 (proj2 (str_int_nonneg x ltac:(destruct L; unfold valid_tile in *; lia)))). eauto.
Qed.
Lemma discard_all : forall p acts es, seat p -> log acts es -> forall l,
  passed_events (SDiscard p l) es = Ok (SDiscard p (fold_left (discard_step p) acts l)).
Proof.
  intros p acts es P [L W] l. rewrite passed_is_scan by exact I. revert l L.
  induction W as [|a e acts es W1 W2 IH]; intros l L; auto. inversion L as [|? ? L1 L2]; subst.
  destruct (discard_scan_eq p l a e P L1 W1) as [n E]. cbn [scan_all fold_left]. rewrite E. cbn [bindr fst]. now apply IH.
Qed.
Lemma discard_nodeal : forall p acts l, no_deal acts -> fold_left (discard_step p) acts l = l ++ discards_of p acts.
Proof.
  induction acts as [|a acts IH]; intros l N; [now rewrite app_nil_r|]. inversion N as [|? ? N1 N2]; subst.
  cbn [fold_left discards_of flat_map]. rewrite IH by auto. fold (discards_of p acts).
  destruct a as [d|q x|q x|q v|x|]; cbn [discard_step]; auto; [exfalso; apply N1; exact I|].
  destruct (q =? p); auto. now rewrite <- app_assoc.
Qed.
Theorem C33_discards : forall p start acts es, seat p -> log acts es ->
  exists l, passed_events (SDiscard p start) es = Ok (SDiscard p l) /\
    (forall d after, last_deal acts d after -> l = discards_of p after) /\
    (no_deal acts -> l = start ++ discards_of p acts).
Proof.
  intros p start acts es P L. eexists. split; [exact (discard_all p acts es P L start)|]. split.
  - intros d after D. rewrite (since_deal (discard_step p) (fun _ => [])) with (d := d) (after := after) by auto.
    destruct D as (before & -> & N). now rewrite discard_nodeal by exact N.
  - now apply discard_nodeal.
Qed.

Definition dora_step (l : list Z) (a : action) : list Z :=
  match a with Deal d => [d_dora d] | NewDora t => l ++ [t] | _ => l end.
Lemma py_nth_last : forall (l : list Z) x, py_nth (l ++ [x]) (-1) = Ok x.
Proof.
  intros l x. unfold py_nth. rewrite app_length. cbn [length]. 
  replace (-1 <? 0) with true by auto.
  replace (-1 + Z.of_nat (length l + 1)) with (Z.of_nat (length l)) by lia.
  replace (Z.of_nat (length l) <? 0) with false by (symmetry; apply Z.ltb_ge; lia).
  replace (Z.of_nat (length l + 1) <=? Z.of_nat (length l)) with false by (symmetry; apply Z.leb_gt; lia).
  rewrite Nat2Z.id, nth_error_app2, Nat.sub_diag by lia. reflexivity.
Qed.
Lemma dora_scan_step : forall l a e, legal_action a -> writes a e ->
  dora_scan l e = Ok (match a with Deal _ | NewDora _ => Some (dora_step l a) | _ => None end).
Proof.
  intros l a e L W. unfold dora_scan. rewrite (init_tag a e L W), (dora_tag a e L W).
  destruct a as [d|q x|q x|q v|x|]; cbn [is_Deal is_NewDora dora_step]; auto.
  - destruct W as (_ & W & _). rewrite (holds_attr _ _ _ W). cbn [bindr]. rewrite int_list_comma by (destruct (d_round d); discriminate).
    cbn [bindr]. now rewrite py_nth_last.
  - destruct W as (_ & W). rewrite (holds_attr _ _ _ W). cbn [bindr]. now rewrite py_int_str.
Qed.
Lemma dora_all : forall acts es, log acts es -> forall l,
  passed_events (SDora l) es = Ok (SDora (fold_left dora_step acts l)).
Proof.
  intros acts es [L W] l. rewrite passed_is_scan by exact I. revert l L.
  induction W as [|a e acts es W1 W2 IH]; intros l L; auto. inversion L as [|? ? L1 L2]; subst.
  cbn [scan_all fold_left scan]. rewrite (dora_scan_step l a e L1 W1). cbn [wrap bindr].
  destruct a as [d|q x|q x|q v|x|]; cbn [bindr fst dora_step]; now apply IH.
Qed.
Lemma dora_nodeal : forall acts l, no_deal acts -> fold_left dora_step acts l = l ++ new_doras acts.
Proof.
  induction acts as [|a acts IH]; intros l N; [now rewrite app_nil_r|]. inversion N as [|? ? N1 N2]; subst.
  cbn [fold_left new_doras flat_map]. rewrite IH by auto. fold (new_doras acts).
  destruct a as [d|q x|q x|q v|x|]; cbn [dora_step]; auto; [exfalso; apply N1; exact I|]. now rewrite <- app_assoc.
Qed.
Theorem C33_dora_indicators : forall start acts es, log acts es ->
  exists l, passed_events (SDora start) es = Ok (SDora l) /\
    (forall d after, last_deal acts d after -> l = d_dora d :: new_doras after) /\
    (no_deal acts -> l = start ++ new_doras acts).
Proof.
  intros start acts es L. eexists. split; [exact (dora_all acts es L start)|]. split.
  - intros d after D. rewrite (since_deal dora_step (fun d => [d_dora d])) with (d := d) (after := after) by auto.
    destruct D as (before & -> & N). now rewrite dora_nodeal.
  - now apply dora_nodeal.
Qed.

(** ** C34. *)
(** The tile numbers of a game: all for four players, without 2m-8m for three. *)
Definition in_game (players t : Z) : Prop := valid_tile t /\ (players = 3 -> t < 4 \/ 32 <= t).
(** The full statement for the tile numbers satisfying [covered]. *)
Definition C34_statement (covered : Z -> Z -> Prop) : Prop :=
  forall players acts es, players = 3 \/ players = 4 -> log acts es ->
  exists s, passed_events (SInvisible players (initial_invisible players)) es = Ok (SInvisible players (Some s)) /\
    forall t, covered players t ->
    (forall d after, last_deal acts d after ->
       (In (ITile t) s <-> in_game players t /\ t <> d_dora d /\ Forall (fun a => ~ shows t a) after)) /\
    (no_deal acts -> (In (ITile t) s <-> in_game players t /\ Forall (fun a => ~ shows t a) acts)).
Definition C34_full : Prop := C34_statement (fun _ _ => True).

Lemma in_inv_minus : forall t s l, In (ITile t) (inv_minus s l) <-> In (ITile t) s /\ ~ In t l.
Proof.
  intros t s l. unfold inv_minus. rewrite filter_In, negb_true_iff.
  assert (E : existsb (fun u => inv_eqb (ITile t) (ITile u)) l = true <-> In t l).
  { rewrite existsb_exists. cbn [inv_eqb]. split; [intros (u & A & B); apply Z.eqb_eq in B; now subst|].
    intros A. exists t. now rewrite Z.eqb_refl. }
  split; intros [A B]; (split; [exact A|]); [intros C; apply E in C; congruence|].
  apply not_true_iff_false. now rewrite E.
Qed.
(** The program does not see the discard of tile 0. *)
Definition seen (t : Z) (a : action) : Prop :=
  match a with Discard _ x => x = t /\ t <> 0 | _ => shows t a end.
Lemma invisible_step : forall n s a e i0, initial_invisible n = Some i0 -> legal_action a -> writes a e ->
  exists s' b, scan (SInvisible n (Some s)) e = Ok (SInvisible n (Some s'), b) /\
    forall t, In (ITile t) s' <-> match a with Deal d => In (ITile t) i0 /\ t <> d_dora d | _ => In (ITile t) s /\ ~ seen t a end.
Proof.
  intros n s a e i0 I0 L W. cbn [scan]. unfold invisible_scan.
  rewrite (init_tag a e L W), (discard_value_eq a e L W), (dora_tag a e L W), (dora_scan_step [] a e L W).
  unfold is_open_hand. rewrite (open_tag a e L W).
  destruct a as [d|q x|q x|q v|x|]; cbn [is_Deal is_Call is_NewDora bindr seen shows dora_step app]; unfold wrap.
  - rewrite I0. cbn [opt_minus bindr]. eexists _, _. split; [reflexivity|]. intros t. rewrite in_inv_minus. cbn [In]. intuition.
  - cbn [bindr]. eexists _, _. split; [reflexivity|]. tauto.
  - destruct (x =? 0) eqn:E; cbn [negb opt_minus bindr].
    + apply Z.eqb_eq in E. eexists _, _. split; [reflexivity|]. intros t. split; [|tauto]. intros A. split; auto. intros [-> B]. congruence.
    + apply Z.eqb_neq in E. eexists _, _. split; [reflexivity|]. intros t. rewrite in_inv_minus. cbn [In].
      split; intros [A B]; (split; [exact A|]); [intros [-> C]; apply B; auto|]. intros [C|[]]. apply B. split; auto. congruence.
  - rewrite (meld_from_eq _ _ _ W). destruct (decode_call q v L) as (m & -> & _ & S & _). cbn [bindr opt_minus].
    eexists _, _. split; [reflexivity|]. intros t. rewrite in_inv_minus, S. tauto.
  - cbn [bindr opt_minus]. eexists _, _. split; [reflexivity|]. intros t. rewrite in_inv_minus. cbn [In]. intuition.
  - cbn [bindr]. eexists _, _. split; [reflexivity|]. tauto.
Qed.
Lemma last_deal_cons : forall a acts d after, last_deal (a :: acts) d after <->
  (a = Deal d /\ acts = after /\ no_deal after) \/ last_deal acts d after.
Proof.
  intros a acts d after. split.
  - intros (before & E & N). destruct before as [|b before]; injection E as -> ->; [left; auto|right; exists before; auto].
  - intros [(-> & -> & N)|(before & -> & N)]; [exists []; auto|exists (a :: before); auto].
Qed.
Lemma last_deal_no : forall acts d after, last_deal acts d after -> ~ no_deal acts.
Proof.
  intros acts d after (before & -> & _) N. apply Forall_app in N as [_ N]. inversion N as [|? ? N1 _]. apply N1. exact I.
Qed.
Lemma invisible_all : forall n i0 acts es, initial_invisible n = Some i0 -> log acts es -> forall s0,
  exists s, scan_all (SInvisible n (Some s0)) es = Ok (SInvisible n (Some s)) /\
    forall t,
    (forall d after, last_deal acts d after ->
       (In (ITile t) s <-> In (ITile t) i0 /\ t <> d_dora d /\ Forall (fun a => ~ seen t a) after)) /\
    (no_deal acts -> (In (ITile t) s <-> In (ITile t) s0 /\ Forall (fun a => ~ seen t a) acts)).
Proof.
  intros n i0 acts es I0 [L W]. revert L. induction W as [|a e acts es W1 W2 IH]; intros L s0.
  - exists s0. split; auto. intros t. split.
    + intros d after (before & E & _). destruct before; discriminate.
    + intros _. split; [auto|tauto].
  - inversion L as [|? ? L1 L2]; subst.
    destruct (invisible_step n s0 a e i0 I0 L1 W1) as (s1 & b & E & H). destruct (IH L2 s1) as (s & E' & H').
    exists s. cbn [scan_all]. rewrite E. cbn [bindr fst]. split; auto. intros t. specialize (H t). destruct (H' t) as [H1 H2]. split.
    + intros d after D. apply last_deal_cons in D as [(-> & -> & N)|D]; [|now apply H1]. rewrite (H2 N). rewrite H. tauto.
    + intros N. inversion N as [|? ? N1 N2]; subst. rewrite (H2 N2), H.
      destruct a; try (exfalso; apply N1; exact I); rewrite (Forall_cons_iff _ _ acts); tauto.
Qed.
Lemma initial_is : forall n, n = 3 \/ n = 4 -> exists i0, initial_invisible n = Some i0 /\
  forall t, In (ITile t) i0 <-> (n = 4 /\ 0 <= t < 136) \/ (n = 3 /\ 36 <= t < 136).
Proof.
  assert (G : forall a b t, In (ITile t) (map ITile (zrange a b)) <-> a <= t < b).
  { intros a b t. rewrite in_map_iff, <- in_zrange. split; [intros (x & [= ->] & A); auto|eauto]. }
  intros n [-> | ->]; eexists; (split; [reflexivity|]); intros t.
  - rewrite in_app_iff, G. split; [intros [A|A]; [|lia]|lia].
    cbn in A. intuition discriminate.
  - rewrite G. lia.
Qed.
Lemma seen_shows : forall t a, t <> 0 -> (seen t a <-> shows t a).
Proof. intros t [d|q x|q x|q v|x|] N; cbn [seen shows]; tauto. Qed.
(** Right for every tile number but those below 36 in a three-player game (1m and 9m), and
    number 0. *)
Theorem C34_partial : C34_statement (fun players t => if players =? 3 then t < 0 \/ 4 <= t < 32 \/ 36 <= t else t <> 0).
Proof.
  intros n acts es P LG. destruct (initial_is n P) as (i0 & I0 & S). rewrite passed_is_scan; [|destruct P; subst; exact I].
  rewrite I0. destruct (invisible_all n i0 acts es I0 LG i0) as (s & E & H). exists s. split; auto.
  intros t C. assert (N : t <> 0) by (destruct (n =? 3); lia). destruct (H t) as [H1 H2].
  assert (Q : forall l, Forall (fun a => ~ seen t a) l <-> Forall (fun a => ~ shows t a) l).
  { intros l. rewrite !Forall_forall. split; intros F x X; specialize (F x X); now rewrite (seen_shows t x N) in *. }
  assert (R : In (ITile t) i0 <-> in_game n t).
  { rewrite S. unfold in_game, valid_tile. destruct P; subst; cbn in C; lia. }
  split; [intros d after D; rewrite (H1 d after D)|intros D; rewrite (H2 D)]; rewrite R, Q; tauto.
Qed.
(** What happens to the others: the discard of tile 0 is not noticed, and in a three-player
    game the numbers of 1m and 9m are never there. *)
Theorem C34_tile_zero : forall acts es d after, log acts es -> last_deal acts d after ->
  exists s, passed_events (SInvisible 4 (initial_invisible 4)) es = Ok (SInvisible 4 (Some s)) /\
    (In (ITile 0) s <-> d_dora d <> 0 /\ forall a, In a after -> (forall p, a <> Discard p 0) -> ~ shows 0 a).
Proof.
  intros acts es d after LG D. destruct (initial_is 4 ltac:(auto)) as (i0 & I0 & S). rewrite passed_is_scan by exact I.
  rewrite I0. destruct (invisible_all 4 i0 acts es I0 LG i0) as (s & E & H). exists s. split; auto.
  rewrite (proj1 (H 0) d after D), S, Forall_forall. split.
  - intros (A & B & C). split; auto. intros a I N Sh. apply (C a I). destruct a as [|q x|q x|q v|x|]; cbn in *; auto.
    subst x. exfalso. now apply (N q).
  - intros (A & B). split; [left; lia|]. split; auto. intros a I Sh. apply (B a I).
    + intros p ->. cbn in Sh. tauto.
    + destruct a as [|q x|q x|q v|x|]; cbn in *; tauto.
Qed.
Theorem C34_three_players : forall acts es, log acts es ->
  exists s, passed_events (SInvisible 3 (initial_invisible 3)) es = Ok (SInvisible 3 (Some s)) /\
    forall t, t < 36 -> ~ In (ITile t) s.
Proof.
  intros acts es LG. destruct (initial_is 3 ltac:(auto)) as (i0 & I0 & S). rewrite passed_is_scan by exact I.
  rewrite I0. destruct (invisible_all 3 i0 acts es I0 LG i0) as (s & E & H). exists s. split; auto.
  intros t T. destruct (deal_cases acts) as [N|(d & after & D)].
  - rewrite (proj2 (H t) N), S. lia.
  - rewrite (proj1 (H t) d after D), S. lia.
Qed.

(** ** A concrete log: a deal, a draw and two discards (one of tile 0), a pon, an added
    kan with its new dora indicator. *)
Definition ex_hands (p : Z) : list Z :=
  if p =? 0 then [0; 4; 8; 12; 40; 44; 48; 60; 64; 100; 104; 108; 124]
  else if p =? 1 then [1; 2; 5; 6; 41; 45; 49; 61; 65; 101; 105; 109; 3]
  else [16; 20; 24; 28; 42; 46; 50; 62; 66; 102; 106; 110; 125].
Definition ex_deal : deal := mkDeal ex_hands [0; 0; 0; 2; 5] 77.
(** The pon of 1m with tiles 0 (taken), 1 and 2, and the added kan with tile 3. *)
Definition ex_pon : Z := 8 + 3 + 512 * (3 * 0 + 0) + 32 * 3.
Definition ex_added : Z := 16 + 3 + 512 * (3 * 0 + 0) + 32 * 3.
Definition ex_acts : list action :=
  [Deal ex_deal; Draw 0 7; Discard 0 0; Call 1 ex_pon; Discard 1 109; Other; Call 1 ex_added; NewDora 131].
Definition ex_event (s : text) (l : list (text * text)) : event := mkEvent s l.
Definition ex_init : event :=
  ex_event (t_ "INIT") [(t_ "seed", t_ "0,0,0,2,5,77"); (t_ "ten", t_ "250,250,250,250"); (t_ "oya", t_ "0");
    (t_ "hai0", comma_list (ex_hands 0)); (t_ "hai1", comma_list (ex_hands 1));
    (t_ "hai2", comma_list (ex_hands 2)); (t_ "hai3", comma_list (ex_hands 3))].
Definition ex_log : list event :=
  [ex_init; ex_event (t_ "T7") []; ex_event (t_ "D0") [];
   ex_event (t_ "N") [(t_ "who", t_ "1"); (t_ "m", str_int ex_pon)]; ex_event (t_ "E109") [];
   ex_event (t_ "REACH") [(t_ "who", t_ "2"); (t_ "step", t_ "1")];
   ex_event (t_ "N") [(t_ "who", t_ "1"); (t_ "m", str_int ex_added)]; ex_event (t_ "DORA") [(t_ "hai", t_ "131")]].
Theorem ex_is_log : log ex_acts ex_log.
Proof.
  split.
  - unfold ex_acts. repeat (apply Forall_cons); try apply Forall_nil; cbn [legal_action]; unfold seat, valid_tile; try lia; auto;
      (split; [lia|split; [vm_compute; split; congruence|vm_compute; reflexivity]]).
  - unfold ex_acts, ex_log. repeat (apply Forall2_cons); try apply Forall2_nil; cbn [writes]; unfold holds.
    + split; [reflexivity|]. split; [reflexivity|]. intros p H.
      assert (p = 0 \/ p = 1 \/ p = 2 \/ p = 3) as [-> | [-> | [-> | ->]]] by lia; vm_compute; reflexivity.
    + reflexivity.
    + reflexivity.
    + repeat split.
    + reflexivity.
    + split; [discriminate|]. split; [discriminate|]. split; [discriminate|].
      intros (l & c & r & E & A & B). vm_compute in E. injection E as <- <- <-. lia.
    + repeat split.
    + repeat split.
Qed.
Lemma ex_plays : forall p, plays p ex_acts.
Proof.
  intros p d I. cbn in I. destruct I as [I|I]; [injection I as <-|exfalso; repeat (destruct I as [I|I]; [discriminate|]); destruct I].
  cbn [d_hands ex_deal]. unfold ex_hands. destruct (p =? 0); [discriminate|]. destruct (p =? 1); discriminate.
Qed.
Lemma ex_last : last_deal ex_acts ex_deal (tl ex_acts).
Proof. exists []. split; [reflexivity|]. unfold no_deal. cbn. repeat (apply Forall_cons || apply Forall_nil); cbn; auto. Qed.

Example C32_ex : exists hand, passed_events (SHand 1 []) ex_log = Ok (SHand 1 hand) /\ Permutation.Permutation hand
  [5; 6; 41; 45; 49; 61; 65; 101; 105].
Proof. eexists. split; [vm_compute; reflexivity|]. apply Permutation.Permutation_refl. Qed.
Example C33_ex : passed_events (SDiscard 1 [9]) ex_log = Ok (SDiscard 1 [109]) /\
  passed_events (SDora [9]) ex_log = Ok (SDora [77; 131]).
Proof. split; vm_compute; reflexivity. Qed.
Example C35_ex : constructed (SCollection [(t_ "hand", SHand 0 []); (t_ "all", SInvisible 4 (initial_invisible 4))]) /\
  passed_events (SCollection [(t_ "discard", SDiscard 0 []); (t_ "dora", SDora [])]) ex_log =
  Ok (SCollection [(t_ "discard", SDiscard 0 [0]); (t_ "dora", SDora [77; 131])]).
Proof. split; [cbn; auto|vm_compute; reflexivity]. Qed.

(** The full statement of C34 fails for four players and for three. *)
Theorem C34_refuted :
  (exists s, passed_events (SInvisible 4 (initial_invisible 4)) ex_log = Ok (SInvisible 4 (Some s)) /\
    In (ITile 0) s /\ Exists (shows 0) (tl ex_acts)) /\
  (exists s, passed_events (SInvisible 3 (initial_invisible 3)) ex_log = Ok (SInvisible 3 (Some s)) /\
    ~ In (ITile 33) s /\ in_game 3 33 /\ Forall (fun a => ~ shows 33 a) (tl ex_acts)).
Proof.
  split.
  - eexists. split; [vm_compute; reflexivity|]. split; [now left|]. right. left. reflexivity.
  - destruct (C34_three_players _ _ ex_is_log) as (s & E & H). exists s. split; auto. split; [apply H; lia|].
    split; [unfold in_game, valid_tile; lia|]. apply Forall_forall. intros a I S.
    cbn [tl ex_acts In] in I. repeat (destruct I as [<-|I]; [cbn in S; try lia; auto; try contradiction|]).
    + destruct S as (i & A & B & C). destruct (i <? 3); lia.
    + destruct I.
Qed.
Theorem C34_full_refuted : ~ C34_full.
Proof.
  intros H. destruct (H 4 ex_acts ex_log ltac:(auto) ex_is_log) as (s & E & S).
  destruct (proj1 C34_refuted) as (s' & E' & I & X). rewrite E in E'. injection E' as <-.
  destruct (S 0 Logic.I) as [S1 _]. apply (S1 _ _ ex_last) in I. destruct I as (_ & _ & F).
  apply Exists_exists in X as (a & A & B). rewrite Forall_forall in F. now apply (F a).
Qed.
Example C34_partial_ex : exists s, passed_events (SInvisible 4 (initial_invisible 4)) ex_log = Ok (SInvisible 4 (Some s)) /\
  ~ In (ITile 109) s /\ ~ In (ITile 77) s /\ ~ In (ITile 131) s /\ ~ In (ITile 2) s /\ In (ITile 7) s.
Proof. 
  destruct (C34_partial 4 ex_acts ex_log ltac:(auto) ex_is_log) as (s & E & S). exists s. split; auto.
  clear S. vm_compute in E. injection E as <-. repeat split; vm_compute; intuition congruence.
Qed.

(** ** C27. *)
(** A pon whose tiles can be compared: some tiles, all valid, of one face. *)
Definition pon_ok (m : meld) : Prop :=
  m_class m = CTriplet -> m_self m <> [] /\ exists k, forall x, In x (m_self m) -> valid_tile x /\ face x = k.
Lemma face_div : forall x y, x / 4 = y / 4 -> face x = face y.
Proof. intros x y H. unfold face. now rewrite H. Qed.
Lemma pon_block : forall v i, field v 9 7 < 102 -> 0 <= i < 3 ->
  pon_tile v i / 4 = field v 9 7 / 3 /\ valid_tile (pon_tile v i).
Proof.
  intros v i T I. pose proof (field_range v 9 7 ltac:(lia)). pose proof (field_range v 5 2 ltac:(lia)) as F. change (2 ^ 2) with 4 in F.
  pose proof (div_bound (field v 9 7) 3 34 ltac:(lia) ltac:(lia)). unfold pon_tile, valid_tile.
  set (q := field v 9 7 / 3) in *. set (j := if i <? field v 5 2 then i else i + 1).
  assert (0 <= j <= 3) by (unfold j; destruct (i <? field v 5 2) eqn:E; [|apply Z.ltb_ge in E]; lia).
  split; [|lia]. rewrite Z.mul_comm, Z.div_add_l by lia. rewrite Z.div_small; lia.
Qed.
Lemma decoded_pon_ok : forall p v m, legal_action (Call p v) -> decoded p v m -> pon_ok m.
Proof.
  intros p v m (_ & V & T) (C & S & _) K. rewrite K in C. unfold tile_field_ok in T. rewrite <- C in T.
  unfold laid_down in S. rewrite <- C in S. split.
  - intros E. pose proof (S (pon_tile v (if pon_position v =? 0 then 1 else 0))) as X. rewrite E in X. apply (proj2 X).
    exists (if pon_position v =? 0 then 1 else 0). destruct (pon_position v =? 0) eqn:Q; [apply Z.eqb_eq in Q|apply Z.eqb_neq in Q]; lia.
  - exists (face (4 * (field v 9 7 / 3))). intros x X. apply S in X as (i & I & _ & ->).
    destruct (pon_block v i T I) as [A B]. split; auto. apply face_div. rewrite A. rewrite Z.mul_comm, Z.div_mul; lia.
Qed.
Lemma decoded_added : forall p v m, legal_action (Call p v) -> decoded p v m -> m_class m = CAddedKan ->
  m_self m = [added_tile v] /\ valid_tile (added_tile v).
Proof.
  intros p v m (_ & V & T) (C & S & N & _) K. rewrite K in C. unfold tile_field_ok in T. rewrite <- C in T.
  unfold laid_down in S. rewrite <- C in S. split.
  - destruct (m_self m) as [|a [|b r]].
    + exfalso. apply (proj2 (S (added_tile v)) eq_refl).
    + f_equal. apply S. now left.
    + exfalso. inversion N as [|? ? N1 _]; subst. apply N1. left.
      rewrite (proj1 (S a)) by now left. rewrite (proj1 (S b)); auto. right. now left.
  - pose proof (field_range v 9 7 ltac:(lia)). pose proof (field_range v 5 2 ltac:(lia)) as F. change (2 ^ 2) with 4 in F.
    pose proof (div_bound (field v 9 7) 3 34 ltac:(lia) ltac:(lia)). unfold added_tile, valid_tile. lia.
Qed.
Lemma upgrade_spec : forall m a x, pon_ok m -> m_class a = CAddedKan -> m_self a = [x] -> valid_tile x ->
  exists m1, upgrade a m = Ok m1 /\ pon_ok m1 /\ ((fits m a /\ grown m a m1) \/ (~ fits m a /\ m1 = m)).
Proof.
  intros m a x P C S V. unfold upgrade.
  destruct (m_class m) eqn:K; try (exists m; split; [reflexivity|]; split; [exact P|]; right; split; [|reflexivity]; intros [F _]; congruence).
  destruct (P K) as [N (k & F)]. unfold is_triplet_of_added_kan. rewrite S. change (py_nth [x] 0) with (Ok x). cbn [bindr].
  destruct (m_self m) as [|y r] eqn:Sm; [congruence|]. change (py_nth (y :: r) 0) with (Ok y).
  destruct (C05_tile_of_number x V) as (tx & -> & _ & Vx & _). cbn [bindr].
  destruct (F y (or_introl eq_refl)) as [Vy Fy].
  destruct (C05_tile_of_number y Vy) as (ty & -> & _ & Vty & _). cbn [bindr].
  unfold tile_eqb. rewrite Vx, Vty, Fy.
  assert (Q : kind_eqb (face x) k = true <-> fits m a).
  { unfold fits. rewrite S, Sm, kind_eqb_eq. split.
    - intros E. split; auto. split; auto. intros u w U [<-|[]]. rewrite E. now apply F.
    - intros (_ & _ & E). rewrite <- Fy. symmetry. apply E; now left. }
  destruct (kind_eqb (face x) k) eqn:E.
  - exists (kan_from_triplet m a). split; [reflexivity|]. split; [intros D; discriminate|]. left. split; [now apply Q|].
    split; [reflexivity|]. split; [|split; reflexivity]. intros u. cbn [kan_from_triplet m_self]. now rewrite in_set_union.
  - exists m. split; [reflexivity|]. split; [rewrite <- Sm in *; exact P|]. right. split; [|reflexivity]. intros G. apply Q in G. discriminate.
Qed.
Lemma upgrade_all : forall a x l, m_class a = CAddedKan -> m_self a = [x] -> valid_tile x -> Forall pon_ok l ->
  exists l1, mapM (upgrade a) l = Ok l1 /\ Forall pon_ok l1 /\
    Forall2 (fun m m1 => (fits m a /\ grown m a m1) \/ (~ fits m a /\ m1 = m)) l l1.
Proof.
  intros a x l C S V F. induction F as [|m l P F (l1 & E & F1 & R)].
  - exists []. auto.
  - destruct (upgrade_spec m a x P C S V) as (m1 & Em & Pm & Rm). exists (m1 :: l1). cbn [mapM]. rewrite Em. cbn [bindr].
    rewrite E. auto.
Qed.
Lemma becomes_other : forall m ds m', m_class m <> CTriplet -> becomes m ds m' -> m' = m.
Proof. intros m ds m' K B. induction B as [| |m a later k F]; auto. destruct F as [F _]. contradiction. Qed.

Definition mclass_eq_dec (a b : mclass) : {a = b} + {a <> b}.
Proof. decide equality. Defined.
Definition meld_step_ok (p : Z) (l : list meld) (acts : list action) (ms : list meld) : Prop :=
  exists ds l' r, Forall2 (decoded p) (calls_of p acts) ds /\ Forall2 (fun m m' => becomes m ds m') l l' /\
    table_melds ds r /\ ms = l' ++ r.
Lemma meld_all : forall p acts es, seat p -> log acts es -> forall l, Forall pon_ok l ->
  exists ms, scan_all (SMeld p l) es = Ok (SMeld p ms) /\
    (forall d after, last_deal acts d after -> meld_step_ok p [] after ms) /\
    (no_deal acts -> meld_step_ok p l acts ms).
Proof.
  intros p acts es P [L W]. revert L. induction W as [|a e acts es W1 W2 IH]; intros L l Pl.
  - exists l. split; [reflexivity|]. split; [intros d after (before & E & _); destruct before; discriminate|].
    intros _. exists [], l, []. split; [constructor|]. split; [clear; induction l; constructor; auto; constructor|].
    split; [constructor|]. now rewrite app_nil_r.
  - inversion L as [|? ? L1 L2]; subst. cbn [scan_all scan]. unfold meld_scan.
    rewrite (player_open_eq p a e L1 W1), (init_tag a e L1 W1). cbn [bindr].
    assert (Skip : (forall q v, a = Call q v -> q <> p) -> ~ is_deal a ->
      exists ms, (do s' <- Ok (SMeld p l, false); scan_all (fst s') es) = Ok (SMeld p ms) /\
        (forall d after, last_deal (a :: acts) d after -> meld_step_ok p [] after ms) /\
        (no_deal (a :: acts) -> meld_step_ok p l (a :: acts) ms)).
    { intros A D. destruct (IH L2 l Pl) as (ms & E & H1 & H2). exists ms. cbn [bindr fst]. split; auto. split.
      - intros d after X. apply last_deal_cons in X as [(-> & _)|X]; [exfalso; apply D; exact I|eauto].
      - intros N. inversion N as [|? ? N1 N2]; subst. destruct (H2 N2) as (ds & l' & r & X1 & X2 & X3 & X4).
        exists ds, l', r. split; auto. unfold calls_of in *. cbn [flat_map].
        destruct a as [d|q x|q x|q v|x|]; auto. destruct (q =? p) eqn:E'; auto. apply Z.eqb_eq in E'. exfalso. now apply (A q v). }
    assert (Later : forall ms, (forall d after, last_deal acts d after -> meld_step_ok p [] after ms) -> ~ is_deal a ->
       forall d after, last_deal (a :: acts) d after -> meld_step_ok p [] after ms).
    { intros ms H D d after X. apply last_deal_cons in X as [(-> & _)|X]; [exfalso; apply D; exact I|eauto]. }
    destruct a as [d|q x|q x|q v|x|]; cbn [is_Deal]; try (apply Skip; [discriminate|now intros []]).
    + (* deal *) cbn [wrap bindr fst]. destruct (IH L2 [] (Forall_nil _)) as (ms & E & H1 & H2). exists ms. split; auto. split.
      * intros d' after X. apply last_deal_cons in X as [([= ->] & -> & N)|X]; [now apply H2|now apply (H1 d')].
      * intros N. inversion N as [|? ? N1 _]. exfalso. apply N1. exact I.
    + destruct (q =? p) eqn:Q; [|apply Z.eqb_neq in Q; apply Skip; [intros ? ? [= <- <-]; exact Q|now intros []]].
      apply Z.eqb_eq in Q. subst q. rewrite (meld_from_eq _ _ _ W1).
      destruct (decode_call p v L1) as (m & -> & Dm). cbn [bindr].
      assert (Calls : calls_of p (Call p v :: acts) = v :: calls_of p acts).
      { unfold calls_of. cbn [flat_map]. now rewrite Z.eqb_refl. }
      destruct (mclass_eq_dec (m_class m) CAddedKan) as [K|K].
      * rewrite K. destruct (decoded_added p v m L1 Dm K) as [S V].
        destruct (upgrade_all m _ l K S V Pl) as (l1 & -> & Pl1 & R). cbn [wrap bindr fst].
        destruct (IH L2 l1 Pl1) as (ms & E & H1 & H2). exists ms. split; auto. split; [apply Later; auto; now intros []|].
        intros N. inversion N as [|? ? N1 N2]; subst. destruct (H2 N2) as (ds & l' & r & X1 & X2 & X3 & X4).
        exists (m :: ds), l', r. rewrite Calls. split; [constructor; auto|]. split; [|split; [constructor; auto|auto]].
        clear -R X2. revert l' X2. induction R as [|y y1 l l1 Y R IHR]; intros l' X2; inversion X2 as [|? z ? l2 B X]; subst; constructor; auto.
        destruct Y as [[F G]|[F ->]]; [|now constructor].
        assert (z = y1) as ->; [|now constructor]. apply (becomes_other _ ds); auto. destruct G as [G _]. rewrite G. discriminate.
      * assert (Q : match m_class m with
                    | CAddedKan => do l0 <- mapM (upgrade m) l; Ok (Some l0)
                    | _ => Ok (Some (l ++ [m]))
                    end = Ok (Some (l ++ [m]))) by (destruct (m_class m); auto; congruence).
        rewrite Q. cbn [wrap bindr fst].
        assert (Pm : Forall pon_ok (l ++ [m])) by (apply Forall_app; split; auto; constructor; auto; eapply decoded_pon_ok; eauto).
        destruct (IH L2 _ Pm) as (ms & E & H1 & H2). exists ms. split; auto. split; [apply Later; auto; now intros []|].
        intros N. inversion N as [|? ? N1 N2]; subst. destruct (H2 N2) as (ds & l' & r & X1 & X2 & X3 & X4).
        apply Forall2_app_inv_l in X2 as (l1 & l2 & Y1 & Y2 & ->). inversion Y2 as [|? m' ? ? B Y3]; subst. inversion Y3; subst.
        exists (m :: ds), l1, (m' :: r). rewrite Calls. split; [constructor; auto|]. split; [|split].
        -- clear -Y1 K. induction Y1; constructor; auto. constructor; auto. intros (_ & F & _). contradiction.
        -- now constructor.
        -- now rewrite <- app_assoc.
Qed.
(** After any log the meld list is, since the last deal (or from an empty list), the melds
    of the player's calls in order, pons turned into kans by later added kans. *)
Definition melds_after (p : Z) (acts : list action) (ms : list meld) : Prop :=
  exists ds, Forall2 (decoded p) (calls_of p acts) ds /\ table_melds ds ms.
Theorem C27_player_melds : forall p acts es, seat p -> log acts es ->
  exists ms, passed_events (SMeld p []) es = Ok (SMeld p ms) /\
    (forall d after, last_deal acts d after -> melds_after p after ms) /\
    (no_deal acts -> melds_after p acts ms).
Proof.
  intros p acts es P L. rewrite passed_is_scan by exact I. destruct (meld_all p acts es P L [] (Forall_nil _)) as (ms & E & H1 & H2).
  exists ms. split; auto.
  assert (G : forall x, meld_step_ok p [] x ms -> melds_after p x ms).
  { intros x (ds & l' & r & X1 & X2 & X3 & X4). inversion X2; subst. exists ds. auto. }
  split; eauto.
Qed.
(** A list of calls determines the melds up to the order inside sets: the melds after the
    same calls agree in class, tiles, borrowed tile and source. *)
Definition same_meld (a b : meld) : Prop :=
  m_class a = m_class b /\ (forall x, In x (m_self a) <-> In x (m_self b)) /\
  (forall x, In x (m_borrowed a) <-> In x (m_borrowed b)) /\ m_from a = m_from b.
Lemma fits_same : forall a b x y, same_meld a b -> same_meld x y -> fits a x -> fits b y.
Proof.
  intros a b x y (A & B & _) (C & D & _) (F & G & H). split; [congruence|]. split; [congruence|].
  intros u w U V. apply H; [now apply B|now apply D].
Qed.
Lemma same_sym : forall a b, same_meld a b -> same_meld b a.
Proof. intros a b (A & B & C & D). split; [auto|]. split; [intros; symmetry; auto|]. split; [intros; symmetry; auto|auto]. Qed.
Lemma becomes_same : forall a ds x, becomes a ds x -> forall b ds' y, same_meld a b -> Forall2 same_meld ds ds' -> becomes b ds' y ->
  same_meld x y.
Proof.
  intros a ds x H. induction H as [m|m d later m' N H IH|m d later k F G]; intros b ds' y S D B.
  - inversion D; subst. inversion B; subst. auto.
  - inversion D as [|? d' ? later' D1 D2]; subst. inversion B as [|? ? ? ? N' B'|? ? ? ? F' G']; subst; [eauto|].
    exfalso. apply N. now apply (fits_same b m d' d); auto using same_sym.
  - inversion D as [|? d' ? later' D1 D2]; subst. inversion B as [|? ? ? ? N' B'|? ? ? ? F' G']; subst.
    + exfalso. apply N'. now apply (fits_same m b d d').
    + destruct G as (G1 & G2 & G3 & G4), G' as (H1 & H2 & H3 & H4), S as (S1 & S2 & S3 & S4), D1 as (_ & D1 & _).
      split; [congruence|]. split; [intros x; now rewrite G2, H2, S2, D1|]. split; [intros x; now rewrite G3, H3|congruence].
Qed.
Theorem C27_determined : forall p acts a b, melds_after p acts a -> melds_after p acts b -> Forall2 same_meld a b.
Proof.
  intros p acts a b (ds & D & T) (ds' & D' & T').
  assert (S : Forall2 same_meld ds ds').
  { clear T T'. revert ds' D'. induction D as [|v m vs ds V D IH]; intros ds' D'; inversion D' as [|? m' ? ds'' V' D'']; subst; constructor; auto.
    destruct V as (A1 & A2 & _ & A3 & _ & A4), V' as (B1 & B2 & _ & B3 & _ & B4). split; [congruence|].
    split; [intros x; now rewrite A2, B2|]. split; [intros x; now rewrite A3, B3|congruence]. }
  clear D D'. revert ds' S b T'. induction T as [|m later r K T IH|m later m' r K B T IH]; intros ds' S b T'.
  - inversion S; subst. inversion T'; subst. constructor.
  - inversion S as [|? n ? later' S1 S2]; subst. destruct S1 as [S1 _]. inversion T' as [|? ? ? K' X|? ? ? ? K' X]; subst; [eauto|congruence].
  - inversion S as [|? n ? later' S1 S2]; subst. inversion T' as [|? ? ? K' X|? ? ? ? K' X1 X2]; subst; [destruct S1 as [S1 _]; congruence|].
    constructor; eauto. eapply becomes_same; eauto.
Qed.
(** When the added tile is not already in the pon, the kan consists of exactly the four
    copies of one face. *)
Lemma face_block : forall x y, valid_tile x -> valid_tile y -> face x = face y -> x / 4 = y / 4.
Proof.
  intros x y X Y F. unfold face, valid_tile in *. injection F as F1 F2.
  pose proof (div_bound x 4 34 ltac:(lia) ltac:(lia)). pose proof (div_bound y 4 34 ltac:(lia) ltac:(lia)).
  set (a := x / 4) in *. set (b := y / 4) in *. clearbody a b.
  pose proof (Z.div_mod a 9 ltac:(lia)). pose proof (Z.div_mod b 9 ltac:(lia)).
  pose proof (Z.mod_pos_bound a 9 ltac:(lia)). pose proof (Z.mod_pos_bound b 9 ltac:(lia)).
  unfold suit_of_block in F1.
  destruct (a <? 9) eqn:A1; [apply Z.ltb_lt in A1|apply Z.ltb_ge in A1; destruct (a <? 18) eqn:A2; [apply Z.ltb_lt in A2|apply Z.ltb_ge in A2; destruct (a <? 27) eqn:A3; [apply Z.ltb_lt in A3|apply Z.ltb_ge in A3]]];
  (destruct (b <? 9) eqn:B1; [apply Z.ltb_lt in B1|apply Z.ltb_ge in B1; destruct (b <? 18) eqn:B2; [apply Z.ltb_lt in B2|apply Z.ltb_ge in B2; destruct (b <? 27) eqn:B3; [apply Z.ltb_lt in B3|apply Z.ltb_ge in B3]]]);
  try discriminate; lia.
Qed.
Theorem C27_four_tiles : forall p q v w m a k, legal_action (Call p v) -> legal_action (Call q w) ->
  decoded p v m -> decoded q w a -> fits m a -> grown m a k -> (forall x, In x (m_self a) -> ~ In x (meld_tiles m)) ->
  NoDup (m_borrowed k) /\ (forall x, In x (m_self k) -> ~ In x (m_borrowed k)) /\
  exists b, forall x, In x (meld_tiles k) <-> x / 4 = b.
Proof.
  intros p q v w m a k Lv Lw Dm Da F G N. pose proof F as (K & Ka & Ff). destruct (decoded_added q w a Lw Da Ka) as [Sa Va].
  destruct Lv as (_ & V & T). destruct Dm as (C & S & Nd & B & Nb & _). rewrite K in C. unfold tile_field_ok in T. rewrite <- C in T.
  unfold laid_down in S. unfold taken in B. rewrite <- C in S, B. destruct G as (_ & G1 & G2 & _).
  assert (PP : 0 <= pon_position v < 3) by (apply Z.mod_pos_bound; lia).
  assert (M : forall x, In x (meld_tiles m) <-> exists i, 0 <= i < 3 /\ x = pon_tile v i).
  { intros x. unfold meld_tiles. rewrite in_app_iff, S, B. split.
    - intros [(i & I & _ & ->)| ->]; eauto.
    - intros (i & I & ->). destruct (Z.eq_dec i (pon_position v)) as [->|E]; [auto|left; eauto]. }
  set (b := field v 9 7 / 3) in *.
  assert (At : added_tile w / 4 = b).
  { destruct (Z.eq_dec (pon_position v) 0) as [Z|Z].
    - rewrite <- (face_block (pon_tile v 1) (added_tile w)); [apply pon_block; auto; lia|apply pon_block; auto; lia|exact Va|].
      apply Ff; [apply S; exists 1; lia|rewrite Sa; now left].
    - rewrite <- (face_block (pon_tile v 0) (added_tile w)); [apply pon_block; auto; lia|apply pon_block; auto; lia|exact Va|].
      apply Ff; [apply S; exists 0; lia|rewrite Sa; now left]. }
  assert (U : forall x, x / 4 = b -> x = 4 * b + field v 5 2 \/ In x (meld_tiles m)).
  { intros x X. pose proof (Z.div_mod x 4 ltac:(lia)). pose proof (Z.mod_pos_bound x 4 ltac:(lia)).
    destruct (Z.lt_trichotomy (x mod 4) (field v 5 2)) as [E|[E|E]]; [right|left; lia|right]; apply M.
    - pose proof (field_range v 5 2 ltac:(lia)) as R. change (2 ^ 2) with 4 in R.
      exists (x mod 4). split; [lia|]. unfold pon_tile. fold b. apply Z.ltb_lt in E. rewrite E. lia.
    - exists (x mod 4 - 1). pose proof (field_range v 5 2 ltac:(lia)). split; [lia|]. unfold pon_tile. fold b.
      replace (x mod 4 - 1 <? field v 5 2) with false by (symmetry; apply Z.ltb_ge; lia). lia. }
  assert (Na : ~ In (added_tile w) (meld_tiles m)) by (apply N; rewrite Sa; now left).
  split; [now rewrite G2|]. split.
  - intros x X Y. rewrite G2 in Y. apply G1 in X as [X|X].
    + apply B in Y. subst x. apply S in X as (i & I & E & X). apply E. clear -X I PP.
      unfold pon_tile in X. destruct (pon_position v <? field v 5 2) eqn:E1; destruct (i <? field v 5 2) eqn:E2; 
        [|apply Z.ltb_lt in E1; apply Z.ltb_ge in E2|apply Z.ltb_ge in E1; apply Z.ltb_lt in E2|]; lia.
    + rewrite Sa in X. destruct X as [<-|[]]. apply Na. unfold meld_tiles. apply in_or_app. now right.
  - exists b. intros x. unfold meld_tiles at 1. rewrite in_app_iff, G1, G2, Sa. cbn [In]. split.
    + intros [[X|[<-|[]]]|X]; [|exact At|].
      * destruct (proj1 (M x)) as (i & I & ->); [unfold meld_tiles; apply in_or_app; auto|]. now apply pon_block.
      * destruct (proj1 (M x)) as (i & I & ->); [unfold meld_tiles; apply in_or_app; auto|]. now apply pon_block.
    + intros X. destruct (U x X) as [->|Y].
      * destruct (U (added_tile w) At) as [E|E]; [|contradiction]. left. right. auto.
      * unfold meld_tiles in Y. apply in_app_iff in Y. tauto.
Qed.
Example C27_ex : passed_events (SMeld 1 []) ex_log = Ok (SMeld 1 [mkMeld CKanFromTriplet [1; 2; 3] [0] 0]).
Proof. vm_compute. reflexivity. Qed.

Print Assumptions C27_player_melds.
Print Assumptions C27_determined.
Print Assumptions C27_four_tiles.
Print Assumptions C32_player_hand.
Print Assumptions C33_discards.
Print Assumptions C33_dora_indicators.
Print Assumptions C34_partial.
Print Assumptions C34_full_refuted.
Print Assumptions C34_tile_zero.
Print Assumptions C34_three_players.
Print Assumptions C35_passed_is_scanning.
Print Assumptions C35_passed_app.
