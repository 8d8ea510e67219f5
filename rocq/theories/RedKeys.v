(** Which of two equal tiles, red or plain, a row of the report names: a key of the hand stays what
    it is, whatever is taken away. *)
From Coq Require Import String.
From Verif Require Import Base Category Tile TileSet Spec_Tile TileSetFacts Win Spec_Win WinFacts WinProofs Waiting Spec_Waiting WaitingFacts WaitingTop.
From Verif Require Import Parse Text Tenhou TenhouProofs Spec_Meld MeldProofs Prop_Meld Event State Spec_Log StateProofs Checker Spec_Checker CheckerProofs CheckerHand CheckerRows.
From Coq Require Import List ZArith QArith Lia Bool Permutation.
Import ListNotations.
Open Scope list_scope.
Open Scope Z_scope.

Lemma put_has s t v x : In x (map fst s) -> In x (map fst (put s t v)).
Proof.
  induction s as [|[t' v'] s IH]; cbn [put map fst In]; [intros []|]. destruct (tile_eqb t' t); cbn [map fst In]; [auto|]. intros [A|A]; auto.
Qed.
Lemma sub_into_has o : forall s x, In x (map fst s) -> In x (map fst (sub_into s o)).
Proof. unfold sub_into. induction o as [|e o IH]; intros s x X; [exact X|]. cbn [fold_left]. apply IH. now apply put_has. Qed.

(** [t] is the key of [H] for its face, if there is one. *)
Definition sure (H : tset) (t : tile) : Prop := forall t', In t' (map fst H) -> view t' = view t -> t' = t.
Definition keeps (H s : tset) : Prop := wf s /\ forall t, In t (map fst H) -> In t (map fst s).
Lemma wf_same s a b : wf s -> In a (map fst s) -> In b (map fst s) -> view a = view b -> a = b.
Proof.
  unfold wf, kinds_of. induction s as [|[t v] s IH]; intros W A B E; [destruct A|]. cbn [map fst In] in *. inversion W as [|? ? W1 W2]; subst.
  assert (K : forall x, In x (map fst s) -> In (view x) (map (fun e : tile * Z => view (fst e)) s)).
  { intros x X. apply in_map_iff in X. destruct X as (e & <- & I0). apply in_map_iff. now exists e. }
  destruct A as [<-|A], B as [<-|B]; auto.
  - pose proof (K b B) as X. rewrite <- E in X. destruct (W1 X).
  - pose proof (K a A) as X. rewrite E in X. destruct (W1 X).
Qed.
Lemma keeps_sure H s : keeps H s -> Forall (sure H) (map fst s).
Proof. intros [W K]. apply Forall_forall. intros t T t' T' E. eapply wf_same; eauto. Qed.
Lemma keeps_sub H s u : keeps H s -> keeps H (subtract s u).
Proof. intros [W K]. split; [now apply wf_sub_into|]. intros t T. apply sub_into_has. auto. Qed.

Section Sure.
  Variable H : tset.
  Definition sures (rs : list hres) : Prop := Forall (fun r : hres => Forall (sure H) (map fst (snd r))) rs.
  Lemma h_units_sure rec hand base mu cb us mx : keeps H hand ->
    (forall st h m, keeps H h -> sures (fst (rec st h m))) -> sures (fst (fst (h_units rec hand base mu cb us mx))).
  Proof.
    intros K R. revert mx. induction us as [|[u st] us IH]; intro mx; cbn [h_units]; [constructor|].
    destruct (base + mu <=? mx); [|constructor].
    destruct (borrowed_tile_count (subtract hand u) - base =? cb).
    - specialize (R st (subtract hand u) mx (keeps_sub _ _ _ K)).
      destruct (rec st (subtract hand u) mx) as [rs0 mx0]. cbn [fst] in R.
      specialize (IH mx0). destruct (h_units rec hand base mu cb us mx0) as [[rs2 mx2] ret]. cbn [fst] in *.
      apply Forall_app. split; [|exact IH]. apply Forall_map. cbn [fst snd]. exact R.
    - specialize (IH mx). destruct (h_units rec hand base mu cb us mx) as [[rs2 mx2] ret]. cbn [fst app] in *. exact IH.
  Qed.
  Lemma h_tiles_sure rec group cb hand base mu st tiles mx : keeps H hand ->
    (forall g st h m, keeps H h -> sures (fst (rec g st h m))) -> sures (fst (fst (h_tiles rec group cb hand base mu st tiles mx))).
  Proof.
    intros K R. revert mx. induction tiles as [|t rest IH]; intro mx; cbn [h_tiles]; [constructor|].
    pose proof (h_units_sure (rec (set_nth cb (t :: rest) group)) hand base mu (Z.of_nat cb) (next_states st t) mx K (fun st h m => R _ st h m)) as U.
    destruct (h_units (rec (set_nth cb (t :: rest) group)) hand base mu (Z.of_nat cb) (next_states st t) mx) as [[rs mx1] ret].
    cbn [fst] in U. destruct ret; [exact U|]. specialize (IH mx1).
    destruct (h_tiles rec group cb hand base mu st rest mx1) as [[rs2 mx2] ret2]. cbn [fst] in *. apply Forall_app. auto.
  Qed.
  Lemma h_rounds_sure rec group hand base st rounds mx : keeps H hand ->
    (forall cb g st h m, keeps H h -> sures (fst (rec cb g st h m))) -> sures (fst (h_rounds rec group hand base st rounds mx)).
  Proof.
    intros K R. revert mx. induction rounds as [|cb more IH]; intro mx; cbn [h_rounds]; [constructor|].
    pose proof (h_tiles_sure (rec cb) group cb hand base (need_units st * Z.of_nat cb) st (nth cb group []) mx K (R cb)) as U.
    destruct (h_tiles (rec cb) group cb hand base (need_units st * Z.of_nat cb) st (nth cb group []) mx) as [[rs mx1] ret].
    cbn [fst] in U. destruct ret; [exact U|]. specialize (IH mx1).
    destruct (h_rounds rec group hand base st more mx1) as [rs2 mx2]. cbn [fst] in *. apply Forall_app. auto.
  Qed.
  Lemma h_sel_sure fuel ig limits pr stage group st hand mx : keeps H hand -> sures (fst (h_sel fuel ig limits pr stage group st hand mx)).
  Proof.
    revert stage group st hand mx. induction fuel as [|f IH]; intros stage group st hand mx K; [constructor|]. cbn [h_sel].
    destruct (ig && negb (within_limits limits hand)); [constructor|]. destruct (has_win st).
    - cbn [fst]. constructor; [|constructor]. cbn [fst snd]. pose proof (keeps_sure _ _ K) as F. rewrite Forall_forall in *.
      intros t T. apply F. unfold neg in T. rewrite map_map in T. cbn [fst] in T. apply in_map_iff in T. destruct T as (e & <- & T). apply filter_In in T. apply in_map. apply T.
    - apply h_rounds_sure; [exact K|]. intros. now apply IH.
  Qed.
  Lemma h_combos_sure p hand ig w : keeps H hand -> sures (h_combos p hand ig w).
  Proof. apply h_sel_sure. Qed.
  Lemma h_both_sure p hand r : keeps H hand -> h_both p hand true = Ok r -> Forall (sure H) (snd r).
  Proof.
    intros K E. unfold h_both in E. destruct (h_step p hand true) as [w|]; [|discriminate]. cbn [bindr] in E.
    apply Ok_inj in E. subst r. cbn [snd]. pose proof (h_combos_sure p hand true w K) as G. unfold union_borrowed.
    assert (X : forall rs a, sures rs -> Forall (sure H) a -> Forall (sure H) (fold_left (fun a (r : hres) => set_update a (map fst (snd r))) rs a)).
    { clear. induction rs as [|r rs IH]; intros a S A; [exact A|]. inversion S as [|? ? S1 S2]; subst. cbn [fold_left]. apply IH; [exact S2|]. now apply set_update_P. }
    apply X; [exact G|constructor].
  Qed.
  Lemma h_batch_sure p hand rows : keeps H hand -> h_batch p hand true = Ok rows -> Forall (fun r => Forall (sure H) (snd r)) rows.
  Proof.
    intros K E. unfold h_batch in E. destruct (h_step p hand true) as [w|]; [|discriminate]. cbn [bindr] in E.
    apply Ok_inj in E. subst rows. apply Forall_map. cbn [fst snd].
    pose proof (h_combos_sure p hand true w K) as G. revert G. generalize (h_combos p hand true w). intros rs G.
    set (good := fun d : list (tile * list tile) => Forall (fun e => Forall (sure H) (snd e)) d).
    assert (U : forall d t ts, good d -> Forall (sure H) ts -> good (dict_update d t ts)).
    { unfold good. induction 1 as [|[t' s] d A B IH]; intros S; cbn [dict_update].
      - constructor; [|constructor]. apply set_update_P; [exact S|constructor].
      - cbn [snd] in *. destruct (tile_eqb t' t); constructor; auto. cbn [snd]. now apply set_update_P. }
    assert (X : forall d, good d -> good (fold_left (fun d (r : hres) =>
             let hand_win := fold_left ts_add (snd (fst r)) [] in
             let can_drops := ts_sub hand hand_win in
             fold_left (fun d e => dict_update d (fst e) (map fst (snd r))) can_drops d) rs d)).
    { induction G as [|r rs A B IH]; intros d D; [exact D|]. cbn [fold_left]. apply IH. cbv zeta.
      generalize (ts_sub hand (fold_left ts_add (snd (fst r)) [])). intro l. revert d D. induction l as [|e l IHl]; intros d D; [exact D|]. cbn [fold_left]. apply IHl. now apply U. }
    apply X. constructor.
  Qed.
End Sure.

(** ** Through the rows of the report. *)
Section Rows.
  Variable P : tile -> Prop.
  Definition useful_are (x : item) : Prop := Forall P (ri_useful x).
  Lemma merge_are l unseen x : Forall useful_are l -> reasoning_merge l unseen = Ok x -> useful_are x.
  Proof.
    intros F E. unfold reasoning_merge in E. destruct l as [|y l]; [discriminate|]. destruct (min_list _) as [st|]; [|discriminate]. cbn [bindr] in E.
    destruct (useful_count unseen _) as [c|]; [|discriminate]. cbn [bindr] in E. apply Ok_inj in E. subst x. unfold useful_are. cbn [ri_useful].
    inversion F as [|? ? A B]; subst. clear F. revert y A. induction B as [|z l Bz B IH]; intros y A; [exact A|]. cbn [fold_left]. apply IH. unfold reduce_useful.
    destruct (ri_step z <? ri_step y); [exact Bz|]. destruct (ri_step y =? ri_step z); [|exact A]. unfold useful_are. cbn [ri_useful]. now apply set_update_P.
  Qed.
  Lemma zip_are (ll : list (list item)) : Forall (Forall useful_are) ll -> Forall (Forall useful_are) (zip_star ll).
  Proof.
    intro F. destruct ll as [|a ll]; [constructor|]. cbn [zip_star]. inversion F as [|? ? A B]; subst. clear F. revert ll B.
    induction A as [|x a Ax A IH]; intros ll B; cbn [zip_with_rest]; [constructor|]. destruct (forallb _ ll); [|constructor]. constructor.
    - constructor; [exact Ax|]. apply Forall_flat_map. eapply Forall_impl; [|exact B]. intros [|y l] C; [constructor|]. inversion C; subst. now constructor.
    - apply IH. apply Forall_map. eapply Forall_impl; [|exact B]. intros [|y l] C; [constructor|]. now inversion C.
  Qed.
  Lemma merged_are H unseen wins l : (forall w rows, one_win_reasoning H unseen w = Ok rows -> Forall useful_are rows) ->
    merged_rows H unseen wins = Ok l -> Forall useful_are l.
  Proof.
    intros W E. unfold merged_rows in E. destruct (mapM (one_win_reasoning H unseen) wins) as [rr|] eqn:E1; [|discriminate]. cbn [bindr] in E.
    destruct (mapM _ (zip_star rr)) as [m|] eqn:E2; [|discriminate]. cbn [bindr] in E. apply Ok_inj in E. subst l.
    eapply Permutation_Forall; [apply sort_items_perm|]. pose proof (mapM_Forall2 _ _ _ E1) as F1. pose proof (mapM_Forall2 _ _ _ E2) as F2.
    assert (G : Forall (Forall useful_are) rr) by (clear - F1 W; induction F1; constructor; eauto). apply zip_are in G. clear - F2 G.
    induction F2 as [|a b la lb A B IH]; [constructor|]. inversion G; subst. constructor; [eapply merge_are; eassumption|auto].
  Qed.
  Lemma choice_are H unseen t wins x : (forall w y, reasoning_discards H unseen t w = Ok y -> useful_are y) ->
    choice_row H unseen t wins = Ok x -> useful_are x.
  Proof.
    intros W E. unfold choice_row in E. destruct (mapM _ wins) as [l|] eqn:E1; [|discriminate]. cbn [bindr] in E. pose proof (mapM_Forall2 _ _ _ E1) as F1.
    eapply merge_are; [|exact E]. clear - F1 W. induction F1; constructor; eauto.
  Qed.
End Rows.

Lemma convert_useful unseen t u s x : convert_to_reasoning unseen t u s = Ok x -> ri_useful x = u.
Proof. unfold convert_to_reasoning. destruct (useful_count unseen u); [|discriminate]. cbn [bindr]. intro E. apply Ok_inj in E. now subst x. Qed.
Lemma keeps_self H : wf H -> keeps H H.
Proof. intro W. split; auto. Qed.
Lemma sure_sorted H t : sure (re_sort H) t <-> sure H t.
Proof.
  assert (E : forall x, In x (map fst (re_sort H)) <-> In x (map fst H)).
  { intro x. split; apply Permutation_in; apply Permutation_map; [|symmetry]; apply re_sort_perm. }
  unfold sure. split; intros S t' T; apply S; now apply E.
Qed.
Lemma one_win_sure H unseen w rows : wf H -> one_win_reasoning H unseen w = Ok rows -> Forall (useful_are (sure H)) rows.
Proof.
  intros W E. unfold one_win_reasoning in E. destruct (h_batch w (re_sort H) true) as [raw|] eqn:Er; [|discriminate]. cbn [bindr] in E.
  pose proof (h_batch_sure (re_sort H) w (re_sort H) raw (keeps_self _ (wf_re_sort _ W)) Er) as F. pose proof (mapM_Forall2 _ _ _ E) as F2. clear - F F2.
  induction F2 as [|r x raw rows A B IH]; [constructor|]. inversion F; subst. constructor; [|auto]. unfold useful_are. rewrite (convert_useful _ _ _ _ _ A).
  eapply Forall_impl; [|eassumption]. intros t S. now apply sure_sorted.
Qed.
Lemma discards_sure H unseen t w x : wf H -> reasoning_discards H unseen t w = Ok x -> useful_are (sure (ts_sub H (of_tiles [t]))) x.
Proof.
  intros W E. unfold reasoning_discards in E. set (H1 := ts_sub H (of_tiles [t])) in *. assert (W1 : wf H1) by (apply wf_filter; now apply wf_sub_into).
  destruct (h_both w (re_sort H1) true) as [r|] eqn:Er; [|discriminate]. cbn [bindr] in E. unfold useful_are. rewrite (convert_useful _ _ _ _ _ E).
  eapply Forall_impl; [|exact (h_both_sure (re_sort H1) w _ r (keeps_self _ (wf_re_sort _ W1)) Er)]. intros y S. now apply sure_sorted.
Qed.
(** A useful tile of the row about the choice is plain or a key of what is left. *)
Definition left_over (H : tset) (t : tile) : Prop := plain_tile t \/ In t (map fst H).
Lemma discards_left H unseen t w x : reasoning_discards H unseen t w = Ok x -> useful_are (left_over (ts_sub H (of_tiles [t]))) x.
Proof.
  intros E. unfold reasoning_discards in E. set (H1 := ts_sub H (of_tiles [t])) in *.
  destruct (h_both w (re_sort H1) true) as [r|] eqn:Er; [|discriminate]. cbn [bindr] in E. unfold useful_are. rewrite (convert_useful _ _ _ _ _ E).
  refine (h_both_keys (left_over H1) _ w (re_sort H1) r _ Er); [intros n c; left; eexists _, _; reflexivity|]. apply re_sort_keys.
  unfold keys_are. apply Forall_forall. intros e I0. right. now apply in_map.
Qed.

(** ** The keys of a hand made of tiles: the first of each face. *)
Definition first_of {A} (f : A -> kind) (l : list A) (x : A) : Prop :=
  exists a b, l = a ++ x :: b /\ Forall (fun y => f y <> f x) a.
Lemma put_new s t v x : In x (map fst (put s t v)) -> In x (map fst s) \/ (x = t /\ Forall (fun y => view y <> view t) (map fst s)).
Proof.
  induction s as [|[t' v'] s IH]; cbn [put map fst In]; [intros [<-|[]]; right; split; [reflexivity|constructor]|].
  destruct (tile_eqb t' t) eqn:E; cbn [map fst In]; [auto|]. intros [A|A]; [auto|]. destruct (IH A) as [B|[B C]]; [auto|]. right. split; [exact B|]. constructor; [|exact C].
  intro V. unfold tile_eqb in E. apply kind_eqb_eq in V. congruence.
Qed.
Lemma put_in s t v : exists x, In x (map fst (put s t v)) /\ view x = view t.
Proof.
  induction s as [|[t' v'] s IH]; cbn [put map fst In]; [exists t; auto|]. destruct (tile_eqb t' t) eqn:E; cbn [map fst In].
  - exists t'. split; [now left|]. unfold tile_eqb in E. now apply kind_eqb_eq in E.
  - destruct IH as (x & A & B). exists x. auto.
Qed.
Lemma of_tiles_first l x : In x (map fst (of_tiles l)) -> first_of view l x.
Proof.
  unfold of_tiles.
  assert (G : forall l s pre, (forall y, In y (map fst s) -> first_of view pre y) -> (forall y, In y pre -> In (view y) (map view (map fst s))) ->
    In x (map fst (fold_left (fun a t => put a t (get a t + 1)) l s)) -> first_of view (pre ++ l) x).
  { clear l. induction l as [|t l IH]; intros s pre A B E; [rewrite app_nil_r; auto|]. cbn [fold_left] in E.
    replace (pre ++ t :: l) with ((pre ++ [t]) ++ l) by (now rewrite <- app_assoc). refine (IH _ _ _ _ E).
    - intros y Y. apply put_new in Y. destruct Y as [Y|[-> Y]].
      + destruct (A y Y) as (a & b & -> & F). exists a, (b ++ [t]). split; [now rewrite <- app_assoc|exact F].
      + exists pre, []. split; [reflexivity|]. apply Forall_forall. intros z Z V. apply B in Z. rewrite V in Z. apply in_map_iff in Z. destruct Z as (w & V' & Z).
        rewrite Forall_forall in Y. apply (Y w Z V').
    - intros y Y. apply in_app_or in Y. destruct Y as [Y|[<-|[]]].
      + apply B in Y. apply in_map_iff in Y. destruct Y as (w & V & Y). apply in_map_iff. exists w. split; [exact V|]. now apply put_has.
      + destruct (put_in s t (get s t + 1)) as (w & Y & V). apply in_map_iff. now exists w. }
  apply (G l [] []); [intros y []|intros y []].
Qed.
Lemma of_tiles_has l t : In t l -> exists x, In x (map fst (of_tiles l)) /\ view x = view t.
Proof.
  unfold of_tiles. intro T.
  assert (G : forall l s, (exists x, In x (map fst s) /\ view x = view t) \/ In t l -> exists x, In x (map fst (fold_left (fun a t => put a t (get a t + 1)) l s)) /\ view x = view t).
  { clear. induction l as [|y l IH]; intros s [(x & A & B)|T]; [eauto|destruct T| |]; cbn [fold_left]; apply IH.
    - left. exists x. split; [now apply put_has|exact B].
    - destruct T as [->|T]; [left; apply put_in|now right]. }
  apply G. now right.
Qed.
Lemma first_unique {A} (f : A -> kind) l x y : first_of f l x -> first_of f l y -> f x = f y -> x = y.
Proof.
  intros (a & b & -> & F) (a' & b' & E & F') V. revert a' E F'. induction F as [|z a Z F IH]; intros [|z' a'] E F'; cbn [app] in E; injection E as E1 E2.
  - exact E1.
  - inversion F' as [|? ? C _]; subst. congruence.
  - subst. congruence.
  - inversion F'; subst. eapply IH; eassumption.
Qed.
Lemma of_tiles_keys_first l x : In x (map fst (of_tiles l)) <-> first_of view l x.
Proof.
  split; [apply of_tiles_first|]. intro F. assert (I0 : In x l) by (destruct F as (a & b & -> & _); apply in_or_app; right; now left).
  destruct (of_tiles_has l x I0) as (y & Y & V). rewrite <- (first_unique view l y x (of_tiles_first _ _ Y) F V). exact Y.
Qed.
