(** C46: which handler translates an event. *)
From Verif Require Import Base Category Parse Text Event Spec_Log StateProofs Value Universe Translator CommandProofs Spec_Dispatch.
From Coq Require Import String List ZArith Lia Bool.
Import ListNotations.
Open Scope list_scope.
Open Scope Z_scope.

(** The translator after the decorators have run in order. *)
Definition register (t : translator) (r : registration) : translator :=
  match r with
  | OnAny h => default_event h t
  | OnName n h => match_name n h t
  | OnAttr a h => match_attr a h t
  | OnBoth n a h => match_both n a h t
  end.
Definition registered (regs : list registration) : translator := fold_left register regs new_translator.

(** ** Tables *)
Definition listed (l : list handler) : option (list handler) := match l with [] => None | _ => Some l end.
Definition pile {K} (eqb : K -> K -> bool) (tbl : list (K * list handler)) (k : K) : list handler :=
  match tget eqb tbl k with Some hs => hs | None => [] end.
Lemma pile_append {K} (eqb : K -> K -> bool) (Eq : forall a b, eqb a b = true <-> a = b) tbl k h k' :
  pile eqb (tappend eqb tbl k h) k' = pile eqb tbl k' ++ (if eqb k k' then [h] else []).
Proof.
  unfold pile. induction tbl as [|[j hs] tbl IH]; cbn [tappend tget].
  - destruct (eqb k k'); reflexivity.
  - destruct (eqb j k) eqn:E1; cbn [tget]; destruct (eqb j k') eqn:E2.
    + apply Eq in E1, E2. subst. replace (eqb k' k') with true by (symmetry; now apply Eq). reflexivity.
    + apply Eq in E1. subst j. rewrite E2, app_nil_r. reflexivity.
    + apply Eq in E2. subst j. replace (eqb k k') with false; [now rewrite app_nil_r|]. symmetry. apply not_true_iff_false. rewrite Eq. intros ->.
      apply not_true_iff_false in E1. apply E1. now apply Eq.
    + exact IH.
Qed.
Lemma pair_eqb_iff a b : pair_eqb a b = true <-> a = b.
Proof.
  unfold pair_eqb. rewrite andb_true_iff, !text_eqb_iff. destruct a, b. cbn. split; [intros [-> ->]; reflexivity|intro H; injection H as -> ->; auto].
Qed.
Lemma flat_map_snoc {A B} (f : A -> list B) l a : flat_map f (l ++ [a]) = flat_map f l ++ f a.
Proof. rewrite flat_map_app. cbn. now rewrite app_nil_r. Qed.
(** [match_both] files the handler under (attribute, name). *)
Definition filed_both (regs : list registration) (key : text * text) : list handler := for_both regs (snd key) (fst key).
Lemma tables regs : tr_defaults (registered regs) = for_any regs /\ (forall n, pile text_eqb (tr_name (registered regs)) n = for_name regs n) /\
  (forall a, pile text_eqb (tr_attr (registered regs)) a = for_attr regs a) /\ (forall k, pile pair_eqb (tr_both (registered regs)) k = filed_both regs k).
Proof.
  induction regs as [|r regs [IH1 [IH2 [IH3 IH4]]]] using rev_ind; [repeat split; reflexivity|].
  unfold registered, for_any, for_name, for_attr, filed_both, for_both in *. rewrite fold_left_app. cbn [fold_left].
  setoid_rewrite flat_map_snoc.
  destruct r as [h|n h|a h|n a h]; cbn [register default_event match_name match_attr match_both tr_defaults tr_name tr_attr tr_both].
  - rewrite IH1. repeat split; intros; rewrite ?app_nil_r; auto.
  - rewrite IH1, app_nil_r. repeat split; intros; rewrite ?app_nil_r; auto. rewrite (pile_append _ text_eqb_iff), IH2. reflexivity.
  - rewrite IH1, app_nil_r. repeat split; intros; rewrite ?app_nil_r; auto. rewrite (pile_append _ text_eqb_iff), IH3. reflexivity.
  - rewrite IH1, app_nil_r. repeat split; intros; rewrite ?app_nil_r; auto. rewrite (pile_append _ pair_eqb_iff), IH4. f_equal.
    unfold pair_eqb. cbn [fst snd]. rewrite andb_comm. reflexivity.
Qed.

(** ** One list of handlers *)
Lemma fallback_app e a : forall b x, fallback_call e (a ++ b) x =
  do v <- fallback_call e a x; match fst v with Some _ => Ok v | None => fallback_call e b (snd v) end.
Proof.
  induction a as [|h a IH]; intros b x; cbn [app fallback_call bindr fst snd]; [reflexivity|].
  destruct (h e x) as [[[|c cs] x']|err]; cbn [bindr fst snd]; [apply IH|reflexivity|reflexivity].
Qed.
Lemma try_attrs_list {K} (eqb : K -> K -> bool) tbl e : forall keys x, try_attrs eqb tbl e keys x = fallback_call e (flat_map (pile eqb tbl) keys) x.
Proof.
  induction keys as [|k keys IH]; intro x; [reflexivity|]. cbn [try_attrs flat_map]. rewrite fallback_app. unfold pile at 1. destruct (tget eqb tbl k) as [hs|].
  - destruct (fallback_call e hs x) as [[[cs|] x']|err]; cbn [bindr fst snd]; [reflexivity|apply IH|reflexivity].
  - cbn [fallback_call bindr fst snd]. apply IH.
Qed.
Definition tried (regs : list registration) (e : event) : list handler :=
  flat_map (fun a => for_both regs (fst a) (tag e)) (attrib e) ++ for_name regs (tag e) ++
  flat_map (fun a => for_attr regs (fst a)) (attrib e) ++ for_any regs.
Lemma flat_map_map' {A B C} (f : A -> B) (g : B -> list C) l : flat_map g (map f l) = flat_map (fun a => g (f a)) l.
Proof. induction l as [|a l IH]; cbn; [reflexivity|now rewrite IH]. Qed.
Lemma flat_map_ext' {A B} (f g : A -> list B) l : (forall a, f a = g a) -> flat_map f l = flat_map g l.
Proof. intro H. induction l as [|a l IH]; cbn; [reflexivity|]. now rewrite H, IH. Qed.
Lemma call_tried regs strict e i x : call (registered regs) strict e i x =
  do v <- fallback_call e (tried regs e) x;
  match fst v with Some cmds => postprocess i cmds (snd v) | None => if strict then Err ValueError else Ok ([], snd v) end.
Proof.
  destruct (tables regs) as [T1 [T2 [T3 T4]]]. unfold call, translate, tried. rewrite T1, !try_attrs_list, !flat_map_map'.
  rewrite (flat_map_ext' _ (fun a : text * text => for_both regs (fst a) (tag e))) by (intro a; apply T4).
  set (A := flat_map _ (attrib e)). rewrite !fallback_app.
  destruct (fallback_call e A x) as [[[cs|] x1]|err]; cbn [bindr fst snd]; [reflexivity| |reflexivity].
  rewrite <- T2. unfold pile. rewrite fallback_app.
  assert (Q : (match tget text_eqb (tr_name (registered regs)) (tag e) with Some hs => fallback_call e hs x1 | None => Ok (None, x1) end) =
    fallback_call e (match tget text_eqb (tr_name (registered regs)) (tag e) with Some hs => hs | None => [] end) x1) by (destruct (tget _ _ _); reflexivity).
  rewrite Q. clear Q. destruct (fallback_call e _ x1) as [[[cs|] x2]|err]; cbn [bindr fst snd]; [reflexivity| |reflexivity].
  rewrite try_attrs_list, flat_map_map'.
  rewrite (flat_map_ext' _ (fun a : text * text => for_attr regs (fst a))) by (intro a; apply T3). rewrite fallback_app.
  destruct (fallback_call e (flat_map _ (attrib e)) x2) as [[[cs|] x3]|err]; cbn [bindr fst snd]; reflexivity.
Qed.
Lemma answer_fallback e hs : forall x o x', first_answer e hs x o x' <-> fallback_call e hs x = Ok (o, x').
Proof.
  induction hs as [|h hs IH]; intros x o x'; cbn [fallback_call].
  - split; [intro H; inversion H; subst; reflexivity|intro H; injection H as <- <-; constructor].
  - split.
    + intro H. inversion H as [|? ? ? x1 ? ? E F|? ? ? c cs ? E]; subst; rewrite E; cbn [bindr fst snd]; [now apply IH|reflexivity].
    + intro H. destruct (h e x) as [[[|c cs] x1]|err] eqn:E; cbn [bindr fst snd] in H; [|injection H as <- <-; now apply fa_answer|discriminate].
      eapply fa_silent; [exact E|]. now apply IH.
Qed.
Lemma raises_fallback e hs : forall x err, first_raises e hs x err <-> fallback_call e hs x = Err err.
Proof.
  induction hs as [|h hs IH]; intros x err; cbn [fallback_call].
  - split; [intro H; inversion H|discriminate].
  - split.
    + intro H. inversion H as [? ? ? ? E|? ? ? x1 ? E F]; subst; rewrite E; cbn [bindr fst snd]; [reflexivity|now apply IH].
    + intro H. destruct (h e x) as [[[|c cs] x1]|err'] eqn:E; cbn [bindr fst snd] in H; [|discriminate|injection H as <-; now apply fr_here].
      eapply fr_later; [exact E|]. now apply IH.
Qed.

(** ** The theorems *)
(** For every table of registrations that does not use match_both. *)
Definition no_both (regs : list registration) : Prop := forall n a h, ~ In (OnBoth n a h) regs.
Lemma no_both_tried regs e : no_both regs -> tried regs e = candidates regs e.
Proof.
  intro N. assert (G : forall n a, for_both regs n a = []).
  { intros n a. unfold for_both. induction regs as [|r regs IH]; [reflexivity|]. cbn [flat_map]. rewrite IH by (intros n' a' h I0; apply (N n' a' h); now right).
    destruct r as [h|n' h|a' h|n' a' h]; try reflexivity. exfalso. apply (N n' a' h). now left. }
  unfold tried, candidates. rewrite (flat_map_ext' _ (fun _ => [])) by (intro; apply G). rewrite (flat_map_ext' (fun a => for_both regs (tag e) (fst a)) (fun _ => [])) by (intro; apply G). reflexivity.
Qed.
Theorem C46_dispatch_partial : forall regs strict e i x, no_both regs ->
  (forall cmds x1, first_answer e (candidates regs e) x (Some cmds) x1 -> call (registered regs) strict e i x = postprocess i cmds x1) /\
  (forall x1, first_answer e (candidates regs e) x None x1 -> call (registered regs) strict e i x = if strict then Err ValueError else Ok ([], x1)) /\
  (forall err, first_raises e (candidates regs e) x err -> call (registered regs) strict e i x = Err err) /\
  ((exists o x1, first_answer e (candidates regs e) x o x1) \/ (exists err, first_raises e (candidates regs e) x err)).
Proof.
  intros regs strict e i x N. rewrite call_tried, (no_both_tried _ _ N). split; [|split; [|split]].
  - intros cmds x1 H. apply answer_fallback in H. rewrite H. reflexivity.
  - intros x1 H. apply answer_fallback in H. rewrite H. reflexivity.
  - intros err H. apply raises_fallback in H. rewrite H. reflexivity.
  - destruct (fallback_call e (candidates regs e) x) as [[o x1]|err] eqn:E; [left; exists o, x1; now apply answer_fallback|right; exists err; now apply raises_fallback].
Qed.
(** What match_both(name=n, attr=a) really registers: a handler for events with name [a] that
    have an attribute [n]. *)
Theorem C46_swapped_partial : forall regs strict e i x,
  let swapped := map (fun r => match r with OnBoth n a h => OnBoth a n h | r => r end) regs in
  (forall cmds x1, first_answer e (candidates swapped e) x (Some cmds) x1 -> call (registered regs) strict e i x = postprocess i cmds x1) /\
  (forall x1, first_answer e (candidates swapped e) x None x1 -> call (registered regs) strict e i x = if strict then Err ValueError else Ok ([], x1)) /\
  (forall err, first_raises e (candidates swapped e) x err -> call (registered regs) strict e i x = Err err).
Proof.
  intros regs strict e i x swapped. rewrite call_tried. assert (Q : tried regs e = candidates swapped e).
  { unfold tried, candidates, swapped, for_both, for_name, for_attr, for_any. rewrite !flat_map_map'. f_equal; [|f_equal; [|f_equal]].
    - apply flat_map_ext'. intro a. rewrite flat_map_map'. apply flat_map_ext'. intros [h|n h|b h|n b h]; try reflexivity. now rewrite andb_comm.
    - apply flat_map_ext'. intros [h|n h|b h|n b h]; reflexivity.
    - apply flat_map_ext'. intro a. rewrite flat_map_map'. apply flat_map_ext'. intros [h|n h|b h|n b h]; reflexivity.
    - apply flat_map_ext'. intros [h|n h|b h|n b h]; reflexivity. }
  rewrite Q. split; [|split]; intros.
  - match goal with H : first_answer _ _ _ _ _ |- _ => apply answer_fallback in H; rewrite H; reflexivity end.
  - match goal with H : first_answer _ _ _ _ _ |- _ => apply answer_fallback in H; rewrite H; reflexivity end.
  - match goal with H : first_raises _ _ _ _ |- _ => apply raises_fallback in H; rewrite H; reflexivity end.
Qed.
(** A handler registered for a name and an attribute is not used for such events. *)
Definition one_command : handler := fun e x => Ok ([mkCmd RV_seed U_REPLACE sub_all VNone None VNone None], x).
Theorem C46_both_refuted : exists regs e x cmds x1, first_answer e (candidates regs e) x (Some cmds) x1 /\ cmds <> [] /\
  call (registered regs) true e 0 x = Err ValueError.
Proof.
  exists [OnBoth (t_ "N") (t_ "m") one_command], (mkEvent (t_ "N") [(t_ "m", [])]), empty_ctx.
  do 2 eexists. split; [|split; [|vm_compute; reflexivity]].
  - apply fa_answer. reflexivity.
  - discriminate.
Qed.
(** Two handlers for a name, one of them silent, and a default. *)
Example C46_example :
  let silent : handler := fun e x => Ok ([], x) in
  let regs := [OnAny silent; OnName (t_ "N") silent; OnAttr (t_ "m") one_command; OnAny one_command] in
  let e := mkEvent (t_ "N") [(t_ "who", t_ "1"); (t_ "m", [])] in
  no_both regs /\ (exists cmds, first_answer e (candidates regs e) empty_ctx (Some cmds) empty_ctx) /\
  exists r, call (registered regs) true e 7 empty_ctx = Ok r /\ length (fst r) = 1%nat /\ map c_time (fst r) = [Some 7].
Proof.
  split; [|split].
  - intros n a h I0. cbn in I0. repeat (destruct I0 as [I0|I0]; [discriminate|]). destruct I0.
  - eexists. eapply fa_silent; [reflexivity|]. apply fa_answer. reflexivity.
  - eexists. split; [vm_compute; reflexivity|]. split; reflexivity.
Qed.
Print Assumptions C46_dispatch_partial.
Print Assumptions C46_swapped_partial.
