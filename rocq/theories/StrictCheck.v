(** A computed check that a log meets the conditions of C111 (Spec_Strict.v), with the proof that the check can be relied on. *)
From Verif Require Import Base Category Tile Parse Text Tenhou Event Const Reader StateProofs Spec_Meld Spec_Log Value TenhouCommands CommandProofs Spec_Play Spec_Score Prop_Score Spec_Header Prop_Header Prop_Play Spec_Convert
  TenhouProofs LogCheck Spec_Strict.
From Coq Require Import String List ZArith Lia Bool.
Import ListNotations.
Open Scope list_scope.
Open Scope Z_scope.

Definition ends_b (e : event) : bool := Event.has_tag e "AGARI" || Event.has_tag e "RYUUKYOKU".
Lemma ends_is e : ends_b e = true <-> ends_deal e.
Proof. unfold ends_b, ends_deal. now rewrite orb_true_iff, !has_tag_is. Qed.
Definition whole_b (n : Z) (e : event) : bool :=
  (if Event.has_tag e "INIT" then opt_b (ints_attr e (t_ "ten")) (fun l => n <=? Z.of_nat (length l)) else true) &&
  (if ends_b e then if_says e (t_ "sc") (fun s => opt_b (ints s) (fun l => 2 * n <=? Z.of_nat (length l))) else true).
Lemma whole_is n e : whole_b n e = true -> whole_scores n e.
Proof.
  unfold whole_b. rewrite andb_true_iff. intros [A B]. split.
  - intro T. apply has_tag_is in T. rewrite T in A. apply opt_b_true in A. destruct A as (l & L & K). apply ints_attr_is in L. exists l. split; [lia|exact L].
  - intro T. apply ends_is in T. rewrite T in B. intros s Hs. unfold if_says in B. unfold holds in Hs. rewrite Hs in B. apply opt_b_true in B. destruct B as (l & L & K). exists l. split; [lia|now apply ints_is].
Qed.
Definition players_b (n : Z) (e : event) : bool :=
  if one_of [t_ "N"; t_ "REACH"; t_ "AGARI"; t_ "BYE"] (tag e) then opt_b (int_attr e (t_ "who")) (LogCheck.between 0 n) else true.
Lemma players_is n e : players_b n e = true -> by_players n e.
Proof.
  unfold players_b. intros H T. apply one_of_in in T. rewrite T in H. apply opt_b_true in H. destruct H as (p & A & B). exists p. split; [now apply between_is|now apply int_attr_is].
Qed.

(** ** Scores *)
Lemma all_canon_str l : all_canon (map str_int l) = Some l.
Proof. induction l as [|z l IH]; [reflexivity|]. cbn [map all_canon]. unfold canon. rewrite py_int_str, text_eqb_refl, IH. reflexivity. Qed.
Lemma ints_comma l : l <> [] -> ints (comma_list l) = Some l.
Proof.
  intro N. assert (Q : split_on 44 (comma_list l) = map str_int l).
  { unfold comma_list. change (t_ ",") with [44]. rewrite split_join; [reflexivity|destruct l; [congruence|discriminate]|].
    apply Forall_forall. intros s I0. apply in_map_iff in I0. destruct I0 as (z & <- & _). apply str_int_no_comma. }
  unfold ints. destruct (comma_list l) as [|c s] eqn:E.
  - exfalso. destruct l as [|z l]; [congruence|]. assert (K : map str_int (z :: l) = [[]]) by (rewrite <- Q; reflexivity). destruct l; [|discriminate K]. injection K as K.
    assert (K2 : py_int (str_int z) = Ok z) by apply py_int_str. rewrite K in K2. discriminate K2.
  - rewrite Q, all_canon_str, E, text_eqb_refl. reflexivity.
Qed.
Lemma ints_attr_comma e name l : l <> [] -> holds e name (comma_list l) -> ints_attr e name = Some l.
Proof. intros N H. unfold ints_attr. unfold holds in H. rewrite H. now apply ints_comma. Qed.
Definition list_at (o : option (list Z)) (k : nat) : option Z := match o with Some l => nth_error l k | None => None end.
Definition score_step (p : Z) (o : option Z) (e : event) : option Z :=
  if Event.has_tag e "INIT" then option_map (Z.mul 100) (list_at (ints_attr e (t_ "ten")) (Z.to_nat p))
  else if ends_b e then
    match lookup (t_ "sc") (attrib e) with
    | None => o
    | Some s => match list_at (ints s) (2 * Z.to_nat p), list_at (ints s) (2 * Z.to_nat p + 1) with Some a, Some b => Some (100 * (a + b)) | _, _ => None end
    end
  else if Event.has_tag e "REACH" then
    if holds_b e (t_ "who") (str_int p) && holds_b e (t_ "step") (t_ "2") then option_map (fun z => z - 1000) o else o
  else o.
Definition score_of (p : Z) (es : list event) : option Z := fold_left (score_step p) es None.
Lemma not_nil {A} (l : list A) k a : nth_error l k = Some a -> l <> [].
Proof. intros H ->. destruct k; discriminate. Qed.
Lemma score_snoc p es e : score_of p (es ++ [e]) = score_step p (score_of p es) e.
Proof. unfold score_of. rewrite fold_left_app. reflexivity. Qed.
Lemma score_computed p : forall es z, score_after p es z -> score_of p es = Some z.
Proof.
  intros es z H. induction H as [es e l s T Hl Hn|es e l s d T Hl Hs Hd|es e z SA IH [T [Hw Hs]]|es e z SA IH [K1 [K2 K3]]]; rewrite score_snoc; unfold score_step.
  - pose proof T as T'. apply has_tag_is in T'. rewrite T'. rewrite (ints_attr_comma _ _ _ (not_nil _ _ _ Hn) Hl). cbn [list_at]. rewrite Hn. reflexivity.
  - replace (Event.has_tag e "INIT") with false by (symmetry; apply has_tag_isnt; destruct T as [T|T]; rewrite T; discriminate).
    pose proof T as T'. apply ends_is in T'. rewrite T'. unfold holds in Hl. rewrite Hl, (ints_comma _ (not_nil _ _ _ Hs)). cbn [list_at]. rewrite Hs, Hd. reflexivity.
  - replace (Event.has_tag e "INIT") with false by (symmetry; apply has_tag_isnt; rewrite T; discriminate).
    replace (ends_b e) with false by (symmetry; apply not_true_iff_false; rewrite ends_is; intros [K|K]; rewrite T in K; discriminate K).
    replace (Event.has_tag e "REACH") with true by (symmetry; apply has_tag_is; exact T). unfold holds_b, opt_b. unfold holds in Hw, Hs. rewrite Hw, Hs, !text_eqb_refl, IH. reflexivity.
  - replace (Event.has_tag e "INIT") with false by (symmetry; apply has_tag_isnt; exact K1). destruct (ends_b e) eqn:Eb.
    + apply ends_is in Eb. specialize (K2 Eb). unfold holds in K2. destruct (lookup (t_ "sc") (attrib e)) as [s|]; [exfalso; exact (K2 s eq_refl)|exact IH].
    + destruct (Event.has_tag e "REACH") eqn:Er; [|exact IH]. apply has_tag_is in Er. destruct (holds_b e (t_ "who") (str_int p) && holds_b e (t_ "step") (t_ "2")) eqn:B; [|exact IH].
      apply andb_true_iff in B. destruct B as [B1 B2]. apply holds_is in B1, B2. unfold holds in *. exfalso. destruct (K3 Er) as [(q & Hq & N)|(s & Hs & N)].
      * apply N. assert (Q : str_int q = str_int p) by congruence. assert (Q2 : py_int (str_int q) = py_int (str_int p)) by now rewrite Q. rewrite !py_int_str in Q2. congruence.
      * apply N. congruence.
Qed.

(** ** Names *)
Definition named (unquote : text -> text) (p : Z) (e : event) : option text :=
  if Event.has_tag e "UN" then match lookup (t_ "n" ++ str_int p) (attrib e) with Some s => if not_blank s then Some (unquote s) else None | None => None end else None.
Lemma named_is unquote p s e : announces p s e -> named unquote p e = Some (unquote s).
Proof. intros (T & L & B). unfold named. apply has_tag_is in T. apply not_blank_iff in B. unfold holds in L. rewrite T, L, B. reflexivity. Qed.
Definition says_again (unquote : text -> text) (p : Z) (name : text) (e : event) : bool := match named unquote p e with Some s => text_eqb name s | None => true end.

(** ** The check *)
Definition agree_b (o : option Z) (z : option Z) : bool := match o, z with Some s, Some z => z =? 100 * s | _, _ => true end.
Definition repeats_b (unquote : text -> text) (n : Z) (before : list event) (e : event) : bool :=
  (if Event.has_tag e "INIT" then forallb (fun p => agree_b (list_at (ints_attr e (t_ "ten")) (Z.to_nat p)) (score_of p before)) (zrange 0 n) else true) &&
  (if ends_b e then forallb (fun p => agree_b (list_at (ints_attr e (t_ "sc")) (2 * Z.to_nat p)) (score_of p before)) (zrange 0 n) else true) &&
  forallb (fun p => match named unquote p e with Some s => forallb (says_again unquote p s) before | None => true end) four.
Lemma repeats_is unquote n before e : repeats_b unquote n before e = true -> repeats unquote n before e.
Proof.
  unfold repeats_b. rewrite !andb_true_iff. intros [[A B] C]. split; [|split].
  - intros p l s z P T Hl Hs S0. apply has_tag_is in T. rewrite T in A. rewrite forallb_forall in A. specialize (A p (proj2 (in_zrange 0 n p) P)). cbv beta in A.
    rewrite (ints_attr_comma _ _ _ (not_nil _ _ _ Hs) Hl), (score_computed _ _ _ S0) in A. cbn [list_at] in A. rewrite Hs in A. cbn [agree_b] in A. lia.
  - intros p l s z P T Hl Hs S0. apply ends_is in T. rewrite T in B. rewrite forallb_forall in B. specialize (B p (proj2 (in_zrange 0 n p) P)). cbv beta in B.
    rewrite (ints_attr_comma _ _ _ (not_nil _ _ _ Hs) Hl), (score_computed _ _ _ S0) in B. cbn [list_at] in B. rewrite Hs in B. cbn [agree_b] in B. lia.
  - intros p name e' name' P An I0 An'. rewrite forallb_forall in C. assert (Ip : In p four) by (unfold seat in P; assert (p = 0 \/ p = 1 \/ p = 2 \/ p = 3) as [-> | [-> | [-> | ->]]] by lia; cbn; tauto).
    specialize (C p Ip). cbv beta in C. rewrite (named_is unquote _ _ _ An) in C. rewrite forallb_forall in C. specialize (C e' I0). unfold says_again in C. rewrite (named_is unquote _ _ _ An') in C.
    now apply text_eqb_iff in C.
Qed.
Fixpoint consistent_b (unquote : text -> text) (n : Z) (before rest : list event) : bool :=
  match rest with
  | [] => true
  | e :: r => repeats_b unquote n before e && consistent_b unquote n (before ++ [e]) r
  end.
Theorem consistent_is unquote n es : consistent_b unquote n [] es = true -> consistent unquote n es.
Proof.
  assert (G : forall rest pre, consistent_b unquote n pre rest = true -> forall before e after, rest = before ++ e :: after -> repeats unquote n (pre ++ before) e).
  { induction rest as [|f r IH]; intros pre H before e after Q; [destruct before; discriminate Q|]. cbn [consistent_b] in H. apply andb_true_iff in H. destruct H as [H1 H2].
    destruct before as [|b before]; cbn [app] in Q; injection Q as -> Q; [subst; rewrite app_nil_r; now apply repeats_is|].
    specialize (IH _ H2 before e after Q). rewrite <- app_assoc in IH. exact IH. }
  intros H before e after Q. exact (G es [] H before e after Q).
Qed.
