(** C124: the searches do not depend on how suits, ranks and honours are called. *)
From Verif Require Import Base Tile TileSet Spec_Tile TileSetFacts Win Spec_Win WinFacts WinProofs Waiting Spec_Waiting WaitingFacts WaitingPM WaitingBrute WaitingHeur WaitingHeurTop WaitingSize Spec_Hand WaitingTop Parse Text Prop_Waiting Spec_Rename.
From Coq Require Import List ZArith Lia Bool Permutation.
From Coq Require String.
Import String.StringSyntax ListNotations.
Open Scope string_scope.
Open Scope list_scope.
Open Scope Z_scope.

(** ** Counting under new names. *)
Lemma count_perm k a b : Permutation a b -> count_kind k a = count_kind k b.
Proof. unfold count_kind. induction 1; cbn [sumZ]; lia. Qed.
Lemma renames_sym f g : renames f g -> renames g f.
Proof. intros (A & B & C & D). repeat split; try apply A; try apply B; auto. Qed.
Lemma count_map f g k l : renames f g -> legal_kind k -> Forall legal_kind l -> count_kind (f k) (map f l) = count_kind k l.
Proof.
  intros (A & _) K. unfold count_kind. induction 1 as [|x l X L IH]; [reflexivity|]. cbn [map sumZ]. rewrite IH. f_equal. rewrite !same_kind_eqb.
  destruct (kind_eqb x k) eqn:E.
  - apply kind_eqb_eq in E. subst x. now rewrite kind_eqb_refl.
  - destruct (kind_eqb (f x) (f k)) eqn:E2; [|reflexivity]. apply kind_eqb_eq in E2. exfalso.
    assert (x = k) by (rewrite <- (proj2 (A x X)), <- (proj2 (A k K)); congruence). subst x. now rewrite kind_eqb_refl in E.
Qed.
Lemma unit_legal u : legal_unit u -> Forall legal_kind (unit_kinds u).
Proof.
  destruct u as [k|c n|k]; cbn [legal_unit unit_kinds]; intros H; repeat constructor; auto; destruct H as [H1 H2]; unfold legal_kind; cbn [fst snd]; destruct c; try congruence; lia.
Qed.
Lemma units_legal us : Forall legal_unit us -> Forall legal_kind (flat_map unit_kinds us).
Proof. induction 1 as [|u us U _ IH]; [constructor|]. cbn [flat_map]. apply Forall_app. split; [now apply unit_legal|exact IH]. Qed.

(** ** Units under new names. *)
Definition unit_as (f : kind -> kind) (u u' : munit) : Prop :=
  legal_unit u' /\ Permutation (map f (unit_kinds u)) (unit_kinds u') /\ is_pair u' = is_pair u /\ (is_pair u = true -> pair_face u' = f (pair_face u)).
Lemma unit_image f g u : renames f g -> legal_unit u -> exists u', unit_as f u u'.
Proof.
  intros (A & _ & C & _) L. destruct u as [k|c n|k].
  - exists (UPair (f k)). split; [apply A; exact L|]. split; [reflexivity|]. split; reflexivity.
  - destruct (C c n L) as (c' & n' & L' & P). exists (URun c' n'). split; [exact L'|]. split; [exact P|]. split; [reflexivity|discriminate].
  - exists (UTrip (f k)). split; [apply A; exact L|]. split; [reflexivity|]. split; [reflexivity|discriminate].
Qed.
Lemma units_image f g us : renames f g -> Forall legal_unit us -> exists us', Forall2 (unit_as f) us us'.
Proof.
  intros R. induction 1 as [|u us U _ [us' IH]]; [now exists []|]. destruct (unit_image f g u R U) as [u' U']. exists (u' :: us'). now constructor.
Qed.
Lemma image_kinds f us us' : Forall2 (unit_as f) us us' -> Permutation (map f (flat_map unit_kinds us)) (flat_map unit_kinds us').
Proof. induction 1 as [|u u' us us' (_ & P & _) _ IH]; [constructor|]. cbn [flat_map]. rewrite map_app. now apply Permutation_app. Qed.
Lemma image_pairs f us us' (c : bool -> bool) : Forall2 (unit_as f) us us' ->
  length (filter (fun u => c (is_pair u)) us') = length (filter (fun u => c (is_pair u)) us).
Proof. induction 1 as [|u u' us us' (_ & _ & E & _) _ IH]; [reflexivity|]. cbn [filter]. rewrite E. destruct (c (is_pair u)); cbn [length]; lia. Qed.
Lemma image_faces f us us' : Forall2 (unit_as f) us us' -> Forall (fun u => is_pair u = true) us ->
  Forall (fun u => is_pair u = true) us' /\ map pair_face us' = map f (map pair_face us).
Proof.
  induction 1 as [|u u' us us' (_ & _ & E & F) _ IH]; intros P; [now split|]. inversion P as [|? ? P1 P2]; subst. destruct (IH P2) as [I1 I2].
  split; [constructor; [congruence|exact I1]|]. cbn [map]. rewrite F, I2 by exact P1. reflexivity.
Qed.
Lemma forms_image f g s us : renames f g -> forms s us -> exists us', Forall2 (unit_as f) us us' /\ forms s us'.
Proof.
  intros R [L F]. destruct (units_image f g us R L) as [us' I]. exists us'. split; [exact I|]. split.
  - clear F. induction I as [|u u' us us' (U & _) _ IH]; constructor; auto. apply IH. now inversion L.
  - destruct s as [p m|n].
    + pose proof (image_pairs f us us' (fun b => b) I) as E1. pose proof (image_pairs f us us' negb I) as E2. cbv beta in E1.
      change (filter (fun u => is_pair u) us') with (filter is_pair us') in E1. change (filter (fun u => is_pair u) us) with (filter is_pair us) in E1. rewrite E1, E2. exact F.
    + destruct F as (F1 & F2 & F3). destruct (image_faces f us us' I F1) as [G1 G2]. split; [exact G1|]. split.
      * rewrite G2. assert (LF : Forall legal_kind (map pair_face us)).
        { clear - L F1. induction us as [|u us IH]; [constructor|]. inversion L; inversion F1; subst. constructor; [|auto]. destruct u; cbn in *; auto; discriminate. }
        destruct R as (A & _). clear - A LF F2. induction F2 as [|x l N D IH]; [constructor|]. inversion LF as [|? ? X LL]; subst. cbn [map]. constructor; [|auto].
        intros J. apply in_map_iff in J. destruct J as (y & E & J). apply N. replace x with y; [exact J|].
        rewrite <- (proj2 (A x X)), <- E. symmetry. apply A. rewrite Forall_forall in LL. auto.
      * rewrite <- F3. f_equal. clear - I. induction I; cbn [length]; congruence.
Qed.

(** ** Hands under new names. *)
Definition plain_counts (h : counts) : Prop := forall k, 0 <= h k /\ (~ legal_kind k -> h k = 0).
Lemma hand_plain hand : hand_ok hand -> plain_counts (face_count hand).
Proof.
  intros [_ H] k. unfold face_count. induction H as [|e l [E1 E2] _ IH]; cbn [sumZ]; [lia|]. rewrite same_kind_eqb.
  destruct (kind_eqb (view (fst e)) k) eqn:E; [apply kind_eqb_eq in E; subst k; split; [lia|tauto]|]. destruct IH as [I1 I2]. split; [lia|]. intros N. specialize (I2 N). lia.
Qed.
Lemma legal_dec k : legal_kind k \/ ~ legal_kind k.
Proof. destruct k as [c n]. unfold legal_kind; cbn [fst snd]. destruct c; lia. Qed.
Lemma count_illegal k l : ~ legal_kind k -> Forall legal_kind l -> count_kind k l = 0.
Proof.
  intros N. unfold count_kind. induction 1 as [|x l X _ IH]; [reflexivity|]. cbn [sumZ]. rewrite same_kind_eqb, IH.
  destruct (kind_eqb x k) eqn:E; [apply kind_eqb_eq in E; subst x; tauto|reflexivity].
Qed.
Lemma renamed_plus f g a b add : renames f g -> renamed f a b -> Forall legal_kind add -> renamed f (plus a add) (plus b (map f add)).
Proof. intros R E L k K. unfold plus. now rewrite E, (count_map f g) by auto. Qed.
Lemma plain_plus h add : plain_counts h -> Forall legal_kind add -> plain_counts (plus h add).
Proof.
  intros P L k. unfold plus. destruct (P k) as [P1 P2]. pose proof (count_kind_nonneg k add). split; [lia|]. intros N. rewrite (P2 N), count_illegal; auto.
Qed.
Lemma map_legal f g l : renames f g -> Forall legal_kind l -> Forall legal_kind (map f l).
Proof. intros (A & _). induction 1; cbn [map]; constructor; auto. now apply A. Qed.
Lemma renamed_wins f g s a b : renames f g -> renamed f a b -> plain_counts b -> wins s a -> wins s b.
Proof.
  intros R E B (us & F & T). destruct (forms_image f g s us R F) as (us' & I & F'). exists us'. split; [exact F'|]. intros k.
  assert (LU : Forall legal_kind (flat_map unit_kinds us)) by (apply units_legal; apply F).
  unfold uses. rewrite <- (count_perm k _ _ (image_kinds f us us' I)). destruct (legal_dec k) as [K|K].
  - destruct (proj1 (proj2 R) k K) as [K' G]. rewrite <- G. rewrite (count_map f g) by auto. rewrite E by auto. apply T.
  - rewrite count_illegal; [apply B|exact K|]. now apply (map_legal f g).
Qed.
Lemma renamed_reach f g lim s a b n : renames f g -> renamed f a b -> plain_counts b -> reach lim s a n -> reach lim s b n.
Proof.
  intros R E B (add & N & L & M & W). exists (map f add). split; [now rewrite map_length|]. split; [now apply (map_legal f g)|]. split.
  - intros HL k. destruct (legal_dec k) as [K|K].
    + destruct (proj1 (proj2 R) k K) as [K' G]. rewrite <- G, (renamed_plus f g a b add R E L) by auto. now apply M.
    + rewrite (proj2 (plain_plus b (map f add) B (map_legal f g add R L) k) K). lia.
  - apply (renamed_wins f g s (plus a add)); [exact R|now apply (renamed_plus f g)| |exact W]. apply plain_plus; [exact B|now apply (map_legal f g)].
Qed.
Lemma renamed_back f g a b : renames f g -> renamed f a b -> renamed g b a.
Proof. intros (A & B & _) E k K. destruct (B k K) as [K' G]. rewrite <- (E (g k) K'), G. reflexivity. Qed.
Lemma renamed_distance f g lim s a b n : renames f g -> renamed f a b -> plain_counts a -> plain_counts b -> distance lim s a n -> distance lim s b n.
Proof.
  intros R E A B [D1 D2]. split; [now apply (renamed_reach f g lim s a b)|]. intros m M. apply D2.
  apply (renamed_reach g f lim s b a); auto; [now apply renames_sym|now apply (renamed_back f g)].
Qed.
Lemma renamed_advances f g lim s a b k : renames f g -> renamed f a b -> plain_counts a -> plain_counts b -> advances lim s a k -> advances lim s b (f k).
Proof.
  intros R E A B (K & M & n & D1 & D2). assert (LK : Forall legal_kind [k]) by (constructor; auto). split; [now apply R|]. split; [intros Q; rewrite E by auto; auto|]. exists n.
  split; [now apply (renamed_distance f g lim s a b)|]. change [f k] with (map f [k]).
  apply (renamed_distance f g lim s (plus a [k])); auto; [now apply (renamed_plus f g)|now apply plain_plus|]. apply plain_plus; [exact B|now apply (map_legal f g)].
Qed.
Lemma renamed_without f g a b k : renames f g -> renamed f a b -> legal_kind k -> renamed f (without a k) (without b (f k)).
Proof.
  intros R E K j J. unfold without. rewrite E by auto. rewrite !same_kind_eqb. destruct (kind_eqb k j) eqn:E1.
  - apply kind_eqb_eq in E1. subst j. now rewrite kind_eqb_refl.
  - destruct (kind_eqb (f k) (f j)) eqn:E2; [|reflexivity]. apply kind_eqb_eq in E2. destruct R as (A & _). exfalso.
    assert (k = j) by (rewrite <- (proj2 (A k K)), <- (proj2 (A j J)); congruence). subst j. now rewrite kind_eqb_refl in E1.
Qed.
Lemma plain_without h k : plain_counts h -> 0 < h k -> plain_counts (without h k).
Proof.
  intros P Q j. unfold without. rewrite same_kind_eqb. destruct (kind_eqb k j) eqn:E; [|apply P]. apply kind_eqb_eq in E. subst j. split; [lia|]. intros N. rewrite (proj2 (P k) N) in Q. lia.
Qed.
Lemma renamed_keeps f g lim s a b k : renames f g -> renamed f a b -> plain_counts a -> plain_counts b -> keeps_distance lim s a k -> keeps_distance lim s b (f k).
Proof.
  intros R E A B (Q & n & D1 & D2). assert (K : legal_kind k) by (destruct (legal_dec k) as [K|K]; [exact K|rewrite (proj2 (A k) K) in Q; lia]).
  assert (Q' : 0 < b (f k)) by now rewrite E. split; [exact Q'|]. exists n. split; [now apply (renamed_distance f g lim s a b)|].
  apply (renamed_distance f g lim s (without a k)); auto; [now apply (renamed_without f g)|now apply plain_without|now apply plain_without].
Qed.

Lemma renamed_four f g a b : renames f g -> renamed f (face_count a) (face_count b) -> hand_ok b -> four_max a -> four_max b.
Proof.
  intros R E B M k. destruct (legal_dec k) as [K|K].
  - destruct (proj1 (proj2 R) k K) as [K' G]. rewrite <- G, E by auto. apply M.
  - rewrite (proj2 (hand_plain b B k) K). lia.
Qed.
Lemma kinds_renamed f g : renames f g -> Permutation (map f KINDS) KINDS.
Proof.
  intros R. apply NoDup_Permutation_bis.
  - assert (L : Forall legal_kind KINDS) by (apply Forall_forall; intros k I; now apply KINDS_legal). pose proof KINDS_NoDup as D. destruct R as (A & _). revert D L.
    induction KINDS as [|x l IH]; intros D L; cbn [map]; [constructor|]. inversion D; inversion L; subst. constructor; [|auto]. intros J. apply in_map_iff in J. destruct J as (y & E & J).
    assert (y = x). { rewrite <- (proj2 (A x ltac:(auto))), <- E. symmetry. apply A. match goal with Hl : Forall legal_kind l |- _ => rewrite Forall_forall in Hl; auto end. } subst y. contradiction.
  - now rewrite map_length.
  - intros k I. apply in_map_iff in I. destruct I as (j & <- & J). apply KINDS_legal. apply R. now apply KINDS_legal.
Qed.
Lemma renamed_size f g a b : renames f g -> renamed f (face_count a) (face_count b) -> hand_ok a -> hand_ok b -> hand_size b = hand_size a.
Proof.
  intros R E A B. rewrite !hand_size_total. destruct (hand_ok_good _ A) as (Wa & La & _). destruct (hand_ok_good _ B) as (Wb & Lb & _).
  rewrite !total_sumK by auto. unfold sumK.
  assert (P : forall (u : kind -> Z) x y, Permutation x y -> sumZ u x = sumZ u y) by (induction 1; cbn [sumZ]; lia).
  rewrite <- (P _ _ _ (kinds_renamed f g R)). assert (L : Forall legal_kind KINDS) by (apply Forall_forall; intros k I; now apply KINDS_legal). revert L.
  induction KINDS as [|k l IH]; intros L; [reflexivity|]. inversion L; subst. cbn [map sumZ]. rewrite IH by auto. f_equal. rewrite !hand_ok_fc by auto. now apply E.
Qed.

(** ** C124 *)
(** Which names may be changed. *)
Theorem C124_names : forall p q p' q' turned,
  swaps_suits p q -> swaps_suits q p -> swaps_honours p' q' -> swaps_honours q' p' ->
  renames (rename p turned p') (rename q (fun c => turned (q c)) q').
Proof.
  assert (H1 : forall p q p' q' turned turned', swaps_suits p q -> swaps_honours p' q' -> (forall c, c <> Cz -> turned' (p c) = turned c) ->
    forall k, legal_kind k -> legal_kind (rename p turned p' k) /\ rename q turned' q' (rename p turned p' k) = k).
  { intros p q p' q' t t' P P' T [c n] K. 
    assert (C : c = Cz \/ c <> Cz) by (destruct c; [right|right|right|left]; congruence). destruct C as [->|C].
    - cbn [rename]. destruct (P' n K) as [A B]. split; [exact A|]. now rewrite B.
    - destruct (P c C) as [P1 P2]. assert (N : 1 <= n <= 9) by (destruct c; [exact K|exact K|exact K|congruence]).
      assert (R : rename p t p' (c, n) = (p c, if t c then 10 - n else n)) by (destruct c; [reflexivity|reflexivity|reflexivity|congruence]). rewrite R.
      assert (R2 : forall m, rename q t' q' (p c, m) = (q (p c), if t' (p c) then 10 - m else m)) by (intros m; destruct (p c); [reflexivity|reflexivity|reflexivity|congruence]). rewrite R2, P2, (T c C).
      split; [|destruct (t c); f_equal; lia]. unfold legal_kind. cbn [fst snd]. destruct (p c); [| | |congruence]; destruct (t c); lia. }
  assert (H2 : forall p q p' turned, swaps_suits p q -> keeps_runs (rename p turned p')).
  { intros p q p' t P c n [C N]. destruct (P c C) as [P1 _]. exists (p c), (if t c then 8 - n else n). split; [split; [exact P1|destruct (t c); lia]|].
    assert (R : forall m, rename p t p' (c, m) = (p c, if t c then 10 - m else m)) by (intros m; destruct c; [reflexivity|reflexivity|reflexivity|congruence]).
    cbn [unit_kinds map]. rewrite !R. destruct (t c); [|reflexivity].
    replace (10 - (n + 1)) with (8 - n + 1) by lia. replace (10 - (n + 2)) with (8 - n) by lia. replace (10 - n) with (8 - n + 2) by lia.
    change (Permutation (rev [(p c, 8 - n); (p c, 8 - n + 1); (p c, 8 - n + 2)]) [(p c, 8 - n); (p c, 8 - n + 1); (p c, 8 - n + 2)]). symmetry. apply Permutation_rev. }
  intros p q p' q' t P Q P' Q'. split; [|split; [|split]].
  - apply H1; auto. intros c C. now rewrite (proj2 (P c C)).
  - apply H1; auto.
  - now apply (H2 p q).
  - now apply (H2 q p).
Qed.

(** The answer of each search. *)
Theorem C124_steps : forall f g s a b ig, renames f g -> hand_ok a -> hand_ok b -> renamed f (face_count a) (face_count b) ->
  (ig = true -> four_max a) ->
  (forall v, h_step (pattern_of s) a ig = Ok v <-> h_step (pattern_of s) b ig = Ok v) /\
  (forall v, returns (fun fuel => pm_step fuel (pattern_of s) a ig) v <-> returns (fun fuel => pm_step fuel (pattern_of s) b ig) v) /\
  (ig = true -> forall v, returns (fun fuel => brute_step fuel (pattern_of s) a ig) v <-> returns (fun fuel => brute_step fuel (pattern_of s) b ig) v).
Proof.
  intros f g s a b ig R A B E F. assert (F' : ig = true -> four_max b) by (intros Q; apply (renamed_four f g a b R E B); auto).
  assert (D : forall n, distance ig s (face_count a) n <-> distance ig s (face_count b) n).
  { intros n. split; [apply (renamed_distance f g)|apply (renamed_distance g f)]; auto using hand_plain, renames_sym. now apply (renamed_back f g). }
  split; [|split].
  - intros v. rewrite !C19_heuristic_any_size by auto. rewrite (renamed_size f g a b R E A B).
    split; intros (n & V & Dn & N); exists n; (split; [exact V|]; split; [now apply D|exact N]).
  - intros v. rewrite !C18_pattern_match_minimum by auto. split; intros (n & Dn & V); exists n; (split; [now apply D|exact V]).
  - intros Q v. subst ig. rewrite !C17_brute_minimum by auto. split; intros (n & Dn & V); exists n; (split; [now apply D|exact V]).
Qed.

(** The useful tiles are the same tiles under their new names. *)
Theorem C124_useful : forall f g s a b k, renames f g -> hand_ok a -> hand_ok b -> renamed f (face_count a) (face_count b) ->
  four_max a -> usual_size s a -> legal_kind k ->
  exists ts ts', h_useful (pattern_of s) a true = Ok ts /\ h_useful (pattern_of s) b true = Ok ts' /\
    (In k (faces ts) <-> In (f k) (faces ts')).
Proof.
  intros f g s a b k R A B E F U K. assert (F' : four_max b) by (now apply (renamed_four f g a b R E B)).
  assert (U' : usual_size s b) by (unfold usual_size; rewrite (renamed_size f g a b R E A B); exact U).
  destruct (C20_useful_heuristic s a A F U) as (ts & T1 & _ & T2). destruct (C20_useful_heuristic s b B F' U') as (ts' & T1' & _ & T2').
  exists ts, ts'. split; [exact T1|]. split; [exact T1'|]. rewrite T2, T2'. split; intros Q.
  - apply (renamed_advances f g true s (face_count a)); auto using hand_plain.
  - rewrite <- (proj2 (proj1 R k K)). apply (renamed_advances g f true s (face_count b)); auto using hand_plain, renames_sym. now apply (renamed_back f g).
Qed.

(** The discards to consider, the step and the useful tiles after each of them. *)
Theorem C124_discards : forall f g s a b, renames f g -> hand_ok a -> hand_ok b -> renamed f (face_count a) (face_count b) ->
  four_max a -> usual_size s a ->
  exists rows rows', h_batch (pattern_of s) a true = Ok rows /\ h_batch (pattern_of s) b true = Ok rows' /\
    length rows = length rows' /\
    forall t step useful, In (t, step, useful) rows -> exists t' useful', In (t', step, useful') rows' /\
      view t' = f (view t) /\ forall k, legal_kind k -> (In k (faces useful) <-> In (f k) (faces useful')).
Proof.
  intros f g s a b R A B E F U. assert (F' : four_max b) by (now apply (renamed_four f g a b R E B)).
  assert (U' : usual_size s b) by (unfold usual_size; rewrite (renamed_size f g a b R E A B); exact U).
  pose proof (hand_plain a A) as PA. pose proof (hand_plain b B) as PB. pose proof (renames_sym f g R) as R'. pose proof (renamed_back f g _ _ R E) as E'.
  destruct (C22_batch s a A F U) as (n & rows & D & H1 & H2 & H3 & H4). destruct (C22_batch s b B F' U') as (n' & rows' & D' & H1' & H2' & H3' & H4').
  assert (N : n = n').
  { pose proof (renamed_distance f g true s _ _ n R E PA PB D) as D2. pose proof (proj2 D2 _ (proj1 D')). pose proof (proj2 D' _ (proj1 D2)). lia. } subst n'.
  assert (KL : forall h j, plain_counts h -> keeps_distance true s h j -> legal_kind j).
  { intros h j P (Q & _). destruct (legal_dec j) as [J|J]; [exact J|]. rewrite (proj2 (P j) J) in Q. lia. }
  exists rows, rows'. split; [exact H1|]. split; [exact H1'|]. split.
  - set (v := fun r : tile * Z * list tile => view (fst (fst r))) in *.
    assert (LE : forall f g a b, renames f g -> plain_counts (face_count a) -> plain_counts (face_count b) -> renamed f (face_count a) (face_count b) -> forall ra rb,
      NoDup (map v ra) -> (forall k, In k (map v ra) <-> keeps_distance true s (face_count a) k) -> (forall k, In k (map v rb) <-> keeps_distance true s (face_count b) k) -> (length ra <= length rb)%nat).
    { clear - KL. intros f g a b R PA PB E ra rb D S1 S2. rewrite <- (map_length v ra), <- (map_length v rb), <- (map_length f (map v ra)). apply NoDup_incl_length.
      - assert (L : forall j, In j (map v ra) -> legal_kind j) by (intros j J; apply S1 in J; eapply KL; [exact PA|exact J]). clear - D L R. destruct R as (A & _).
        induction D as [|x l N D IH]; cbn [map]; constructor.
        + intros J. apply in_map_iff in J. destruct J as (y & Q & J). apply N. replace x with y; [exact J|]. rewrite <- (proj2 (A x (L x (or_introl eq_refl)))), <- Q. symmetry. apply A. apply L. now right.
        + apply IH. intros j J. apply L. now right.
      - intros j J. apply in_map_iff in J. destruct J as (y & <- & J). apply S2. apply (renamed_keeps f g true s (face_count a)); auto. now apply S1. }
    apply Nat.le_antisymm; [apply (LE f g a b)|apply (LE g f b a)]; auto.
  - intros t step useful I. destruct (H4 t step useful I) as [-> Us].
    assert (Kt : keeps_distance true s (face_count a) (view t)) by (apply H3; apply in_map_iff; exists (t, Z.of_nat n - 1, useful); now split).
    pose proof (KL _ _ PA Kt) as Lt. assert (Kt' : keeps_distance true s (face_count b) (f (view t))) by (now apply (renamed_keeps f g true s (face_count a))).
    apply H3' in Kt'. apply in_map_iff in Kt'. destruct Kt' as ([[t' st'] us'] & V & I'). cbn [fst] in V. destruct (H4' t' st' us' I') as [-> Us'].
    exists t', us'. split; [exact I'|]. split; [exact V|]. intros k K. rewrite Us, Us', V.
    destruct Kt as (Q & _). assert (Q' : 0 < face_count b (f (view t))) by now rewrite E.
    pose proof (renamed_without f g _ _ _ R E Lt) as EW. pose proof (plain_without _ _ PA Q) as PA'. pose proof (plain_without _ _ PB Q') as PB'. split; intros X.
    + now apply (renamed_advances f g true s (without (face_count a) (view t))).
    + rewrite <- (proj2 (proj1 R k K)). apply (renamed_advances g f true s (without (face_count b) (f (view t)))); auto. now apply (renamed_back f g).
Qed.

(** A hand with the first two suits exchanged, the second one turned around and a wind and a dragon exchanged. *)
Definition other_suit (c : color) : color := match c with Cm => Cp | Cp => Cm | c => c end.
Definition second (c : color) : bool := match c with Cp => true | _ => false end.
Definition other_honour (n : Z) : Z := if n =? 5 then 1 else if n =? 1 then 5 else n.
Definition ex_f : kind -> kind := rename other_suit second other_honour.
Definition ex_g : kind -> kind := rename other_suit (fun c => second (other_suit c)) other_honour.
Definition ex13_renamed : tset := map (fun e => let k := ex_f (view (fst e)) in (Plain (snd k) (fst k), snd e)) ex13.
Lemma ex_renames : renames ex_f ex_g.
Proof.
  assert (P : swaps_suits other_suit other_suit) by (intros [] H; cbn; split; congruence).
  assert (Q : swaps_honours other_honour other_honour).
  { intros n H. assert (N : n = 1 \/ n = 2 \/ n = 3 \/ n = 4 \/ n = 5 \/ n = 6 \/ n = 7) by lia. repeat (destruct N as [->|N]; [cbn; lia|]). subst n. cbn. lia. }
  now apply C124_names.
Qed.
Example C124_example : renames ex_f ex_g /\ hand_ok ex13_renamed /\ renamed ex_f (face_count ex13) (face_count ex13_renamed) /\
  h_useful (NormalTypeWin 1 4) ex13 true = Ok [Plain 3 Cp; Plain 6 Cp] /\
  (exists ts, h_useful (NormalTypeWin 1 4) ex13_renamed true = Ok ts /\ In (Cm, 7) (faces ts) /\ In (Cm, 4) (faces ts)) /\
  h_step (NormalTypeWin 1 4) ex13_renamed true = Ok 0.
Proof.
  assert (H : hand_ok ex13_renamed) by (split; [repeat constructor; cbn; intuition congruence|repeat constructor; cbn; lia]).
  assert (E : renamed ex_f (face_count ex13) (face_count ex13_renamed)).
  { assert (B : forallb (fun k => face_count ex13_renamed (ex_f k) =? face_count ex13 k) KINDS = true) by (vm_compute; reflexivity).
    rewrite forallb_forall in B. intros k K. apply Z.eqb_eq, B. now apply KINDS_legal. }
  destruct ex13_ok as (H0 & F & U). split; [apply ex_renames|]. split; [exact H|]. split; [exact E|].
  assert (T : h_useful (NormalTypeWin 1 4) ex13 true = Ok [Plain 3 Cp; Plain 6 Cp]) by (vm_compute; reflexivity).
  split; [exact T|]. split.
  - destruct (C124_useful ex_f ex_g (Standard 1 4) ex13 ex13_renamed (Cp, 3) ex_renames H0 H E F U ltac:(cbn; lia)) as (ts & ts' & T1 & T2 & I1).
    destruct (C124_useful ex_f ex_g (Standard 1 4) ex13 ex13_renamed (Cp, 6) ex_renames H0 H E F U ltac:(cbn; lia)) as (ts2 & ts2' & T3 & T4 & I2).
    change (pattern_of (Standard 1 4)) with (NormalTypeWin 1 4) in *. rewrite T in T1, T3. injection T1 as <-. injection T3 as <-.
    rewrite T2 in T4. injection T4 as <-. exists ts'. split; [exact T2|]. split; [apply I1|apply I2]; cbn; tauto.
  - apply (C124_steps ex_f ex_g (Standard 1 4) ex13 ex13_renamed true); auto using ex_renames.
Qed.
