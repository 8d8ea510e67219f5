(** [distinct] keeps first occurrences; [unique_win_selections] lists every
    decomposition exactly once. *)
From Verif Require Import Base Tile TileSet Spec_Tile TileSetFacts Win Spec_Win WinFacts WinProofs TileSetOps Distinct Spec_Distinct.
From Coq Require Import List ZArith Lia Bool Permutation Sorted.
Import ListNotations.
Open Scope Z_scope.

Section Dist.
  Context {A : Type} (P : A -> Prop) (lt ne : A -> A -> bool) (d : A).
  Context (TO : total_order P lt ne).

  Let R := fun x y => lt x y = true.
  Definition seen_same (before unique : list A) : Prop :=
    forall x, P x -> (forallb (fun y => ne y x) before = forallb (fun y => ne y x) unique).

  Lemma forallb_false_ex : forall (f : A -> bool) l, forallb f l = false -> exists x, In x l /\ f x = false.
  Proof.
    induction l as [|x l IH]; cbn [forallb]; [discriminate|]. destruct (f x) eqn:E; cbn [andb].
    - intros H. destruct (IH H) as (y & I & F). exists y. split; [right|]; auto.
    - intros _. exists x. split; [left|]; auto.
  Qed.
  Lemma sorted_nth : forall l i j, StronglySorted R l -> (i < j < length l)%nat -> R (nth i l d) (nth j l d).
  Proof.
    intros l i j S. revert i j. induction S as [|x l S IH F]; intros i j H; cbn [length] in H; [lia|].
    destruct j as [|j]; [lia|]. destruct i as [|i]; cbn [nth].
    - rewrite Forall_forall in F. apply F. apply nth_In. lia.
    - apply IH. lia.
  Qed.
  Lemma sorted_insert : forall l i x, StronglySorted R l -> (i <= length l)%nat ->
    Forall P l -> P x ->
    (forall j, (j < i)%nat -> R (nth j l d) x) -> (forall j, (i <= j < length l)%nat -> R x (nth j l d)) ->
    StronglySorted R (insert_at i x l).
  Proof.
    unfold insert_at. intros l i x S. revert i. induction S as [|y l S IH F]; intros i Hi FP Px L G.
    - destruct i; constructor; constructor.
    - inversion FP as [|? ? Py FPl]; subst. destruct i as [|i]; cbn [firstn skipn app].
      + constructor; [constructor; auto|]. constructor.
        * apply (G 0%nat). cbn [length]. lia.
        * rewrite Forall_forall in *. intros z Hz. eapply (to_trans _ _ _ TO x y z); auto.
          -- apply (G 0%nat). cbn [length]. lia.
          -- now apply F.
      + constructor.
        * apply IH; auto; [cbn [length] in Hi; lia| |].
          -- intros j Hj. apply (L (Datatypes.S j)). lia.
          -- intros j Hj. apply (G (Datatypes.S j)). cbn [length]. lia.
        * apply Forall_app. rewrite Forall_forall in F. split; [|constructor].
          -- apply Forall_forall. intros z Hz. apply F. rewrite <- (firstn_skipn i l). apply in_app_iff. auto.
          -- apply (L 0%nat). lia.
          -- apply Forall_forall. intros z Hz. apply F. rewrite <- (firstn_skipn i l). apply in_app_iff. auto.
  Qed.
  Lemma ne_lt : forall x y, P x -> P y -> lt x y = true -> ne x y = true.
  Proof. intros. apply (to_total _ _ _ TO); auto. Qed.

  Lemma distinct_loop_spec : forall l before unique, Forall P l -> Forall P unique ->
    StronglySorted R unique -> seen_same before unique ->
    distinct_loop lt ne d unique l = first_occurrences ne before l.
  Proof.
    induction l as [|x l IH]; intros before unique Fl Fu S Same; cbn [distinct_loop first_occurrences]; [reflexivity|].
    inversion Fl as [|? ? Px Fl']; subst.
    assert (Pn : forall i, (i < length unique)%nat -> P (nth i unique d)).
    { intros i Hi. rewrite Forall_forall in Fu. apply Fu. now apply nth_In. }
    destruct (bisect_left_spec lt d unique x) as (Hr & Hlo & Hhi).
    { intros i j Hij Hj. eapply (to_trans _ _ _ TO _ (nth j unique d)); auto; try (apply Pn; lia).
      now apply sorted_nth. }
    set (r := bisect_left lt d unique x) in *.
    assert (Snoc : forall u, seen_same before u -> forall z, P z ->
              forallb (fun y => ne y z) (before ++ [x]) = forallb (fun y => ne y z) u && ne x z).
    { intros u Hu z Pz. rewrite forallb_app. cbn [forallb]. rewrite (Hu z Pz), andb_true_r. reflexivity. }
    destruct ((length unique <=? r)%nat || ne (nth r unique d) x) eqn:E.
    - assert (G : forall j, (r <= j < length unique)%nat -> lt x (nth j unique d) = true).
      { intros j Hj. assert (Hlen : (r < length unique)%nat) by lia.
        replace (length unique <=? r)%nat with false in E by (symmetry; apply Nat.leb_gt; lia). cbn [orb] in E.
        apply (to_total _ _ _ TO) in E; auto. rewrite (Hhi r) in E by lia. destruct E as [E|E]; [discriminate|].
        destruct (Nat.eq_dec j r) as [->|N]; auto. eapply (to_trans _ _ _ TO _ (nth r unique d)); auto; try (apply Pn; lia).
        apply sorted_nth; auto. lia. }
      assert (T : forallb (fun y => ne y x) unique = true).
      { apply forallb_forall. intros y Hy. destruct (In_nth _ _ d Hy) as (j & Hj & <-).
        destruct (Nat.lt_ge_cases j r) as [Q|Q].
        - apply ne_lt; auto.
        - apply (to_total _ _ _ TO); auto. }
      rewrite (Same x Px), T. f_equal. apply IH; auto.
      + unfold insert_at. apply Forall_app. rewrite <- (firstn_skipn r unique) in Fu. apply Forall_app in Fu.
        destruct Fu as [F1 F2]. split; [exact F1|]. constructor; auto.
      + apply sorted_insert; auto.
      + intros z Pz. rewrite (Snoc unique Same z Pz). unfold insert_at. rewrite forallb_app. cbn [forallb].
        rewrite <- (firstn_skipn r unique) at 1. rewrite forallb_app.
        destruct (forallb (fun y => ne y z) (firstn r unique)), (forallb (fun y => ne y z) (skipn r unique)), (ne x z); reflexivity.
    - apply orb_false_iff in E. destruct E as [E1 E2]. apply Nat.leb_gt in E1.
      assert (T : forallb (fun y => ne y x) unique = false).
      { destruct (forallb (fun y => ne y x) unique) eqn:T; auto. rewrite forallb_forall in T.
        rewrite (T (nth r unique d)) in E2; [discriminate|]. now apply nth_In. }
      rewrite (Same x Px), T. apply IH; auto.
      intros z Pz. rewrite (Snoc unique Same z Pz).
      destruct (forallb (fun y => ne y z) unique) eqn:Q; auto. cbn [andb].
      rewrite forallb_forall in Q. specialize (Q (nth r unique d) (nth_In _ _ E1)).
      apply (to_total _ _ _ TO) in Q; auto. apply (to_total _ _ _ TO); auto.
      destruct (to_cong _ _ _ TO (nth r unique d) x z) as [C1 C2]; auto. rewrite <- C1, <- C2. exact Q.
  Qed.
  Theorem distinct_spec : forall l, Forall P l -> distinct lt ne d l = first_occurrences ne [] l.
  Proof. intros l F. apply distinct_loop_spec; auto; [constructor|]. intros x _. reflexivity. Qed.

End Dist.
Section Dist2.
  Context {A : Type} (P : A -> Prop) (lt ne : A -> A -> bool).
  Context (TO : total_order P lt ne).
  Lemma ne_refl : forall x, P x -> ne x x = false.
  Proof.
    intros x Px. destruct (ne x x) eqn:E; auto. apply (to_total _ _ _ TO) in E; auto.
    rewrite (to_irrefl _ _ _ TO) in E by auto. destruct E; discriminate.
  Qed.
  Lemma ne_sym : forall x y, P x -> P y -> ne x y = ne y x.
  Proof.
    intros x y Px Py. pose proof (to_total _ _ _ TO x y Px Py) as A1. pose proof (to_total _ _ _ TO y x Py Px) as A2.
    destruct (ne y x), (ne x y); auto; [destruct A2 as [A2 _]; specialize (A2 eq_refl); apply A1
                                       |destruct A1 as [A1 _]; specialize (A1 eq_refl); symmetry; apply A2]; tauto.
  Qed.
  Lemma first_in : forall l before x, In x (first_occurrences ne before l) -> In x l.
  Proof.
    induction l as [|y l IH]; intros before x H; cbn [first_occurrences] in H; [destruct H|].
    destruct (forallb _ before); [destruct H as [->|H]; [left; auto|]|]; right; eauto.
  Qed.
  Lemma first_new : forall l before x y, In x (first_occurrences ne before l) -> In y before -> ne y x = true.
  Proof.
    induction l as [|z l IH]; intros before x y H I; cbn [first_occurrences] in H; [destruct H|].
    destruct (forallb (fun y => ne y z) before) eqn:E.
    - destruct H as [->|H]; [rewrite forallb_forall in E; now apply E|]. eapply IH; eauto. apply in_app_iff. auto.
    - eapply IH; eauto. apply in_app_iff. auto.
  Qed.
  Lemma first_pairwise : forall l before, ForallOrdPairs (fun x y => ne x y = true) (first_occurrences ne before l).
  Proof.
    induction l as [|z l IH]; intros before; cbn [first_occurrences]; [constructor|].
    destruct (forallb (fun y => ne y z) before) eqn:E; [|apply IH]. constructor; [|apply IH].
    apply Forall_forall. intros x H. eapply first_new; eauto. apply in_app_iff. right. left. reflexivity.
  Qed.
  Lemma first_covers : forall l before x, Forall P l -> Forall P before -> In x l ->
    (exists y, In y before /\ ne y x = false) \/ exists y, In y (first_occurrences ne before l) /\ ne y x = false.
  Proof.
    induction l as [|z l IH]; intros before x F Fb H; [destruct H|]. inversion F as [|? ? Pz Fl]; subst. cbn [first_occurrences].
    assert (Fb' : Forall P (before ++ [z])) by (apply Forall_app; split; auto).
    destruct H as [->|H].
    - destruct (forallb (fun y => ne y x) before) eqn:E.
      + right. exists x. split; [left; auto|now apply ne_refl].
      + left. apply forallb_false_ex in E. exact E.
    - destruct (IH (before ++ [z]) x Fl Fb' H) as [(y & I & N)|(y & I & N)].
      + apply in_app_iff in I. destruct I as [I|[->|[]]]; [left; eauto|].
        destruct (forallb (fun v => ne v y) before) eqn:E; [right; exists y; split; [left|]; auto|].
        apply forallb_false_ex in E. destruct E as (v & Iv & Ev). left. exists v. split; auto.
        assert (Pv : P v) by (rewrite Forall_forall in Fb; auto). assert (Px : P x) by (rewrite Forall_forall in Fl; auto).
        destruct (ne v x) eqn:Q; auto. apply (to_total _ _ _ TO) in Q; auto.
        destruct (to_cong _ _ _ TO v y x) as [C1 C2]; auto. rewrite C1, C2 in Q.
        assert (ne y x = true) by (apply (to_total _ _ _ TO); auto). congruence.
      + right. exists y. split; auto. destruct (forallb _ before); [right|]; auto.
  Qed.
End Dist2.

(** ** Lexicographic order of lists *)
Section Lex.
  Context {A : Type} (P : A -> Prop) (lt ne : A -> A -> bool) (TO : total_order P lt ne).
  Fixpoint llt (a b : list A) : bool :=
    match a, b with
    | [], [] => false
    | [], _ :: _ => true
    | _ :: _, [] => false
    | x :: a', y :: b' => if ne x y then lt x y else llt a' b'
    end.
  Fixpoint lne (a b : list A) : bool :=
    match a, b with
    | [], [] => false
    | x :: a', y :: b' => ne x y || lne a' b'
    | _, _ => true
    end.
  Lemma llt_total : total_order (Forall P) llt lne.
  Proof.
    pose proof (ne_refl P lt ne TO) as NR.
    pose proof (ne_sym P lt ne TO) as NS.
    assert (NT : forall x y z, P x -> P y -> P z -> ne x y = false -> ne x z = ne y z).
    { intros x y z Px Py Pz H. destruct (to_cong _ _ _ TO x y z) as [C1 C2]; auto.
      pose proof (to_total _ _ _ TO x z Px Pz) as A1. pose proof (to_total _ _ _ TO y z Py Pz) as A2.
      rewrite C1, C2 in A1. destruct (ne x z), (ne y z); auto; [symmetry; apply A2|apply A1]; [apply A1|apply A2]; auto. }
    assert (LTNE : forall x y, P x -> P y -> lt x y = true -> ne x y = true).
    { intros. apply (to_total _ _ _ TO); auto. }
    split.
    - induction x as [|x l IH]; intros F; [reflexivity|]. inversion F; subst. cbn [llt]. rewrite NR by auto. auto.
    - induction x as [|x l IH]; intros [|y m] [|z n] Fx Fy Fz; cbn [llt]; auto; try discriminate.
      inversion Fx; inversion Fy; inversion Fz; subst.
      destruct (ne x y) eqn:E1; destruct (ne y z) eqn:E2; intros H1' H2'.
      + rewrite (LTNE x z); auto; eapply (to_trans _ _ _ TO x y z); auto.
      + rewrite (NS x z) by auto. destruct (to_cong _ _ _ TO y z x) as [C1 C2]; auto.
        rewrite <- (NT y z x) by auto. rewrite (NS y x) by auto. rewrite E1. congruence.
      + rewrite (NT x y z) by auto. rewrite E2. destruct (to_cong _ _ _ TO x y z) as [C1 C2]; auto. congruence.
      + rewrite (NT x y z) by auto. rewrite E2. apply (IH m n); auto.
    - induction x as [|x l IH]; intros [|y m] Fx Fy; cbn [llt lne]; try (split; auto; intuition discriminate).
      inversion Fx; inversion Fy; subst. rewrite (NS y x) by auto. destruct (ne x y) eqn:E; cbn [orb].
      + rewrite <- (to_total _ _ _ TO) by auto. rewrite E. tauto.
      + now apply IH.
    - induction x as [|x l IH]; intros [|y m] [|z n] Fx Fy Fz; cbn [llt lne]; try discriminate; try (split; reflexivity).
      inversion Fx; inversion Fy; inversion Fz; subst. intros H. apply orb_false_iff in H. destruct H as [E H].
      rewrite (NT x y z) by auto. rewrite (NS z x), (NS z y), (NT x y z) by auto.
      destruct (to_cong _ _ _ TO x y z) as [C1 C2]; auto. destruct (IH m n) as [D1 D2]; auto.
      destruct (ne y z); auto.
  Qed.
End Lex.

(** ** Order of units *)
Definition ent_lt (a b : tile * Z) : bool :=
  if tile_eqb (fst a) (fst b) then snd a <? snd b else tile_ltb (fst a) (fst b).
Definition ent_ne (a b : tile * Z) : bool := negb (tile_eqb (fst a) (fst b) && (snd a =? snd b)).
Lemma ent_total : total_order (fun _ => True) ent_lt ent_ne.
Proof.
  split.
  - intros [t v] _. unfold ent_lt. cbn [fst snd]. unfold tile_eqb. rewrite kind_eqb_refl. apply Z.ltb_irrefl.
  - intros [t v] [u w] [s x] _ _ _. unfold ent_lt. cbn [fst snd]. unfold tile_eqb, tile_ltb.
    destruct (kind_eqb (view t) (view u)) eqn:E1; destruct (kind_eqb (view u) (view s)) eqn:E2; intros H1 H2.
    + apply kind_eqb_eq in E1, E2. rewrite E1, E2, kind_eqb_refl. apply Z.ltb_lt in H1, H2. apply Z.ltb_lt. lia.
    + apply kind_eqb_eq in E1. rewrite E1, E2. auto.
    + apply kind_eqb_eq in E2. rewrite <- E2, E1. auto.
    + pose proof (kind_lt_trans _ _ _ H1 H2) as H3. destruct (kind_eqb (view t) (view s)) eqn:E3; [|exact H3].
      apply kind_eqb_eq in E3. rewrite E3 in H3. now apply kind_lt_irrefl in H3.
  - intros [t v] [u w] _ _. unfold ent_lt, ent_ne. cbn [fst snd]. unfold tile_eqb, tile_ltb.
    rewrite (kind_eqb_sym (view u)). destruct (kind_eqb (view t) (view u)) eqn:E; cbn [andb].
    + rewrite negb_true_iff, Z.eqb_neq, !Z.ltb_lt. lia.
    + cbn [negb]. split; auto. intros _. apply kind_eqb_neq in E.
      destruct (kind_lt_total (view t) (view u)) as [H|[H|H]]; auto; contradiction.
  - intros [t v] [u w] [s x] _ _ _. unfold ent_lt, ent_ne. cbn [fst snd]. intros H. apply negb_false_iff, andb_true_iff in H.
    destruct H as [H1 H2]. apply Z.eqb_eq in H2. subst. unfold tile_eqb, tile_ltb in *. apply kind_eqb_eq in H1. rewrite H1. auto.
Qed.
Lemma items_llt : forall a b, items_ltb a b = llt ent_lt ent_ne a b.
Proof.
  induction a as [|[t v] a IH]; intros [|[u w] b]; cbn [items_ltb llt]; auto.
  unfold ent_lt, ent_ne. cbn [fst snd]. rewrite IH. destruct (tile_eqb t u); cbn [andb]; [destruct (v =? w); reflexivity|reflexivity].
Qed.

Definition is_unit (s : tset) : Prop := exists u, s = unit_ts u.
Lemma kind_eqb_pair : forall c n c' n', kind_eqb (c, n) (c', n') = color_eqb c c' && (n =? n').
Proof. reflexivity. Qed.
Lemma unit_eqb : forall u v, ts_eqb (unit_ts u) (unit_ts v) = true -> u = v.
Proof.
  assert (K : forall c n c' n', kind_eqb (c, n) (c', n') = true -> c = c' /\ n = n').
  { intros. apply kind_eqb_eq in H. now inversion H. }
  intros [[c n]|c n|[c n]] [[c' n']|c' n'|[c' n']]; unfold ts_eqb, has_key, get; cbn [unit_ts length Nat.eqb andb forallb existsb fst snd getk tile_eqb view].
  all: try discriminate.
  - rewrite !andb_true_r, orb_false_r. unfold tile_eqb. cbn [view]. intros H. apply andb_true_iff in H. destruct H as [H _].
    apply K in H. destruct H; subst; reflexivity.
  - unfold tile_eqb. cbn [view]. rewrite orb_false_r, andb_true_r. intros H. apply andb_true_iff in H. destruct H as [H1 H2].
    rewrite H1 in H2. discriminate.
  - unfold tile_eqb. cbn [view]. rewrite !andb_true_iff, !orb_true_iff. intros [[H0 _] [[H1 _] [[H2 _] _]]].
    assert (X : c = c').
    { destruct H0 as [H|[H|[H|H]]]; try discriminate; apply K in H; destruct H; auto. }
    assert (Y : forall j, kind_eqb (c', n') (c, j) = true \/ kind_eqb (c', n' + 1) (c, j) = true \/ kind_eqb (c', n' + 2) (c, j) = true \/ false = true ->
                j = n' \/ j = n' + 1 \/ j = n' + 2).
    { intros j [H|[H|[H|H]]]; try discriminate; apply K in H; destruct H; auto. }
    apply Y in H0, H1, H2. subst. f_equal. lia.
  - unfold tile_eqb. cbn [view]. rewrite orb_false_r, andb_true_r. intros H. apply andb_true_iff in H. destruct H as [H1 H2].
    rewrite H1 in H2. discriminate.
  - rewrite !andb_true_r, orb_false_r. unfold tile_eqb. cbn [view]. intros H. apply andb_true_iff in H. destruct H as [H _].
    apply K in H. destruct H; subst; reflexivity.
Qed.
Lemma unit_eqb_refl : forall u, ts_eqb (unit_ts u) (unit_ts u) = true.
Proof.
  intros u. apply ts_eqb_spec; auto using unit_ts_wf, unit_ts_allpos.
Qed.
Definition ts_neb (a b : tset) : bool := negb (ts_eqb a b).
Lemma unit_ne_lne : forall u v, ts_neb (unit_ts u) (unit_ts v) = lne ent_ne (unit_ts u) (unit_ts v).
Proof.
  intros u v. unfold ts_neb. destruct (ts_eqb (unit_ts u) (unit_ts v)) eqn:E; cbn [negb].
  - apply unit_eqb in E. subst. symmetry. apply (ne_refl _ _ _ (llt_total _ _ _ ent_total)). apply Forall_forall. auto.
  - destruct (lne ent_ne (unit_ts u) (unit_ts v)) eqn:F; auto. exfalso.
    assert (X : ts_eqb (unit_ts u) (unit_ts v) = true); [|congruence].
    apply ts_eqb_spec; auto using unit_ts_wf, unit_ts_allpos. clear E.
    revert F. generalize (unit_ts u) (unit_ts v). induction t as [|[x a] t IH]; intros [|[y b] t0]; cbn [lne]; try discriminate; auto.
    intros F k. apply orb_false_iff in F. destruct F as [F1 F2]. unfold ent_ne in F1. cbn [fst snd] in F1.
    apply negb_false_iff, andb_true_iff in F1. destruct F1 as [F1 F3]. apply Z.eqb_eq in F3. apply tile_eqb_eq in F1.
    subst. cbn [getk]. rewrite F1, (IH t0 F2 k). reflexivity.
Qed.
Lemma unit_total : total_order is_unit ts_ltb ts_neb.
Proof.
  pose proof (llt_total _ _ _ ent_total) as T.
  assert (FT : forall s : tset, Forall (fun _ => True) s) by (intros; apply Forall_forall; auto).
  unfold ts_ltb. split.
  - intros x [u ->]. rewrite items_llt. apply (to_irrefl _ _ _ T). auto.
  - intros x y z _ _ _. rewrite !items_llt. apply (to_trans _ _ _ T); auto.
  - intros x y [u ->] [v ->]. rewrite !items_llt, unit_ne_lne. apply (to_total _ _ _ T); auto.
  - intros x y z [u ->] [v ->] [w ->]. rewrite !items_llt, unit_ne_lne. apply (to_cong _ _ _ T); auto.
Qed.
Lemma sel_llt : forall a b, sel_ltb a b = llt ts_ltb ts_neb a b.
Proof.
  induction a as [|x a IH]; intros [|y b]; cbn [sel_ltb llt]; auto. unfold ts_neb. destruct (ts_eqb x y); cbn [negb]; auto.
Qed.
Lemma sel_lne : forall a b, sel_neb a b = lne ts_neb a b.
Proof.
  unfold sel_neb, ts_neb. induction a as [|x a IH]; intros [|y b]; cbn [sel_eqb lne]; auto.
  rewrite negb_andb, IH. reflexivity.
Qed.
Definition is_sel (s : list tset) : Prop := Forall is_unit s.
Lemma sel_total : total_order is_sel sel_ltb sel_neb.
Proof.
  pose proof (llt_total _ _ _ unit_total) as T. split; intros; rewrite ?sel_llt, ?sel_lne in *.
  - now apply (to_irrefl _ _ _ T).
  - now apply (to_trans _ _ _ T x y z).
  - now apply (to_total _ _ _ T).
  - now apply (to_cong _ _ _ T).
Qed.
Lemma sel_neb_eq : forall us vs, sel_neb (map unit_ts us) (map unit_ts vs) = false -> us = vs.
Proof.
  intros us vs. unfold sel_neb. rewrite negb_false_iff. revert vs. induction us as [|u us IH]; intros [|v vs]; cbn [map sel_eqb]; try discriminate; auto.
  intros H. apply andb_true_iff in H. destruct H as [H1 H2]. apply unit_eqb in H1. subst. f_equal; auto.
Qed.

(** ** Sorting a selection *)
Lemma sel_ins_perm : forall x l, Permutation (sel_ins x l) (x :: l).
Proof.
  induction l as [|y l IH]; cbn [sel_ins]; auto. destruct (ts_ltb x y); auto.
  rewrite IH. apply perm_swap.
Qed.
Lemma sel_sort_perm : forall l, Permutation (sel_sort l) l.
Proof.
  intros l. unfold sel_sort. rewrite <- (app_nil_r l) at 2. generalize (@nil tset) as acc.
  induction l as [|x l IH]; intros acc; cbn [fold_left app]; auto.
  rewrite IH. rewrite sel_ins_perm. symmetry. apply Permutation_middle.
Qed.
Definition sel_le (a b : tset) : Prop := ts_ltb b a = false.
Lemma sel_le_trans : forall x y z, is_unit x -> is_unit y -> is_unit z -> sel_le x y -> sel_le y z -> sel_le x z.
Proof.
  unfold sel_le. intros x y z X Y Z A B. destruct (ts_ltb z x) eqn:E; auto.
  pose proof (to_total _ _ _ unit_total y z Y Z) as T. destruct (ts_neb y z) eqn:N.
  - destruct T as [T _]. specialize (T eq_refl). rewrite B in T. destruct T as [T|T]; [|discriminate].
    rewrite (to_trans _ _ _ unit_total y z x) in A; auto.
  - destruct (to_cong _ _ _ unit_total y z x) as [C _]; auto. congruence.
Qed.
Lemma sel_ins_sorted : forall x l, is_unit x -> is_sel l -> StronglySorted sel_le l -> StronglySorted sel_le (sel_ins x l).
Proof.
  intros x l X. induction l as [|y l IH]; intros L So; cbn [sel_ins]; [constructor; constructor|].
  inversion L as [|? ? Y L']; subst. inversion So as [|? ? S1 S2]; subst.
  destruct (ts_ltb x y) eqn:E.
  - assert (XY : sel_le x y).
    { unfold sel_le. destruct (ts_ltb y x) eqn:F; auto. pose proof (to_trans _ _ _ unit_total x y x X Y X E F) as G.
      now rewrite (to_irrefl _ _ _ unit_total) in G. }
    constructor; auto. constructor; auto. rewrite Forall_forall in *. intros z Hz.
    eapply sel_le_trans; [exact X|exact Y| |exact XY|]; auto.
  - constructor; auto. rewrite Forall_forall in *. intros z Hz.
    apply (Permutation_in _ (sel_ins_perm x l)) in Hz. destruct Hz as [<-|Hz]; auto.
Qed.
Lemma sel_sort_sorted : forall l, is_sel l -> StronglySorted sel_le (sel_sort l).
Proof.
  intros l L. unfold sel_sort. assert (G : forall l acc, is_sel l -> is_sel acc -> StronglySorted sel_le acc ->
    StronglySorted sel_le (fold_left (fun a x => sel_ins x a) l acc)).
  { induction l0 as [|x l0 IH]; intros acc A B C; cbn [fold_left]; auto. inversion A; subst. apply IH; auto.
    - unfold is_sel in *. eapply Permutation_Forall; [symmetry; apply sel_ins_perm|]. constructor; auto.
    - now apply sel_ins_sorted. }
  apply G; auto; constructor.
Qed.
Lemma is_sel_map : forall us, is_sel (map unit_ts us).
Proof. intros. apply Forall_map, Forall_forall. intros u _. exists u. reflexivity. Qed.
Lemma is_sel_units : forall l, is_sel l -> exists us, l = map unit_ts us.
Proof.
  induction l as [|x l IH]; intros H; [exists []; auto|]. inversion H as [|? ? [u ->] B]; subst.
  destruct (IH B) as [us ->]. exists (u :: us). reflexivity.
Qed.
Lemma unit_ts_inj0 : forall u v, unit_ts u = unit_ts v -> u = v.
Proof. intros u v H. apply unit_eqb. rewrite H. apply unit_eqb_refl. Qed.
Lemma map_unit_inj : forall us vs, map unit_ts us = map unit_ts vs -> us = vs.
Proof.
  induction us as [|u us IH]; intros [|v vs] H; cbn [map] in H; try discriminate; auto.
  injection H as H1 H2. f_equal; [now apply unit_ts_inj0|auto].
Qed.
Lemma sorted_unique : forall us vs, Permutation us vs ->
  StronglySorted sel_le (map unit_ts us) -> StronglySorted sel_le (map unit_ts vs) -> us = vs.
Proof.
  induction us as [|u us IH]; intros vs Pm S1 S2.
  - apply Permutation_nil in Pm. subst. reflexivity.
  - destruct vs as [|v vs]; [apply Permutation_sym, Permutation_nil in Pm; discriminate|].
    cbn [map] in *. inversion S1 as [|? ? A1 B1]; inversion S2 as [|? ? A2 B2]; subst. rewrite Forall_map, Forall_forall in B1, B2.
    assert (E : u = v).
    { assert (I1 : In u (v :: vs)) by (eapply Permutation_in; [exact Pm|left; auto]).
      assert (I2 : In v (u :: us)) by (eapply Permutation_in; [symmetry; exact Pm|left; auto]).
      destruct I1 as [I1|I1]; [auto|]. destruct I2 as [I2|I2]; [auto|].
      specialize (B1 v I2). specialize (B2 u I1). unfold sel_le in B1, B2.
      apply unit_eqb. destruct (ts_eqb (unit_ts u) (unit_ts v)) eqn:E; auto.
      assert (N : ts_neb (unit_ts u) (unit_ts v) = true) by (unfold ts_neb; now rewrite E).
      apply (to_total _ _ _ unit_total) in N; [|eexists; reflexivity|eexists; reflexivity]. destruct N; congruence. }
    subst v. f_equal. apply IH; auto. eapply Permutation_cons_inv; eauto.
Qed.

(** ** unique_win_selections *)
Theorem unique_sound : forall p hand sel, good_hand hand -> In sel (unique_win_selections p hand) ->
  exists us, sel = map unit_ts us /\ sh p us /\ fits us (getk hand) /\ StronglySorted sel_le sel.
Proof.
  intros p hand sel G I. unfold unique_win_selections in I.
  assert (F : Forall is_sel (map sel_sort (win_selections p hand))).
  { apply Forall_map, Forall_forall. intros s Is. destruct (win_selections_sound p hand s G Is) as (us & -> & _).
    eapply Permutation_Forall; [symmetry; apply sel_sort_perm|]. apply is_sel_map. }
  rewrite (distinct_spec is_sel _ _ _ sel_total _ F) in I. apply first_in in I.
  apply in_map_iff in I. destruct I as (s & <- & Is). destruct (win_selections_sound p hand s G Is) as (us & -> & S1 & S2).
  assert (So : StronglySorted sel_le (sel_sort (map unit_ts us))) by (apply sel_sort_sorted, is_sel_map).
  pose proof (sel_sort_perm (map unit_ts us)) as Pm.
  destruct (is_sel_units (sel_sort (map unit_ts us))) as (vs & E).
  { eapply Permutation_Forall; [symmetry; exact Pm|]. apply is_sel_map. }
  assert (Pv : Permutation us vs).
  { rewrite E in Pm. apply Permutation_sym, Permutation_map_inv in Pm. destruct Pm as (ws & Ew & Pw).
    assert (us = ws) by now apply map_unit_inj.
    now subst. }
  exists vs. split; auto. split; [eapply sh_perm; eauto|]. split; auto.
  intros k. rewrite <- (uses_perm us vs k Pv). apply S2.
Qed.
Theorem unique_complete : forall p hand us, good_hand hand -> sh p us -> fits us (getk hand) ->
  exists vs, Permutation us vs /\ In (map unit_ts vs) (unique_win_selections p hand).
Proof.
  intros p hand us G S1 S2. destruct (win_selections_complete p hand us G S1 S2) as (us' & Pm & I).
  assert (F : Forall is_sel (map sel_sort (win_selections p hand))).
  { apply Forall_map, Forall_forall. intros s Is. destruct (win_selections_sound p hand s G Is) as (us0 & -> & _).
    eapply Permutation_Forall; [symmetry; apply sel_sort_perm|]. apply is_sel_map. }
  unfold unique_win_selections. rewrite (distinct_spec is_sel _ _ _ sel_total _ F).
  assert (J : In (sel_sort (map unit_ts us')) (map sel_sort (win_selections p hand))) by (now apply in_map).
  destruct (first_covers is_sel _ _ sel_total _ [] _ F ltac:(constructor) J) as [(y & [] & _)|(y & Iy & Ny)].
  assert (Uy : is_sel y). { rewrite Forall_forall in F. apply F. eapply first_in; eauto. }
  destruct (is_sel_units y Uy) as (vs & ->).
  pose proof (sel_sort_perm (map unit_ts us')) as Pq.
  destruct (is_sel_units (sel_sort (map unit_ts us'))) as (ws & E).
  { eapply Permutation_Forall; [symmetry; exact Pq|]. apply is_sel_map. }
  rewrite E in Ny, Pq. apply sel_neb_eq in Ny. subst ws.
  exists vs. split; auto. rewrite Pm.
  apply Permutation_sym, Permutation_map_inv in Pq. destruct Pq as (zs & Ew & Pw).
  assert (us' = zs) by now apply map_unit_inj.
  now subst.
Qed.
Theorem unique_once : forall p hand i j us vs, good_hand hand ->
  nth_error (unique_win_selections p hand) i = Some (map unit_ts us) ->
  nth_error (unique_win_selections p hand) j = Some (map unit_ts vs) ->
  Permutation us vs -> i = j.
Proof.
  intros p hand i j us vs G Hi Hj Pm.
  destruct (unique_sound p hand _ G (nth_error_In _ _ Hi)) as (_ & _ & _ & _ & S1).
  destruct (unique_sound p hand _ G (nth_error_In _ _ Hj)) as (_ & _ & _ & _ & S2).
  pose proof (sorted_unique us vs Pm S1 S2) as E. subst vs.
  assert (F : Forall is_sel (map sel_sort (win_selections p hand))).
  { apply Forall_map, Forall_forall. intros s Is. destruct (win_selections_sound p hand s G Is) as (us0 & -> & _).
    eapply Permutation_Forall; [symmetry; apply sel_sort_perm|]. apply is_sel_map. }
  unfold unique_win_selections in *. rewrite (distinct_spec is_sel _ _ _ sel_total _ F) in *.
  pose proof (first_pairwise sel_neb (map sel_sort (win_selections p hand)) []) as Q.
  pose proof (ne_refl is_sel _ _ sel_total (map unit_ts us) (is_sel_map us)) as R.
  revert i j Hi Hj. induction Q as [|x l Hx Q IH]; intros [|i] [|j] Hi Hj; cbn [nth_error] in *; auto; try discriminate.
  - inversion Hi; subst. rewrite Forall_forall in Hx. apply nth_error_In in Hj. apply Hx in Hj. congruence.
  - inversion Hj; subst. rewrite Forall_forall in Hx. apply nth_error_In in Hi. apply Hx in Hi. congruence.
Qed.
