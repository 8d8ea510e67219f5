(** Property C50: the dora table and the starting tiles. *)
From Verif Require Import Base Parse Text Tenhou Counter Const StateProofs.
From Coq Require Import String List ZArith Lia Bool.
Import ListNotations.
Open Scope list_scope.
Open Scope Z_scope.

(** ** Specification. A face is a number and a suit letter; number 0 is the red five. *)
Definition m := 109. Definition p := 112. Definition s := 115. Definition z := 122.
Definition suited (c : Z) : Prop := c = m \/ c = p \/ c = s.
Definition exists_tile (n c : Z) : Prop := (suited c /\ 0 <= n <= 9) \/ (c = z /\ 1 <= n <= 7).
(** What an indicator points at. *)
Inductive points_at : Z -> Z -> list (Z * Z) -> Prop :=
| pt_four : forall c, suited c -> points_at 4 c [(5, c); (0, c)]
| pt_red : forall c, suited c -> points_at 0 c [(6, c)]
| pt_nine : forall c, suited c -> points_at 9 c [(1, c)]
| pt_suit : forall n c, suited c -> 1 <= n <= 8 -> n <> 4 -> points_at n c [(n + 1, c)]
| pt_wind : forall n, 1 <= n <= 3 -> points_at n z [(n + 1, z)]
| pt_north : points_at 4 z [(1, z)]
| pt_dragon : forall n, 5 <= n <= 6 -> points_at n z [(n + 1, z)]
| pt_red_dragon : points_at 7 z [(5, z)].
(** The printed name: digit, letter. *)
Definition printed (t : Z * Z) : text := [fst t + 48; snd t].
(** How often a name occurs. *)
Definition occurs (x : text) (l : list text) : nat := length (filter (text_eqb x) l).

(** ** Proofs. *)
Definition ten (c : Z) := map (fun n => (n, c)) [0;1;2;3;4;5;6;7;8;9].
Definition ALL : list (Z * Z) := ten m ++ ten p ++ ten s ++ map (fun n => (n, z)) [1;2;3;4;5;6;7].
Lemma all_iff : forall n c, exists_tile n c <-> In (n, c) ALL.
Proof.
  intros n c. split.
  - intros [[C H]|[-> H]].
    + assert (D : n = 0 \/ n = 1 \/ n = 2 \/ n = 3 \/ n = 4 \/ n = 5 \/ n = 6 \/ n = 7 \/ n = 8 \/ n = 9) by lia.
      destruct C as [->|[->| ->]]; repeat (destruct D as [->|D]; [cbn; auto 50|]); subst; cbn; auto 50.
    + assert (D : n = 1 \/ n = 2 \/ n = 3 \/ n = 4 \/ n = 5 \/ n = 6 \/ n = 7) by lia.
      repeat (destruct D as [->|D]; [cbn; auto 50|]); subst; cbn; auto 50.
  - unfold ALL, ten. rewrite !in_app_iff, !in_map_iff. unfold exists_tile, suited.
    assert (G : forall k (l : list Z), In k l -> forallb (fun x => (0 <=? x) && (x <=? 9)) l = true -> 0 <= k <= 9).
    { intros k l I F. rewrite forallb_forall in F. specialize (F k I). lia. }
    intros [(k & E & I)|[(k & E & I)|[(k & E & I)|(k & E & I)]]]; injection E as <- <-.
    + left. split; auto. eapply G; eauto.
    + left. split; auto. eapply G; eauto.
    + left. split; auto. eapply G; eauto.
    + right. split; auto. cbn in I. lia.
Qed.
(** The table. *)
Definition target_of (t : Z * Z) : list (Z * Z) :=
  let '(n, c) := t in
  if c =? z then [(if n =? 4 then 1 else if n =? 7 then 5 else n + 1, z)]
  else if n =? 4 then [(5, c); (0, c)] else if n =? 0 then [(6, c)] else if n =? 9 then [(1, c)] else [(n + 1, c)].
Fixpoint texts_eqb (a b : list text) : bool :=
  match a, b with [], [] => true | x :: a', y :: b' => text_eqb x y && texts_eqb a' b' | _, _ => false end.
Lemma texts_eqb_eq : forall a b, texts_eqb a b = true -> a = b.
Proof.
  induction a as [|x a IH]; intros [|y b] H; try discriminate; auto. cbn in H. apply andb_true_iff in H as [H1 H2].
  apply text_eqb_iff in H1. subst. f_equal. auto.
Qed.
Lemma table : forall t, In t ALL -> dget dora_map (printed t) = Ok (map printed (target_of t)).
Proof.
  assert (F : forallb (fun t => match dget dora_map (printed t) with Ok l => texts_eqb l (map printed (target_of t)) | Err _ => false end) ALL = true)
    by (vm_compute; reflexivity).
  rewrite forallb_forall in F. intros t I. specialize (F t I). destruct (dget dora_map (printed t)); [|discriminate].
  apply texts_eqb_eq in F. now subst.
Qed.
Lemma suited_z : forall c, suited c -> (c =? z) = false.
Proof. intros c [->|[->| ->]]; reflexivity. Qed.
Lemma points_target : forall n c l, points_at n c l -> l = target_of (n, c) /\ exists_tile n c.
Proof.
  intros n c l H. destruct H as [c S|c S|c S|n c S N N4|n N| |n N|]; unfold target_of; try rewrite (suited_z c S).
  - split; [reflexivity|]. left. split; auto; lia.
  - split; [reflexivity|]. left. split; auto; lia.
  - split; [reflexivity|]. left. split; auto; lia.
  - split; [|left; split; auto; lia].
    destruct (Z.eqb_spec n 4); [lia|]. destruct (Z.eqb_spec n 0); [lia|]. destruct (Z.eqb_spec n 9); [lia|]. reflexivity.
  - split; [|right; split; auto; lia]. rewrite Z.eqb_refl. destruct (Z.eqb_spec n 4); [lia|]. destruct (Z.eqb_spec n 7); [lia|]. reflexivity.
  - split; [reflexivity|]. right. split; auto; lia.
  - split; [|right; split; auto; lia]. rewrite Z.eqb_refl. destruct (Z.eqb_spec n 4); [lia|]. destruct (Z.eqb_spec n 7); [lia|]. reflexivity.
  - split; [reflexivity|]. right. split; auto; lia.
Qed.
Lemma doras_loop_app : forall l acc, doras_loop acc l = do r <- doras_loop [] l; Ok (acc ++ r).
Proof.
  induction l as [|i l IH]; intros acc; cbn [doras_loop bindr]; [now rewrite app_nil_r|].
  destruct (dget dora_map i) as [d|]; cbn [bindr]; auto. rewrite IH, (IH ([] ++ d)). cbn [app].
  destruct (doras_loop [] l); cbn [bindr]; auto. now rewrite app_assoc.
Qed.

(** ** C50: every list of indicators: their targets, in order. *)
Theorem C50_doras : forall indicators targets, Forall2 (fun i l => points_at (fst i) (snd i) l) indicators targets ->
  doras (map printed indicators) = Ok (map printed (concat targets)).
Proof.
  intros is ts H. unfold doras. induction H as [|[n c] l is ts P H IH]; auto. cbn [map doras_loop].
  destruct (points_target _ _ _ P) as [E X]. cbn [fst snd] in *. subst l. rewrite table by now apply all_iff. cbn [bindr].
  rewrite doras_loop_app, IH. cbn [bindr app concat]. now rewrite map_app.
Qed.
(** Every tile points somewhere, so every list of existing tiles is covered; anything else is a KeyError. *)
Theorem C50_total : forall n c, exists_tile n c <-> exists l, points_at n c l.
Proof.
  intros n c. split; [|intros (l & H); now apply points_target in H].
  intros [[S H]|[-> H]].
  - destruct (Z.eq_dec n 4) as [->|]; [eexists; apply pt_four; auto|]. destruct (Z.eq_dec n 0) as [->|]; [eexists; apply pt_red; auto|].
    destruct (Z.eq_dec n 9) as [->|]; [eexists; apply pt_nine; auto|]. eexists. apply pt_suit; auto. lia.
  - destruct (Z.eq_dec n 4) as [->|]; [eexists; apply pt_north; auto|]. destruct (Z.eq_dec n 7) as [->|]; [eexists; apply pt_red_dragon; auto|].
    destruct (Z_lt_le_dec n 4); eexists; [apply pt_wind|apply pt_dragon]; lia.
Qed.
Lemma dora_keys : forallb (fun kv => existsb (fun t => text_eqb (printed t) (fst kv)) ALL) dora_map = true.
Proof. vm_compute. reflexivity. Qed.
Lemma dget_in : forall d k, dget d k <> Err KeyError -> exists v, In (k, v) d.
Proof.
  induction d as [|[k' v] d IH]; intros k H; cbn [dget] in H; [congruence|]. destruct (text_eqb k' k) eqn:E.
  - apply text_eqb_iff in E. subst. exists v. now left.
  - destruct (IH k H) as (w & I). exists w. now right.
Qed.
Theorem C50_unknown : forall before x after, Forall (fun t => exists_tile (fst t) (snd t)) before ->
  (forall n c, exists_tile n c -> x <> printed (n, c)) -> doras (map printed before ++ x :: after) = Err KeyError.
Proof.
  intros before x after F N. unfold doras. assert (X : dget dora_map x = Err KeyError).
  { assert (D : dget dora_map x = Err KeyError \/ dget dora_map x <> Err KeyError).
    { generalize dora_map. intros d. induction d as [|[k v] d IH]; cbn [dget]; auto. destruct (text_eqb k x); auto. right. discriminate. }
    destruct D as [D|D]; auto. exfalso. apply dget_in in D as (v & I). pose proof dora_keys as K. rewrite forallb_forall in K.
    specialize (K _ I). apply existsb_exists in K as ([n c] & It & E). apply text_eqb_iff in E. cbn [fst] in E.
    apply (N n c); [now apply all_iff|auto]. }
  induction F as [|[n c] l P F IH]; cbn [map app doras_loop]; [now rewrite X|].
  rewrite table by (now apply all_iff). cbn [bindr]. rewrite doras_loop_app. now rewrite IH.
Qed.
Example C50_doras_ex : doras (map printed [(4, p); (9, m); (4, z); (0, s)]) = Ok (map printed [(5, p); (0, p); (1, m); (1, z); (6, s)]) /\
  Forall2 (fun i l => points_at (fst i) (snd i) l) [(4, p); (9, m); (4, z); (0, s)] [[(5, p); (0, p)]; [(1, m)]; [(1, z)]; [(6, s)]].
Proof.
  split; [vm_compute; reflexivity|]. 
  apply Forall2_cons; [apply pt_four; unfold suited; auto|]. apply Forall2_cons; [apply pt_nine; unfold suited; auto|].
  apply Forall2_cons; [apply pt_north|]. apply Forall2_cons; [apply pt_red; unfold suited; auto|]. constructor.
Qed.

(** ** C50: the starting tiles. How many of each tile are in play: with three players 2m-8m are left out;
    with red fives each suit that has its fives in play has one red and three plain ones. *)
Definition in_play (players : Z) (n c : Z) : bool := negb ((players =? 3) && (c =? m) && ((n =? 0) || ((2 <=? n) && (n <=? 8)))).
Definition copies (players : Z) (aka : bool) (n c : Z) : nat :=
  if negb (in_play players n c) then 0%nat
  else if n =? 0 then (if aka then 1%nat else 0%nat)
  else if (n =? 5) && negb (c =? z) then (if aka then 3%nat else 4%nat)
  else 4%nat.
Lemma occurs_other : forall x l, (forall y, In y l -> y <> x) -> occurs x l = 0%nat.
Proof.
  intros x l H. unfold occurs. induction l as [|y l IH]; auto. cbn [filter]. rewrite text_eqb_neq.
  - apply IH. intros. apply H. now right.
  - intros E. apply (H y); [now left|auto].
Qed.
Definition tiles_checked (players : Z) (aka : bool) : bool :=
  let l := initial_tiles players aka in
  forallb (fun t => Nat.eqb (occurs (printed t) l) (copies players aka (fst t) (snd t))) ALL &&
  forallb (fun x => existsb (fun t => text_eqb (printed t) x) ALL) l &&
  Nat.eqb (length l) (if players =? 3 then 108%nat else 136%nat).
Lemma initial_depends : forall players aka, initial_tiles players aka = initial_tiles (if players =? 3 then 3 else 4) aka.
Proof. intros players aka. unfold initial_tiles. destruct (players =? 3); reflexivity. Qed.
Theorem C50_initial_tiles : forall players aka,
  (forall n c, exists_tile n c -> occurs (printed (n, c)) (initial_tiles players aka) = copies players aka n c) /\
  (forall x, In x (initial_tiles players aka) -> exists n c, exists_tile n c /\ x = printed (n, c)) /\
  length (initial_tiles players aka) = (if players =? 3 then 108%nat else 136%nat).
Proof.
  intros players aka. rewrite initial_depends.
  assert (G : forall q, q = 3 \/ q = 4 ->
    (forall n c, exists_tile n c -> occurs (printed (n, c)) (initial_tiles q aka) = copies q aka n c) /\
    (forall x, In x (initial_tiles q aka) -> exists n c, exists_tile n c /\ x = printed (n, c)) /\
    length (initial_tiles q aka) = (if q =? 3 then 108%nat else 136%nat)).
  { intros q Q. assert (T : tiles_checked q aka = true) by (destruct Q as [->| ->], aka; vm_compute; reflexivity).
    unfold tiles_checked in T. rewrite !andb_true_iff in T. destruct T as [[T1 T2] T3]. rewrite forallb_forall in T1, T2. split; [|split].
    - intros n c E. apply Nat.eqb_eq. apply (T1 (n, c)). now apply all_iff.
    - intros x I. specialize (T2 x I). apply existsb_exists in T2 as ([n c] & A & B). exists n, c. split; [now apply all_iff|].
      now apply text_eqb_iff in B.
    - now apply Nat.eqb_eq. }
  destruct (Z.eqb_spec players 3) as [->|N].
  - apply (G 3). auto.
  - destruct (G 4 (or_intror eq_refl)) as (A & B & C). split; [|split; auto].
    intros n c E. rewrite A by auto. unfold copies, in_play. now destruct (Z.eqb_spec players 3).
Qed.

Print Assumptions C50_doras.
Print Assumptions C50_total.
Print Assumptions C50_unknown.
Print Assumptions C50_initial_tiles.
