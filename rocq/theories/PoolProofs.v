(** The tile pool is only a cache, as long as numbers are at most 9. *)
From Verif Require Import Base Tile TileSetFacts.
From Coq Require Import List ZArith Lia Bool.
Import ListNotations.
Open Scope Z_scope.

Definition small (n : Z) : Prop := 0 <= n <= 9.
Definition entry_ok (e : Z * tobj) : Prop :=
  fst e = tile_hash_num (o_color (snd e)) (o_number (snd e)) /\ small (o_number (snd e)).
Definition pool_ok (p : pool) : Prop := Forall entry_ok p.
Definition extends (p p' : pool) : Prop := exists q, p' = p ++ q.

Lemma extends_refl : forall p, extends p p.
Proof. intros p. exists []. now rewrite app_nil_r. Qed.
Lemma extends_trans : forall a b c, extends a b -> extends b c -> extends a c.
Proof. intros a b c [q ->] [r ->]. exists (q ++ r). now rewrite app_assoc. Qed.
Lemma pool_find_app : forall h p q o, pool_find h p = Some o -> pool_find h (p ++ q) = Some o.
Proof. induction p as [|[h' o'] p IH]; intros q o; cbn [pool_find app]; [discriminate|]. destruct (h =? h'); auto. Qed.
Lemma pool_find_extends : forall h p p' o, extends p p' -> pool_find h p = Some o -> pool_find h p' = Some o.
Proof. intros h p p' o [q ->]. apply pool_find_app. Qed.
Lemma pool_find_snoc : forall h p o, pool_find h p = None -> pool_find h (p ++ [(h, o)]) = Some o.
Proof.
  induction p as [|[h' o'] p IH]; intros o; cbn [pool_find app]; [now rewrite Z.eqb_refl|].
  destruct (h =? h'); [discriminate|auto].
Qed.
Lemma hash_inj : forall c n c' n', small n -> small n' -> tile_hash_num c n = tile_hash_num c' n' -> c = c' /\ n = n'.
Proof.
  unfold small, tile_hash_num. intros c n c' n' A B E.
  assert (suit_ord c = suit_ord c') by lia. split; [now apply suit_ord_inj|lia].
Qed.
Lemma pool_find_ok : forall p c n o, pool_ok p -> small n -> pool_find (tile_hash_num c n) p = Some o ->
  o_number o = n /\ o_color o = c.
Proof.
  induction p as [|[h' o'] p IH]; intros c n o P S; cbn [pool_find]; [discriminate|].
  inversion P as [|? ? [A B] C]; subst. destruct (Z.eqb_spec (tile_hash_num c n) h') as [E|E]; [|now apply IH].
  intros H; inversion H; subst. cbn [fst snd] in *.
  destruct (hash_inj c n (o_color o) (o_number o)); auto.
Qed.

Lemma pool_new_ok : forall fuel p n c, pool_ok p -> small n -> (Z.to_nat (10 - n) < fuel)%nat ->
  exists p' o, pool_new fuel p n c = Ok (p', o) /\ extends p p' /\ pool_ok p' /\
    o_number o = n /\ o_color o = c /\ pool_find (tile_hash_num c n) p' = Some o.
Proof.
  induction fuel as [|f IH]; intros p n c P S F; [lia|]. cbn [pool_new].
  destruct (pool_find (tile_hash_num c n) p) as [o|] eqn:E.
  - exists p, o. destruct (pool_find_ok _ _ _ _ P S E). repeat split; auto using extends_refl.
  - set (o := mkObj (length p) n c). set (p1 := p ++ [(tile_hash_num c n, o)]).
    assert (P1 : pool_ok p1). { apply Forall_app. split; auto. constructor; auto. split; auto. }
    assert (E1 : extends p p1) by (eexists; reflexivity).
    assert (F1 : pool_find (tile_hash_num c n) p1 = Some o) by now apply pool_find_snoc.
    destruct (is_suit (Plain n c) && (n <=? 9 - 3 + 1)) eqn:Q.
    + apply andb_true_iff in Q. destruct Q as [_ Q]. apply Z.leb_le in Q. unfold small in S.
      destruct f as [|f']; [lia|].
      assert (H0 : pool_new (Datatypes.S f') p1 (n + 0) c = Ok (p1, o)).
      { cbn [pool_new]. rewrite Z.add_0_r, F1. reflexivity. }
      rewrite H0. cbn [bindr fst].
      destruct (IH p1 (n + 1) c) as (p2 & o2 & H2 & X2 & K2 & _); [auto|unfold small; lia|lia|]. rewrite H2. cbn [bindr fst].
      destruct (IH p2 (n + 2) c) as (p3 & o3 & H3 & X3 & K3 & _); [auto|unfold small; lia|lia|]. rewrite H3. cbn [bindr fst].
      assert (X : extends p1 p3) by (eapply extends_trans; eauto).
      exists p3, o. repeat split; auto.
      * eapply extends_trans; eauto.
      * eapply pool_find_extends; eauto.
    + exists p1, o. repeat split; auto.
Qed.

Definition small_ctor (x : ctor) : Prop :=
  match x with CTile n _ => small n | CAka c => c <> Cz end.
Lemma pool_step_ok : forall p x, pool_ok p -> small_ctor x ->
  exists p', pool_step p x = Ok p' /\ extends p p' /\ pool_ok p'.
Proof.
  intros p [n c|c] P S; cbn [pool_step].
  - destruct (pool_new_ok (pool_fuel n) p n c P S) as (p' & o & H & X & K & _); [unfold pool_fuel; lia|].
    exists p'. rewrite H. auto.
  - assert (L : forall n, n = 5 \/ n = 6 \/ n = 7 -> small n /\ (Z.to_nat (10 - n) < pool_fuel 5)%nat).
    { intros m Hm. unfold small, pool_fuel. lia. }
    destruct (pool_new_ok (pool_fuel 5) p 5 c P) as (p1 & o1 & H1 & X1 & K1 & _); [apply L; auto|apply L; auto|].
    destruct (pool_new_ok (pool_fuel 5) p1 6 c K1) as (p2 & o2 & H2 & X2 & K2 & _); [apply L; auto|apply L; auto|].
    destruct (pool_new_ok (pool_fuel 5) p2 7 c K2) as (p3 & o3 & H3 & X3 & K3 & _); [apply L; auto|apply L; auto|].
    exists p3. split; [|split; [eapply extends_trans; [|eapply extends_trans]; eauto|auto]].
    unfold pool_aka. destruct c; [| | |destruct S; reflexivity];
      change (0 + 5 + 0) with 5; change (0 + 5 + 1) with 6; change (0 + 5 + 2) with 7;
      rewrite H1; cbn [bindr fst]; rewrite H2; cbn [bindr fst]; rewrite H3; reflexivity.
Qed.
Lemma pool_run_ok : forall calls p, pool_ok p -> Forall small_ctor calls ->
  exists p', pool_run p calls = Ok p' /\ extends p p' /\ pool_ok p'.
Proof.
  induction calls as [|x r IH]; intros p P F; cbn [pool_run]; [exists p; auto using extends_refl|].
  inversion F as [|? ? A B]; subst. destruct (pool_step_ok p x P A) as (p1 & H1 & X1 & K1). rewrite H1. cbn [bindr].
  destruct (IH p1 K1 B) as (p2 & H2 & X2 & K2). exists p2. split; auto. split; auto. eapply extends_trans; eauto.
Qed.

Theorem pool_is_cache : forall before n c between, Forall small_ctor before -> small n -> Forall small_ctor between ->
  exists p p1 o p2, pool_run [] before = Ok p /\ pool_new (pool_fuel n) p n c = Ok (p1, o) /\
    o_number o = n /\ o_color o = c /\
    pool_run p1 between = Ok p2 /\ pool_new (pool_fuel n) p2 n c = Ok (p2, o).
Proof.
  intros before n c between B S F.
  destruct (pool_run_ok before [] ltac:(constructor) B) as (p & H & _ & P).
  destruct (pool_new_ok (pool_fuel n) p n c P S) as (p1 & o & H1 & X1 & K1 & N & C & G); [unfold pool_fuel; lia|].
  destruct (pool_run_ok between p1 K1 F) as (p2 & H2 & X2 & K2).
  exists p, p1, o, p2. repeat split; auto.
  unfold pool_fuel. replace (Z.to_nat (10 - n) + 2)%nat with (Datatypes.S (Z.to_nat (10 - n) + 1)) by lia. cbn [pool_new].
  rewrite (pool_find_extends _ _ _ _ X2 G). reflexivity.
Qed.
