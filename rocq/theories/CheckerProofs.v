(** Facts about the checker model: counting unseen tiles, merging, sorting, zipping. *)
From Verif Require Import Base Category Tile TileSet Spec_Tile TileSetFacts Win Spec_Win WinFacts WinProofs Waiting Spec_Waiting WaitingFacts WaitingPM WaitingHeurTop Spec_Hand WaitingTop.
From Verif Require Import Parse Text Tenhou TenhouProofs Spec_Meld MeldProofs Prop_Meld Event State Checker Spec_Checker.
From Coq Require Import String List ZArith QArith Lia Bool Permutation.
Import ListNotations.
Open Scope list_scope.
Open Scope Z_scope.

(** ** Counting. *)
Definition numbers (s : list inv) : list Z := flat_map (fun x => match x with ITile n => [n] | _ => [] end) s.
Lemma in_numbers s n : In n (numbers s) <-> In (ITile n) s.
Proof.
  unfold numbers. rewrite in_flat_map. split.
  - intros ([m|a b c] & I & J); cbn in J; [|destruct J]. destruct J as [->|[]]. exact I.
  - intro I. exists (ITile n). split; [exact I|now left].
Qed.
Lemma numbers_nodup s : NoDup s -> NoDup (numbers s).
Proof.
  induction 1 as [|x l N D IH]; [constructor|]. destruct x as [n|a b c]; [|exact IH].
  cbn. constructor; [|exact IH]. rewrite in_numbers. exact N.
Qed.
Lemma inv_eqb_iff x y : inv_eqb x y = true <-> x = y.
Proof.
  destruct x, y; cbn; split; intro H; try discriminate; try (injection H; intros; subst); rewrite ?andb_true_iff, ?Z.eqb_eq in *.
  - now subst.
  - reflexivity.
  - destruct H as [[-> ->] ->]. reflexivity.
  - auto.
Qed.
Lemma inv_mem_iff n s : inv_mem n s = true <-> In (ITile n) s.
Proof.
  unfold inv_mem. rewrite existsb_exists. split.
  - intros (x & I & E). apply inv_eqb_iff in E. now subst.
  - intro I. exists (ITile n). split; [exact I|now apply inv_eqb_iff].
Qed.

Lemma range_ok t : exists r, tile_to_tenhou_range t = Ok r.
Proof. destruct t as [n c|c]; [rewrite range_plain; eauto|destruct c; eexists; reflexivity]. Qed.
Lemma copies_ok s t : exists n, copies s t = Ok n /\ 0 <= n.
Proof. unfold copies. destruct (range_ok t) as [r ->]. cbn [bindr]. eexists. split; [reflexivity|lia]. Qed.
Lemma useful_count_ok s u : exists n, useful_count s u = Ok n /\ 0 <= n.
Proof.
  unfold useful_count. assert (exists l, mapM (copies s) u = Ok l /\ 0 <= sumZ (fun x => x) l) as (l & -> & H).
  { induction u as [|t u IH]; [exists []; split; [reflexivity|cbn; lia]|]. destruct IH as (l & E & H). destruct (copies_ok s t) as (n & E' & H').
    exists (n :: l). cbn [mapM]. rewrite E'. cbn [bindr]. rewrite E. cbn [bindr sumZ]. split; [reflexivity|lia]. }
  cbn [bindr]. eauto.
Qed.
Lemma useful_count_cons s t u : useful_count s (t :: u) = do a <- copies s t; do b <- useful_count s u; Ok (a + b).
Proof.
  unfold useful_count. cbn [mapM]. destruct (copies s t); [|reflexivity]. cbn [bindr].
  destruct (mapM (copies s) u); reflexivity.
Qed.

(** The copies of a plain tile are counted right. *)
Definition plain_tile (t : tile) : Prop := exists n c, t = Plain n c.
Lemma copies_plain s t n : NoDup s -> plain_tile t -> legal_kind (view t) -> copies s t = Ok n ->
  exists l, NoDup l /\ (forall m, In m l <-> In (ITile m) s /\ valid_tile m /\ face m = view t) /\ Z.of_nat (length l) = n.
Proof.
  intros N (a & c & ->) L. unfold copies. destruct (C05_range_partial a c L) as (r & -> & Nr & R). cbn [bindr].
  intro E. apply Ok_inj in E. subst n. eexists. split; [|split; [|reflexivity]].
  - apply NoDup_filter. unfold set_of. apply NoDup_nodup.
  - intro m. rewrite filter_In. unfold set_of. rewrite nodup_In, R, inv_mem_iff. cbn [view]. tauto.
Qed.
Lemma disjoint_app {A} (l m : list A) : NoDup l -> NoDup m -> (forall t, In t l -> In t m -> False) -> NoDup (l ++ m).
Proof.
  intros Nl Nm H. induction Nl as [|x l N D IH]; [exact Nm|]. cbn. constructor.
  - rewrite in_app_iff. intros [I|I]; [exact (N I)|]. apply (H x); [now left|exact I].
  - apply IH. intros t I J. apply (H t); [now right|exact J].
Qed.
Lemma useful_plain s u n : NoDup s -> Forall plain_tile u -> Forall (fun t => legal_kind (view t)) u -> NoDup (map view u) ->
  useful_count s u = Ok n -> counts_unseen (fun t => In (ITile t) s) (map view u) n.
Proof.
  intros N. revert n. induction u as [|t u IH]; intros n P L D E.
  - apply Ok_inj in E. cbn in E. subst n. exists []. split; [constructor|split; [|reflexivity]]. intro t. cbn. tauto.
  - inversion P as [|? ? P1 P2]; inversion L as [|? ? L1 L2]; inversion D as [|? ? D1 D2]; subst.
    rewrite useful_count_cons in E. destruct (copies s t) as [a|] eqn:Ea; [|discriminate]. cbn [bindr] in E.
    destruct (useful_count s u) as [b|] eqn:Eb; [|discriminate]. cbn [bindr] in E. apply Ok_inj in E. subst n.
    destruct (copies_plain s t a N P1 L1 Ea) as (l1 & N1 & I1 & Q1).
    destruct (IH b P2 L2 D2 eq_refl) as (l2 & N2 & I2 & Q2).
    exists (l1 ++ l2). split; [|split].
    + apply disjoint_app; auto. intros m X Y. apply I1 in X. apply I2 in Y. destruct X as (_ & _ & X), Y as (_ & _ & Y).
      apply D1. now rewrite <- X.
    + intro m. rewrite in_app_iff, I1, I2. cbn [map In]. split.
      * intros [(A & B & C)|(A & B & C)]; (split; [exact A|split; [exact B|]]); [left; now symmetry|now right].
      * intros (A & B & [C|C]); [left|right]; (split; [exact A|split; [exact B|]]); [now symmetry|exact C].
    + rewrite app_length. lia.
Qed.

(** ** [min] of a list. *)
Lemma min_list_least l m : min_list l = Ok m -> In m l /\ forall x, In x l -> m <= x.
Proof.
  revert m. induction l as [|x r IH]; intros m E; [discriminate|]. cbn [min_list] in E.
  destruct (min_list r) as [y|] eqn:R.
  - apply Ok_inj in E. subst m. destruct (IH y eq_refl) as [A B]. split.
    + destruct (Z.min_spec x y) as [[_ ->]|[_ ->]]; [now left|now right].
    + intros z [->|Z]; [lia|]. specialize (B z Z). lia.
  - apply Ok_inj in E. subst m. destruct r as [|z r]; [|cbn [min_list] in R; destruct (min_list r); discriminate].
    split; [now left|]. intros z [->|[]]. lia.
Qed.
Lemma min_list_some x l : exists m, min_list (x :: l) = Ok m.
Proof. cbn [min_list]. destruct (min_list l); eauto. Qed.

(** ** Sorting and the first group. *)
Definition key_lt (a b : Z * Z) : Prop := fst a < fst b \/ (fst a = fst b /\ snd a < snd b).
Definition key_le (a b : Z * Z) : Prop := fst a < fst b \/ (fst a = fst b /\ snd a <= snd b).
Lemma key_ltb_iff a b : key_ltb a b = true <-> key_lt a b.
Proof. unfold key_ltb, key_lt. rewrite orb_true_iff, andb_true_iff, !Z.ltb_lt, Z.eqb_eq. tauto. Qed.
Lemma key_ltb_false a b : key_ltb a b = false <-> key_le b a.
Proof.
  destruct (key_ltb a b) eqn:E.
  - apply key_ltb_iff in E. unfold key_lt, key_le in *. split; [discriminate|lia].
  - split; [intros _|reflexivity]. assert (~ key_lt a b) as H by (rewrite <- key_ltb_iff, E; discriminate).
    unfold key_lt, key_le in *. lia.
Qed.
Lemma key_eqb_iff a b : key_eqb a b = true <-> a = b.
Proof. destruct a, b. unfold key_eqb. cbn. rewrite andb_true_iff, !Z.eqb_eq. split; [intros [-> ->]; reflexivity|intro H; injection H; auto]. Qed.

Inductive sorted_keys : list item -> Prop :=
| sk_nil : sorted_keys []
| sk_cons x l : Forall (fun y => key_le (key_of x) (key_of y)) l -> sorted_keys l -> sorted_keys (x :: l).
Lemma sort_insert_perm x l : Permutation (x :: l) (sort_insert x l).
Proof.
  induction l as [|y l IH]; [reflexivity|]. cbn [sort_insert]. destruct (key_ltb (key_of x) (key_of y)); [reflexivity|].
  rewrite perm_swap. now constructor.
Qed.
Lemma sort_items_perm l : Permutation l (sort_items l).
Proof.
  unfold sort_items. assert (H : forall l a, Permutation (a ++ l) (fold_left (fun a x => sort_insert x a) l a)).
  { clear l. induction l as [|x l IH]; intro a; [now rewrite app_nil_r|]. cbn [fold_left]. rewrite <- IH.
    rewrite <- sort_insert_perm. cbn. now rewrite Permutation_middle. }
  apply (H l []).
Qed.
Lemma key_le_trans a b c : key_le a b -> key_le b c -> key_le a c.
Proof. unfold key_le. lia. Qed.
Lemma sort_insert_sorted x l : sorted_keys l -> sorted_keys (sort_insert x l).
Proof.
  induction 1 as [|y l F S IH]; [repeat constructor|]. cbn [sort_insert]. destruct (key_ltb (key_of x) (key_of y)) eqn:E.
  - apply key_ltb_iff in E. constructor; [|now constructor]. constructor; [unfold key_le, key_lt in *; lia|].
    eapply Forall_impl; [|exact F]. cbn. intros z Q. unfold key_le, key_lt in *. lia.
  - apply key_ltb_false in E. constructor; [|exact IH].
    eapply Permutation_Forall; [apply sort_insert_perm|]. constructor; assumption.
Qed.
Lemma sort_items_sorted l : sorted_keys (sort_items l).
Proof.
  unfold sort_items. assert (H : forall l a, sorted_keys a -> sorted_keys (fold_left (fun a x => sort_insert x a) l a)).
  { clear l. induction l as [|x l IH]; intros a S; [exact S|]. cbn. apply IH. now apply sort_insert_sorted. }
  apply H. constructor.
Qed.
Lemma take_key_split k l : sorted_keys l -> (forall x, In x l -> key_le k (key_of x)) ->
  exists rest, l = take_key k l ++ rest /\ Forall (fun x => key_of x = k) (take_key k l) /\ Forall (fun x => key_lt k (key_of x)) rest.
Proof.
  induction 1 as [|x l F S IH]; intros B; [exists []; repeat constructor|]. cbn [take_key].
  destruct (key_eqb (key_of x) k) eqn:E.
  - apply key_eqb_iff in E. destruct IH as (rest & E1 & E2 & E3); [intros y Y; apply B; now right|].
    exists rest. cbn [app]. rewrite <- E1. repeat split; auto.
  - exists (x :: l). repeat split; [constructor|]. assert (K : key_lt k (key_of x)).
    { specialize (B x (or_introl eq_refl)). assert (key_of x <> k) by (rewrite <- key_eqb_iff, E; discriminate).
      destruct k as [k1 k2], (key_of x) as [a b]. unfold key_le, key_lt in *. cbn in *. destruct (Z.eq_dec a k1); destruct (Z.eq_dec b k2); subst; try congruence; lia. }
    constructor; [exact K|]. eapply Forall_impl; [|exact F]. cbn. intros z Q. unfold key_le, key_lt in *. lia.
Qed.
Lemma first_group_split l g : sorted_keys l -> first_group l = Ok g ->
  exists x g' rest, g = x :: g' /\ l = g ++ rest /\ Forall (fun y => key_of y = key_of x) g /\ Forall (fun y => key_lt (key_of x) (key_of y)) rest.
Proof.
  intros S E. destruct l as [|x l]; [discriminate|]. cbn [first_group] in E. apply Ok_inj in E. subst g.
  destruct (take_key_split (key_of x) (x :: l) S) as (rest & E1 & E2 & E3).
  { inversion S as [|? ? F S']; subst. intros y [<-|Y]; [unfold key_le; lia|]. rewrite Forall_forall in F. auto. }
  assert (Q : take_key (key_of x) (x :: l) = x :: take_key (key_of x) l).
  { cbn [take_key]. replace (key_eqb (key_of x) (key_of x)) with true; [reflexivity|]. symmetry. now apply key_eqb_iff. }
  exists x, (take_key (key_of x) l), rest. auto.
Qed.

(** ** zip. *)
Lemma zip_one {A} (l : list A) : zip_star [l] = map (fun x => [x]) l.
Proof. unfold zip_star. induction l as [|x l IH]; [reflexivity|]. cbn in *. now rewrite IH. Qed.
Lemma zip_two {A} (a b : list A) : zip_star [a; b] = map (fun p => [fst p; snd p]) (combine a b).
Proof.
  unfold zip_star. revert b. induction a as [|x a IH]; intros [|y b]; try reflexivity. cbn. f_equal. apply IH.
Qed.
