From Verif Require Import Base Transfer Spec_Transfer.
From Coq Require Import List ZArith Lia Bool Arith.
Import ListNotations.

Section P.
Context {K V : Type} (keqb : K -> K -> bool) (Keq : forall a b, keqb a b = true <-> a = b).
Notation tree := (tree K V).
Notation heap := (heap K V).
Notation obj := (obj K V).
Notation pyv := (pyv K V).

Fixpoint tree_ind' (P : tree -> Prop) (HL : forall v, P (TLeaf v))
  (HN : forall kids, Forall (fun e => P (snd e)) kids -> P (TNode kids)) (t : tree) : P t :=
  match t with
  | TLeaf v => HL v
  | TNode kids => HN kids ((fix go l : Forall (fun e => P (snd e)) l :=
      match l with [] => Forall_nil _ | e :: r => Forall_cons e (tree_ind' P HL HN (snd e)) (go r) end) kids)
  end.

Fixpoint depth (t : tree) : nat :=
  match t with
  | TLeaf _ => 0
  | TNode kids => S (fold_right (fun e a => Nat.max (depth (snd e)) a) 0%nat kids)
  end.

(** The dictionary object [a], with the given parent link, reads as [t]; the children's
    links are right as well. *)
Fixpoint good (h : heap) (par : option (nat * K)) (a : nat) (t : tree) {struct t} : Prop :=
  match t with
  | TLeaf _ => False
  | TNode kids =>
    exists items, lookup_obj h a = Some (mkObj par items) /\
    (fix go items kids {struct kids} : Prop :=
      match items, kids with
      | [], [] => True
      | (k, c) :: items', (k', t') :: kids' =>
          k = k' /\ (match c with
                     | Leaf v => t' = TLeaf v
                     | Ref b => good h (Some (a, k)) b t'
                     end) /\ go items' kids'
      | _, _ => False
      end) items kids
  end.
Definition cell_good (h : heap) (a : nat) (k : K) (c : cell V) (t : tree) : Prop :=
  match c with Leaf v => t = TLeaf v | Ref b => good h (Some (a, k)) b t end.
Definition items_good (h : heap) (a : nat) (items : list (K * cell V)) (kids : list (K * tree)) : Prop :=
  Forall2 (fun i e => fst i = fst e /\ cell_good h a (fst i) (snd i) (snd e)) items kids.

Lemma good_node h par a kids : good h par a (TNode kids) <->
  exists items, lookup_obj h a = Some (mkObj par items) /\ items_good h a items kids.
Proof.
  cbn. split; intros [items [L G]]; exists items; (split; [exact L|]).
  - clear L. revert kids G. induction items as [|[k c] items IH]; intros [|[k' t'] kids] G; try contradiction.
    + constructor.
    + destruct G as [E [G R]]. constructor; [|apply IH; exact R]. cbn. split; [exact E|exact G].
  - clear L. induction G as [|[k c] [k' t'] items kids [E G] F IH]; [exact I|].
    cbn in E, G. split; [exact E|]. split; [exact G|exact IH].
Qed.
Lemma good_dict h par a t : good h par a t -> exists kids, t = TNode kids.
Proof. destruct t; [intros []|eauto]. Qed.

Definition extends (h h' : heap) : Prop := forall a o, lookup_obj h a = Some o -> lookup_obj h' a = Some o.
Definition fresh (h : heap) : Prop := forall a, (next h <= a)%nat -> lookup_obj h a = None.
(** [h'] agrees with [h] on everything older than [n]. *)
Definition grown (h h' : heap) : Prop :=
  (next h <= next h')%nat /\ fresh h' /\ forall a, (a < next h)%nat -> lookup_obj h' a = lookup_obj h a.

Lemma fresh_lt h a o : fresh h -> lookup_obj h a = Some o -> (a < next h)%nat.
Proof. intros F L. destruct (Nat.lt_ge_cases a (next h)) as [?|H]; [assumption|]. rewrite (F a H) in L. discriminate. Qed.
Lemma grown_extends h h' : fresh h -> grown h h' -> extends h h'.
Proof. intros F [_ [_ E]] a o L. rewrite E; [exact L|]. exact (fresh_lt h a o F L). Qed.
Lemma grown_refl h : fresh h -> grown h h.
Proof. intro F. split; [lia|]. split; [exact F|]. reflexivity. Qed.
Lemma grown_trans h1 h2 h3 : grown h1 h2 -> grown h2 h3 -> grown h1 h3.
Proof.
  intros [A [B C]] [A' [B' C']]. split; [lia|]. split; [exact B'|].
  intros a H. rewrite C' by lia. apply C; exact H.
Qed.

Lemma good_mono h h' : extends h h' -> forall t par a, good h par a t -> good h' par a t.
Proof.
  intro E. refine (tree_ind' _ _ _).
  - intros v par a [].
  - intros kids IH par a G. apply good_node in G. destruct G as [items [L F]].
    apply good_node. exists items. split; [apply E; exact L|].
    clear L. unfold items_good in *. induction F as [|i e items kids [A B] F IHF]; [constructor|].
    inversion IH as [|? ? I1 I2]; subst. constructor; [|apply IHF; exact I2].
    split; [exact A|]. unfold cell_good in *. destruct (snd i); [exact B|]. apply I1; exact B.
Qed.

(** What a constructor argument stands for. *)
Fixpoint pyreads (h : heap) (v : pyv) (t : tree) {struct v} : Prop :=
  match v with
  | PLeaf x => t = TLeaf x
  | PRef a => exists par, good h par a t
  | PDict d =>
    exists kids, t = TNode kids /\
    (fix go d kids : Prop :=
      match d, kids with
      | [], [] => True
      | (k, v) :: d', (k', t') :: kids' => k = k' /\ pyreads h v t' /\ go d' kids'
      | _, _ => False
      end) d kids
  end.
Definition pairs_read (h : heap) (d : list (K * pyv)) (kids : list (K * tree)) : Prop :=
  Forall2 (fun i e => fst i = fst e /\ pyreads h (snd i) (snd e)) d kids.
Lemma pyreads_dict h d t : pyreads h (PDict d) t <-> exists kids, t = TNode kids /\ pairs_read h d kids.
Proof.
  cbn. split; intros [kids [E G]]; exists kids; (split; [exact E|]); clear E.
  - revert kids G. induction d as [|[k v] d IH]; intros [|[k' t'] kids] G; try contradiction.
    + constructor.
    + destruct G as [A [B C]]. constructor; [split; [exact A|exact B]|]. apply IH; exact C.
  - induction G as [|[k v] [k' t'] d kids [A B] F IH]; [exact I|]. cbn in A, B. split; [exact A|]. split; [exact B|exact IH].
Qed.

Fixpoint pyv_ind' (P : pyv -> Prop) (HL : forall v, P (PLeaf v)) (HR : forall a, P (PRef a))
  (HD : forall l, Forall (fun e => P (snd e)) l -> P (PDict l)) (v : pyv) : P v :=
  match v with
  | PLeaf v => HL v
  | PRef a => HR a
  | PDict l => HD l ((fix go l : Forall (fun e => P (snd e)) l :=
      match l with [] => Forall_nil _ | e :: r => Forall_cons e (pyv_ind' P HL HR HD (snd e)) (go r) end) l)
  end.

Lemma pyreads_mono h h' : extends h h' -> forall v t, pyreads h v t -> pyreads h' v t.
Proof.
  intro E. refine (pyv_ind' _ _ _ _).
  - intros v t G. exact G.
  - intros a t [par G]. exists par. exact (good_mono h h' E t par a G).
  - intros l IH t G. apply pyreads_dict in G. destruct G as [kids [X F]]. apply pyreads_dict. exists kids. split; [exact X|].
    clear X. unfold pairs_read in *. induction F as [|i e l kids [A B] F IHF]; [constructor|].
    inversion IH as [|? ? I1 I2]; subst. constructor; [|apply IHF; exact I2]. split; [exact A|]. apply I1; exact B.
Qed.
Lemma pairs_read_mono h h' : extends h h' -> forall d kids, pairs_read h d kids -> pairs_read h' d kids.
Proof.
  intros E d kids F. unfold pairs_read in *. induction F as [|i e l kids [A B] F IHF]; constructor; [|exact IHF].
  split; [exact A|]. exact (pyreads_mono h h' E _ _ B).
Qed.

Lemma as_dict_reads h a items kids : items_good h a items kids -> pairs_read h (as_dict items) kids.
Proof.
  intro F. unfold pairs_read, as_dict. induction F as [|i e items kids [A B] F IH]; cbn [map]; constructor; [|exact IH].
  cbn [fst snd]. split; [exact A|]. unfold cell_good in B. destruct (snd i); cbn; [exact B|]. exists (Some (a, fst i)). exact B.
Qed.

Lemma lookup_write (h : heap) a o b : lookup_obj (write h a o) b = if Nat.eqb a b then Some o else lookup_obj h b.
Proof. reflexivity. Qed.

(** What the construction achieves. *)
Definition built (h : heap) (par : option (nat * K)) (kids : list (K * tree)) (r : res (heap * nat)) : Prop :=
  exists h', r = Ok (h', next h) /\ grown h h' /\ good h' par (next h) (TNode kids).

Lemma new_td_spec : forall fuel h par d kids,
  fresh h -> pairs_read h d kids -> (depth (TNode kids) <= fuel)%nat -> built h par kids (new_td fuel h par d).
Proof.
  induction fuel as [|f IH]; intros h par d kids Fr R D; [cbn in D; lia|].
  cbn [new_td]. set (self := next h).
  match goal with |- built _ _ _ (bindr (?tr _ _) _) => set (transfer := tr) end.
  assert (T : forall d kids g, fresh g -> (S self <= next g)%nat -> pairs_read g d kids ->
     (fold_right (fun e a => Nat.max (depth (snd e)) a) 0%nat kids <= f)%nat ->
     exists g' items, transfer g d = Ok (g', items) /\ grown g g' /\ items_good g' self items kids).
  { clear d kids R D. induction d as [|[k v] d IHd]; intros kids g Fg Ng R D; inversion R as [|? [k' t'] ? kids' [A B] R']; subst.
    - exists g, []. cbn. split; [reflexivity|]. split; [apply grown_refl; exact Fg|constructor].
    - cbn [fst snd] in A, B. subst k'. cbn [fold_right snd] in D.
      assert (X : exists g1 c, (match v with
                 | PLeaf v => Ok (g, Leaf v)
                 | PDict d => do y <- new_td f g (Some (self, k)) d; Ok (fst y, Ref (snd y))
                 | PRef a => match lookup_obj g a with
                             | Some o => do y <- new_td f g (Some (self, k)) (as_dict (o_items o)); Ok (fst y, Ref (snd y))
                             | None => Err AttributeError
                             end
                 end) = Ok (g1, c) /\ grown g g1 /\ cell_good g1 self k c t').
      { destruct v as [x|l|a].
        - exists g, (Leaf x). split; [reflexivity|]. split; [apply grown_refl; exact Fg|]. exact B.
        - apply pyreads_dict in B. destruct B as [ks [-> B]].
          destruct (IH g (Some (self, k)) l ks Fg B ltac:(lia)) as [g1 [E [G1 G2]]].
          rewrite E. cbn. exists g1, (Ref (next g)). auto.
        - destruct B as [par' B]. destruct (good_dict _ _ _ _ B) as [ks ->].
          pose proof B as B0. apply good_node in B. destruct B as [items [L F]]. rewrite L. cbn [o_items].
          destruct (IH g (Some (self, k)) (as_dict items) ks Fg (as_dict_reads _ _ _ _ F) ltac:(lia)) as [g1 [E [G1 G2]]].
          rewrite E. cbn. exists g1, (Ref (next g)). auto. }
      destruct X as [g1 [c [E [G1 C1]]]].
      assert (Ex : extends g g1) by (apply grown_extends; assumption).
      destruct (IHd kids' g1) as [g' [items [E' [G' I']]]].
      + apply G1.
      + destruct G1 as [? _]. lia.
      + exact (pairs_read_mono _ _ Ex _ _ R').
      + lia.
      + exists g', ((k, c) :: items). split.
        { change (transfer g ((k, v) :: d)) with
            (do x <- (match v with
                 | PLeaf v => Ok (g, Leaf v)
                 | PDict d => do y <- new_td f g (Some (self, k)) d; Ok (fst y, Ref (snd y))
                 | PRef a => match lookup_obj g a with
                             | Some o => do y <- new_td f g (Some (self, k)) (as_dict (o_items o)); Ok (fst y, Ref (snd y))
                             | None => Err AttributeError
                             end
                 end); do xs <- transfer (fst x) d; Ok (fst xs, (k, snd x) :: snd xs)).
          rewrite E. cbn [bindr fst snd]. rewrite E'. reflexivity. }
        split; [exact (grown_trans _ _ _ G1 G')|].
        constructor; [|exact I']. cbn [fst snd]. split; [reflexivity|].
        assert (Ex' : extends g1 g') by (apply grown_extends; [apply G1|exact G']).
        unfold cell_good in *. destruct c; [exact C1|]. exact (good_mono _ _ Ex' _ _ _ C1). }
  set (h0 := mkHeap (cells h) (S self)).
  assert (F0 : fresh h0).
  { intros a Ha. apply Fr. unfold h0, self in Ha; cbn in Ha. lia. }
  assert (E0 : extends h h0) by (intros a o L; exact L).
  destruct (T d kids h0 F0 ltac:(unfold h0; cbn; lia) (pairs_read_mono _ _ E0 _ _ R) ltac:(cbn in D; lia)) as [g' [items [E [G I']]]].
  rewrite E. cbn [bindr fst snd]. exists (write g' self (mkObj par items)). split; [reflexivity|].
  assert (Z : lookup_obj g' self = None).
  { destruct G as [_ [_ G]]. rewrite G by (unfold h0; cbn; lia). apply Fr. unfold self; lia. }
  assert (EW : extends g' (write g' self (mkObj par items))).
  { intros a o L. rewrite lookup_write. destruct (Nat.eqb_spec self a) as [<-|]; [congruence|exact L]. }
  split.
  - destruct G as [G1 [G2 G3]]. unfold h0 in G1, G3; cbn in G1, G3. split; [cbn; lia|]. split.
    + intros a Ha. cbn in Ha. rewrite lookup_write. destruct (Nat.eqb_spec self a); [subst a; lia|]. apply G2; exact Ha.
    + intros a Ha. rewrite lookup_write. destruct (Nat.eqb_spec self a); [subst a; unfold self in Ha; lia|].
      rewrite G3 by (unfold self; lia). reflexivity.
  - apply good_node. exists items. split.
    + rewrite lookup_write. unfold self. rewrite Nat.eqb_refl. reflexivity.
    + unfold items_good in *. fold self. revert EW. generalize (write g' self (mkObj par items)). intros gw EW. clear -I' EW. induction I' as [|i e items0 kids [A B] F IH0]; constructor; [|exact IH0].
      split; [exact A|]. unfold cell_good in *. destruct (snd i); [exact B|]. exact (good_mono _ _ EW _ _ _ B).
Qed.

(** * Walking from a root *)
Lemma entry_get {A} (d : list (K * A)) k : dict_get keqb d k = entry keqb d k.
Proof. induction d as [|[k' v] d IH]; cbn; [reflexivity|]. destruct (keqb k' k); auto. Qed.

Definition tput (t : tree) (k : K) (v : tree) : tree :=
  match t with TNode kids => TNode (dict_put keqb kids k v) | TLeaf x => TLeaf x end.
(** Replace what is found at a path. *)
Fixpoint treplace (t : tree) (path : list K) (v : tree) : tree :=
  match path with
  | [] => v
  | k :: r => match t with
              | TLeaf x => TLeaf x
              | TNode kids => match entry keqb kids k with
                              | Some s => TNode (dict_put keqb kids k (treplace s r v))
                              | None => TNode kids
                              end
              end
  end.

Inductive chain (h : heap) (root : nat) (T : tree) : list K -> option (nat * K) -> nat -> tree -> Prop :=
| chain_root : good h None root T -> chain h root T [] None root T
| chain_down : forall path par a kids items k b t,
    chain h root T path par a (TNode kids) ->
    lookup_obj h a = Some (mkObj par items) ->
    dict_get keqb items k = Some (Ref b) ->
    entry keqb kids k = Some t -> good h (Some (a, k)) b t ->
    chain h root T (path ++ [k]) (Some (a, k)) b t.

Lemma chain_good h root T path par a t : chain h root T path par a t -> good h par a t.
Proof. intro C. destruct C; assumption. Qed.
Lemma at_path_app (t : tree) p q : at_path keqb t (p ++ q) = match at_path keqb t p with Some s => at_path keqb s q | None => None end.
Proof.
  revert t. induction p as [|k p IH]; intro t; cbn; [reflexivity|].
  destruct t as [|kids]; [reflexivity|]. destruct (entry keqb kids k); [apply IH|reflexivity].
Qed.
Lemma chain_at h root T path par a t : chain h root T path par a t -> at_path keqb T path = Some t.
Proof.
  intro C. induction C; [reflexivity|]. rewrite at_path_app, IHC. cbn. rewrite H1. reflexivity.
Qed.
Lemma chain_mono h h' root T path par a t : extends h h' -> chain h root T path par a t -> chain h' root T path par a t.
Proof.
  intros E C. induction C.
  - constructor. exact (good_mono _ _ E _ _ _ H).
  - econstructor; eauto. exact (good_mono _ _ E _ _ _ H2).
Qed.
Lemma treplace_app t p q v : (exists s, at_path keqb t p = Some s) ->
  treplace t (p ++ q) v = match at_path keqb t p with Some s => treplace t p (treplace s q v) | None => t end.
Proof.
  revert t. induction p as [|k p IH]; intros t [s H]; cbn in *; [reflexivity|].
  destruct t as [|kids]; [discriminate|]. destruct (entry keqb kids k) as [s'|] eqn:E; [|discriminate].
  rewrite IH by eauto. rewrite H. reflexivity.
Qed.

Lemma dict_put_reads h items kids k v t a :
  items_good h a items kids -> pyreads h v t -> pairs_read h (dict_put keqb (as_dict items) k v) (dict_put keqb kids k t).
Proof.
  intros F R. apply as_dict_reads in F. induction F as [|i e d kids' [A B] F IH]; cbn.
  - constructor; [|constructor]. split; [reflexivity|exact R].
  - destruct i as [k1 v1], e as [k2 t2]. cbn in A, B. subst k2. destruct (keqb k1 k).
    + constructor; [split; [reflexivity|exact R]|exact F].
    + constructor; [split; [reflexivity|exact B]|exact IH].
Qed.
Lemma depth_put (kids : list (K * tree)) k v :
  (depth (TNode (dict_put keqb kids k v)) <= S (Nat.max (depth v) (depth (TNode kids))))%nat.
Proof.
  cbn [depth]. apply le_n_S. induction kids as [|[k' t'] kids IH]; cbn [dict_put fold_right snd]; [lia|].
  destruct (keqb k' k); cbn [fold_right snd]; lia.
Qed.
Lemma depth_kid (kids : list (K * tree)) k t : entry keqb kids k = Some t -> (depth t < depth (TNode kids))%nat.
Proof.
  cbn [depth]. induction kids as [|[k' t'] kids IH]; cbn [entry fold_right snd]; [discriminate|].
  destruct (keqb k' k); intro H; [injection H as ->; lia|]. specialize (IH H). lia.
Qed.
Lemma depth_put_le (kids : list (K * tree)) k v D : (depth v < D)%nat -> (depth (TNode kids) <= D)%nat -> (depth (TNode (dict_put keqb kids k v)) <= D)%nat.
Proof.
  cbn [depth]. intros H1 H2. induction kids as [|[k' t'] kids IH]; cbn [dict_put fold_right snd] in *; [lia|].
  destruct (keqb k' k); cbn [fold_right snd]; [lia|]. specialize (IH ltac:(lia)). lia.
Qed.

Lemma chain_depth h root T path par a t : chain h root T path par a t -> (length path + depth t <= depth T)%nat.
Proof.
  intro C. induction C; [cbn; lia|]. rewrite app_length. cbn [length]. apply depth_kid in H1. lia.
Qed.
Lemma chain_snoc_inv h root T path k par a t : chain h root T (path ++ [k]) par a t ->
  exists par0 a0 kids0 items0, par = Some (a0, k) /\ chain h root T path par0 a0 (TNode kids0) /\
    lookup_obj h a0 = Some (mkObj par0 items0) /\ dict_get keqb items0 k = Some (Ref a) /\ entry keqb kids0 k = Some t.
Proof.
  intro C. inversion C.
  - destruct path; discriminate.
  - match goal with H : _ ++ [_] = _ ++ [_] |- _ => apply app_inj_tail in H; destruct H; subst end.
    eexists _, _, _, _. split; [reflexivity|]. split; [eassumption|]. split; [eassumption|]. split; assumption.
Qed.

(** More fuel changes nothing. *)
Lemma new_td_more : forall fuel (h : heap) par (d : list (K * pyv)) r, new_td fuel h par d = Ok r -> forall fuel', (fuel <= fuel')%nat -> new_td fuel' h par d = Ok r.
Proof.
  induction fuel as [|f IH]; intros h par d r E [|f'] L; try discriminate; [lia|].
  cbn [new_td] in *.
  match type of E with bindr (?tr _ _) _ = _ => set (t1 := tr) in E end.
  match goal with |- bindr (?tr _ _) _ = _ => set (t2 := tr) end.
  assert (X : forall d g y, t1 g d = Ok y -> t2 g d = Ok y).
  { clear d E. induction d as [|[k v] d IHd]; intros g y Y; [exact Y|].
    cbn in Y |- *. fold t1 in Y. fold t2.
    match type of Y with bindr ?e _ = _ => destruct e as [x|ex] eqn:Ex; cbn [bindr] in Y; [|discriminate] end.
    match goal with |- bindr ?e _ = _ => assert (Ex' : e = Ok x) end.
    { destruct v as [x0|l|a].
      - exact Ex.
      - destruct (new_td f g (Some (next h, k)) l) as [w|] eqn:W; cbn [bindr] in Ex; [|discriminate].
        rewrite (IH _ _ _ _ W f' ltac:(lia)). exact Ex.
      - destruct (lookup_obj g a) as [o|]; [|discriminate].
        destruct (new_td f g (Some (next h, k)) (as_dict (o_items o))) as [w|] eqn:W; cbn [bindr] in Ex; [|discriminate].
        rewrite (IH _ _ _ _ W f' ltac:(lia)). exact Ex. }
    rewrite Ex'. cbn [bindr].
    destruct (t1 (fst x) d) as [xs|] eqn:Et; cbn [bindr] in Y; [|discriminate].
    rewrite (IHd _ _ Et). exact Y. }
  destruct (t1 {| cells := cells h; next := S (next h) |} d) as [y|] eqn:Y; cbn [bindr] in E; [|discriminate].
  rewrite (X _ _ _ Y). exact E.
Qed.
Lemma td_set_more : forall fuel (h : heap) a k v r fuel', td_set keqb fuel h a k v = Ok r -> (fuel <= fuel')%nat -> td_set keqb fuel' h a k v = Ok r.
Proof.
  induction fuel as [|f IH]; intros h a k v r [|f'] E L; try discriminate; [lia|].
  cbn [td_set] in *. destruct (lookup_obj h a) as [o|]; [|discriminate].
  destruct (new_td (S f) h (o_parent o) (dict_put keqb (as_dict (o_items o)) k v)) as [m|] eqn:M; cbn [bindr] in E; [|discriminate].
  rewrite (new_td_more _ _ _ _ _ M (S f') L). cbn [bindr]. destruct (o_parent o) as [[p pk]|]; [|exact E].
  apply (IH _ _ _ _ _ f' E). lia.
Qed.

(** Setting a key of an object reached along [path]: the result is a new root that reads as
    the old tree with the entry replaced. *)
Lemma td_set_spec : forall path h root T par a kids fuel k v t,
  chain h root T path par a (TNode kids) ->
  fresh h -> pyreads h v t ->
  (length path + S (Nat.max (depth T) (length path + S (depth t))) <= fuel)%nat ->
  exists h' r, td_set keqb fuel h a k v = Ok (h', r) /\ grown h h' /\
    good h' None r (treplace T path (TNode (dict_put keqb kids k t))).
Proof.
  induction path as [|kl path IH] using rev_ind; intros h root T par a kids fuel k v t C Fr R D.
  - inversion C; [|destruct path; discriminate]. subst. 
    pose proof H as G. apply good_node in G. destruct G as [items [L F]].
    destruct fuel as [|f]; [cbn in D; lia|].
    destruct (new_td_spec (S f) h None (dict_put keqb (as_dict items) k v) (dict_put keqb kids k t) Fr (dict_put_reads _ _ _ _ _ _ _ F R)) as [h' [E [G1 G2]]].
    { apply depth_put_le; cbn [length] in D; lia. }
    exists h', (next h). cbn [td_set]. rewrite L. cbn [o_items o_parent]. rewrite E. cbn [bindr fst snd]. auto.
  - pose proof (chain_good _ _ _ _ _ _ _ C) as G. pose proof (chain_depth _ _ _ _ _ _ _ C) as CD.
    apply chain_snoc_inv in C. destruct C as [par0 [a0 [kids0 [items0 [-> [C [L0 [Gk Ek]]]]]]]].
    apply good_node in G. destruct G as [items [L F]].
    rewrite app_length in D, CD; cbn [length] in D, CD.
    destruct fuel as [|f]; [lia|].
    assert (DP : (depth (TNode (dict_put keqb kids k t)) <= Nat.max (S (depth t)) (depth (TNode kids)))%nat).
    { apply depth_put_le; lia. }
    destruct (new_td_spec (S f) h (Some (a0, kl)) (dict_put keqb (as_dict items) k v) (dict_put keqb kids k t) Fr (dict_put_reads _ _ _ _ _ _ _ F R)) as [h' [E [G1 G2]]].
    { lia. }
    destruct (IH h' root T par0 a0 kids0 f kl (PRef (next h)) (TNode (dict_put keqb kids k t))) as [h'' [r [E' [G1' G2']]]].
    + apply (chain_mono h); [apply grown_extends; assumption|exact C].
    + apply G1.
    + exists (Some (a0, kl)). exact G2.
    + lia.
    + exists h'', r. split.
      * cbn [td_set]. rewrite L. cbn [o_items o_parent]. rewrite E. cbn [bindr fst snd]. exact E'.
      * split; [exact (grown_trans _ _ _ G1 G1')|].
        rewrite treplace_app; [|eauto using chain_at].
        rewrite (chain_at _ _ _ _ _ _ _ C). cbn [treplace]. rewrite Ek. exact G2'.
Qed.

(** * Reading the replaced tree *)
Lemma keqb_refl k : keqb k k = true. Proof. apply Keq. reflexivity. Qed.
Lemma entry_put {A} (d : list (K * A)) k v k' : entry keqb (dict_put keqb d k v) k' = if keqb k k' then Some v else entry keqb d k'.
Proof.
  induction d as [|[k0 v0] d IH]; cbn; [reflexivity|].
  destruct (keqb k0 k) eqn:E; cbn.
  - apply Keq in E. subst k0. destruct (keqb k k'); reflexivity.
  - rewrite IH. destruct (keqb k0 k') eqn:E'; [|reflexivity].
    destruct (keqb k k') eqn:E''; [|reflexivity]. apply Keq in E', E''. subst. rewrite keqb_refl in E. discriminate.
Qed.
Lemma at_replaced t p v r : (exists s, at_path keqb t p = Some s) -> at_path keqb (treplace t p v) (p ++ r) = at_path keqb v r.
Proof.
  revert t. induction p as [|k p IH]; intros t [s H]; [reflexivity|].
  cbn in *. destruct t as [|kids]; [discriminate|]. destruct (entry keqb kids k) as [s'|] eqn:E; [|discriminate].
  cbn. rewrite entry_put, keqb_refl. apply IH. eauto.
Qed.
Lemma at_elsewhere t p v q : elsewhere q p -> at_path keqb (treplace t p v) q = at_path keqb t q.
Proof.
  revert t q. induction p as [|k p IH]; intros t q H.
  - exfalso. destruct (H q) as [H1 _]. apply H1. reflexivity.
  - destruct q as [|k' q]; [exfalso; destruct (H (k :: p)) as [_ H2]; apply H2; reflexivity|].
    cbn. destruct t as [|kids]; [reflexivity|]. destruct (entry keqb kids k) as [s|] eqn:E; [|reflexivity].
    cbn. rewrite entry_put. destruct (keqb k k') eqn:E'; [|reflexivity]. apply Keq in E'. subst k'. rewrite E. apply IH.
    intro r. destruct (H r) as [A B]. split; intro X; [apply A|apply B]; cbn; rewrite X; reflexivity.
Qed.

(** Every object found in a good tree can be walked to. *)
Lemma items_get h a items kids k : items_good h a items kids ->
  match entry keqb kids k with
  | Some t => exists c, dict_get keqb items k = Some c /\ cell_good h a k c t
  | None => dict_get keqb items k = None
  end.
Proof.
  intro F. induction F as [|[k1 c] [k2 t2] items kids [A B] F IH]; cbn; [reflexivity|].
  cbn in A, B. subst k2. destruct (keqb k1 k) eqn:E; [|exact IH].
  apply Keq in E. subst k1. exists c. auto.
Qed.

(** * Dropping a key *)
Lemma entry_del {A} (d : list (K * A)) k k' : entry keqb (dict_del keqb d k) k' = if keqb k k' then None else entry keqb d k'.
Proof.
  unfold dict_del. induction d as [|[k0 v0] d IH]; cbn; [now destruct (keqb k k')|].
  destruct (keqb k0 k) eqn:E; cbn.
  - apply Keq in E. subst k0. rewrite IH. destruct (keqb k k'); reflexivity.
  - rewrite IH. destruct (keqb k0 k') eqn:E'; [|reflexivity].
    destruct (keqb k k') eqn:E''; [|reflexivity]. apply Keq in E', E''. subst. rewrite keqb_refl in E. discriminate.
Qed.
Lemma dict_del_reads h items kids k a :
  items_good h a items kids -> pairs_read h (as_dict (dict_del keqb items k)) (dict_del keqb kids k).
Proof.
  intros F. apply (as_dict_reads h a). unfold items_good, dict_del in *. induction F as [|i e items' kids' [A B] F IH]; cbn; [constructor|].
  rewrite <- A. destruct (keqb (fst i) k); cbn [negb]; [exact IH|]. constructor; auto.
Qed.
Lemma depth_del (kids : list (K * tree)) k : (depth (TNode (dict_del keqb kids k)) <= depth (TNode kids))%nat.
Proof.
  cbn [depth]. apply le_n_S. unfold dict_del. induction kids as [|[k' t'] kids IH]; cbn [filter fold_right fst snd]; [lia|].
  destruct (keqb k' k); cbn [negb fold_right snd]; lia.
Qed.
Lemma td_drop_spec : forall path h root T par a kids fuel k s,
  chain h root T path par a (TNode kids) -> fresh h -> entry keqb kids k = Some s ->
  (S (length path + S (Nat.max (depth T) (length path + S (depth T)))) <= fuel)%nat ->
  exists h' r, td_drop keqb fuel h a k = Ok (h', r) /\ grown h h' /\
    good h' None r (treplace T path (TNode (dict_del keqb kids k))).
Proof.
  intros path h root T par a kids fuel k s C Fr Ek D. pose proof (chain_good _ _ _ _ _ _ _ C) as G. pose proof (chain_depth _ _ _ _ _ _ _ C) as CD.
  apply good_node in G. destruct G as [items [L F]].
  pose proof (items_get h a items kids k F) as Gi. rewrite Ek in Gi. destruct Gi as [c [Gi _]].
  destruct (new_td_spec fuel h None (as_dict (dict_del keqb items k)) (dict_del keqb kids k) Fr (dict_del_reads _ _ _ _ _ F)) as [h1 [E [G1 G2]]].
  { pose proof (depth_del kids k). lia. }
  unfold td_drop. rewrite L. cbn [o_items o_parent]. rewrite Gi, E. cbn [bindr fst snd].
  destruct path as [|kl path _] using rev_ind.
  - inversion C; [|destruct path; discriminate]. subst. exists h1, (next h). cbn. auto.
  - apply chain_snoc_inv in C. destruct C as [par0 [a0 [kids0 [items0 [-> [C [L0 [Gk Ek0]]]]]]]].
    destruct (td_set_spec path h1 root T par0 a0 kids0 fuel kl (PRef (next h)) (TNode (dict_del keqb kids k))) as [h2 [r [E' [G1' G2']]]].
    + apply (chain_mono h); [apply grown_extends; assumption|exact C].
    + apply G1.
    + exists None. exact G2.
    + rewrite app_length in D, CD. cbn [length] in D, CD. pose proof (depth_del kids k). lia.
    + exists h2, r. split; [exact E'|]. split; [exact (grown_trans _ _ _ G1 G1')|].
      rewrite treplace_app; [|eauto using chain_at].
      rewrite (chain_at _ _ _ _ _ _ _ C). cbn [treplace]. rewrite Ek0. exact G2'.
Qed.
Lemma td_drop_more : forall fuel (h : heap) a k r fuel', td_drop keqb fuel h a k = Ok r -> (fuel <= fuel')%nat -> td_drop keqb fuel' h a k = Ok r.
Proof.
  intros fuel h a k r fuel' E Lf. unfold td_drop in *. destruct (lookup_obj h a) as [o|]; [|discriminate].
  destruct (dict_get keqb (o_items o) k); [|discriminate].
  destruct (new_td fuel h None (as_dict (dict_del keqb (o_items o) k))) as [m|] eqn:M; cbn [bindr] in E; [|discriminate].
  rewrite (new_td_more _ _ _ _ _ M fuel' Lf). cbn [bindr]. destruct (o_parent o) as [[p pk]|]; [|exact E].
  exact (td_set_more _ _ _ _ _ _ fuel' E Lf).
Qed.

(** * Plain reading and sessions *)
Lemma reads_node (h : heap) a kids : reads h a (TNode kids) <->
  exists o, lookup_obj h a = Some o /\ Forall2 (fun i e => fst i = fst e /\ match snd i with Leaf v => snd e = TLeaf v | Ref b => reads h b (snd e) end) (o_items o) kids.
Proof.
  cbn. split; intros [o [L G]]; exists o; (split; [exact L|]); clear L.
  - revert kids G. induction (o_items o) as [|[k c] items IH]; intros [|[k' t'] kids] G; try contradiction.
    + constructor.
    + destruct G as [E [G R]]. constructor; [|apply IH; exact R]. cbn. split; [exact E|exact G].
  - induction G as [|[k c] [k' t'] items kids [E G] F IH]; [exact I|].
    cbn in E, G. split; [exact E|]. split; [exact G|exact IH].
Qed.
Lemma good_reads (h : heap) : forall t par a, good h par a t -> reads h a t.
Proof.
  refine (tree_ind' _ _ _).
  - intros v par a [].
  - intros kids IH par a G. apply good_node in G. destruct G as [items [L F]]. apply reads_node.
    exists (mkObj par items). split; [exact L|]. cbn [o_items]. clear L. unfold items_good in F.
    induction F as [|i e items kids [A B] F IHF]; [constructor|].
    inversion IH as [|? ? I1 I2]; subst. constructor; [|apply IHF; exact I2].
    split; [exact A|]. unfold cell_good in B. destruct (snd i); [exact B|]. exact (I1 _ _ B).
Qed.
Lemma reads_det (h : heap) : forall t t' a, reads h a t -> reads h a t' -> t = t'.
Proof.
  refine (tree_ind' _ _ _).
  - intros v t' a [].
  - intros kids IH t' a R R'. destruct t' as [v'|kids']; [destruct R'|]. f_equal.
    apply reads_node in R. apply reads_node in R'. destruct R as [o [L F]], R' as [o' [L' F']].
    rewrite L in L'. injection L' as <-. clear L. revert kids' F'.
    induction F as [|i e items kids [A B] F IHF]; intros kids' F'; inversion F' as [|? e' ? kids'' [A' B'] F'']; subst; [reflexivity|].
    inversion IH as [|? ? I1 I2]; subst. f_equal; [|apply IHF; assumption].
    destruct e as [k t], e' as [k' t']. cbn in *. subst. f_equal.
    destruct (snd i); [congruence|]. exact (I1 _ _ B B').
Qed.
Lemma reads_mono (h h' : heap) : extends h h' -> forall t a, reads h a t -> reads h' a t.
Proof.
  intro E. refine (tree_ind' _ _ _).
  - intros v a [].
  - intros kids IH a R. apply reads_node in R. destruct R as [o [L F]]. apply reads_node. exists o. split; [apply E; exact L|].
    clear L. induction F as [|i e items kids [A B] F IHF]; [constructor|].
    inversion IH as [|? ? I1 I2]; subst. constructor; [|apply IHF; exact I2].
    split; [exact A|]. destruct (snd i); [exact B|]. exact (I1 _ B).
Qed.

Lemma walk_chain h root T : forall path rest par a t b, chain h root T path par a t ->
  walk keqb h a rest = Some b -> exists par' s, chain h root T (path ++ rest) par' b s.
Proof.
  intros path rest. revert path. induction rest as [|k rest IH]; intros path par a t b C W.
  - cbn in W. injection W as <-. rewrite app_nil_r. eauto.
  - cbn [walk] in W. unfold td_get in W.
    pose proof (chain_good _ _ _ _ _ _ _ C) as G. destruct (good_dict _ _ _ _ G) as [kids ->].
    apply good_node in G. destruct G as [items [L F]]. rewrite L in W. cbn [o_items] in W.
    pose proof (items_get h a items kids k F) as X.
    destruct (entry keqb kids k) as [t'|] eqn:E; [|rewrite X in W; discriminate].
    destruct X as [c [X Y]]. rewrite X in W. destruct c as [v|b']; [discriminate|]. cbn in Y.
    replace (path ++ k :: rest) with ((path ++ [k]) ++ rest) by (rewrite <- app_assoc; reflexivity).
    apply (IH _ (Some (a, k)) b' t' b); [|exact W]. exact (chain_down h root T path par a kids items k b' t' C L X E Y).
Qed.

Lemma stands_read h roots v t : fresh h -> (forall r, In r roots -> exists T, good h None r T) ->
  stands_for keqb h roots v t -> pyreads h v t.
Proof.
  intros Fr Rt. revert t. refine (pyv_ind' (fun v => forall t, stands_for keqb h roots v t -> pyreads h v t) _ _ _ v); clear v.
  - intros v t S0. inversion S0. reflexivity.
  - intros a t S0. inversion S0 as [|root path a' t' I0 W R|]; subst. destruct (Rt _ I0) as [T G].
    destruct (walk_chain h root T [] path None root T a (chain_root _ _ _ G) W) as [par [s C]].
    exists par. apply chain_good in C. assert (s = t) by exact (reads_det h _ _ _ (good_reads _ _ _ _ C) R). subst. exact C.
  - intros l IH t S0. inversion S0 as [| |l' kids F]; subst. apply pyreads_dict. exists kids. split; [reflexivity|].
    unfold pairs_read. clear S0. induction F as [|i e l kids [A B] F IHF]; [constructor|].
    inversion IH as [|? ? I1 I2]; subst. constructor; [|apply IHF; exact I2]. split; [exact A|]. apply I1; exact B.
Qed.

Lemma session_ok h roots : session keqb h roots -> fresh h /\ forall r, In r roots -> exists T, good h None r T.
Proof.
  intro S0. induction S0 as [|h roots d t h' r S0 [Fr Rt] St [N Run]|h roots root path x k v t h' r S0 [Fr Rt] I0 W St [N Run]
    |h roots root path x k h' r S0 [Fr Rt] I0 W [N Run]].
  - split; [intros a _; reflexivity|intros r []].
  - pose proof (stands_read _ _ _ _ Fr Rt St) as P. apply pyreads_dict in P. destruct P as [kids [-> P]].
    destruct (new_td_spec (Nat.max N (depth (TNode kids))) h None d kids Fr P ltac:(lia)) as [g [E [G1 G2]]].
    rewrite Run in E by lia. injection E as -> ->.
    split; [apply G1|]. intros r' [<-|I']; [eauto|]. destruct (Rt _ I') as [T G]. exists T.
    apply (good_mono h); [apply grown_extends; assumption|exact G].
  - destruct (Rt _ I0) as [T G].
    destruct (walk_chain h root T [] path None root T x (chain_root _ _ _ G) W) as [par [s C]]. cbn [app] in C.
    destruct (good_dict _ _ _ _ (chain_good _ _ _ _ _ _ _ C)) as [kids ->].
    destruct (td_set_spec path h root T par x kids (Nat.max N (length path + S (Nat.max (depth T) (length path + S (depth t))))) k v t C Fr
        (stands_read _ _ _ _ Fr Rt St) ltac:(lia)) as [g [r' [E [G1 G2]]]].
    rewrite Run in E by lia. injection E as -> ->.
    split; [apply G1|]. intros r0 [<-|I']; [eauto|]. destruct (Rt _ I') as [T0 G0]. exists T0.
    apply (good_mono h); [apply grown_extends; assumption|exact G0].
  - destruct (Rt _ I0) as [T G].
    destruct (walk_chain h root T [] path None root T x (chain_root _ _ _ G) W) as [par [s C]]. cbn [app] in C.
    destruct (good_dict _ _ _ _ (chain_good _ _ _ _ _ _ _ C)) as [kids ->].
    assert (Ek : exists s, entry keqb kids k = Some s).
    { pose proof (chain_good _ _ _ _ _ _ _ C) as Gx. apply good_node in Gx. destruct Gx as [items [L F]].
      pose proof (items_get h x items kids k F) as Gi. destruct (entry keqb kids k) as [s|]; [eauto|].
      specialize (Run N (le_n _)). unfold td_drop in Run. rewrite L in Run. cbn [o_items] in Run. rewrite Gi in Run. discriminate. }
    destruct Ek as [s Ek].
    destruct (td_drop_spec path h root T par x kids (Nat.max N (S (length path + S (Nat.max (depth T) (length path + S (depth T)))))) k s C Fr Ek ltac:(lia)) as [g [r' [E [G1 G2]]]].
    rewrite Run in E by lia. injection E as -> ->.
    split; [apply G1|]. intros r0 [<-|I']; [eauto|]. destruct (Rt _ I') as [T0 G0]. exists T0.
    apply (good_mono h); [apply grown_extends; assumption|exact G0].
Qed.

Lemma set_in_session h roots root T path x k v t :
  session keqb h roots -> In root roots -> reads h root T -> walk keqb h root path = Some x -> stands_for keqb h roots v t ->
  exists h' r T', runs (fun fuel => td_set keqb fuel h x k v) (h', r) /\ reads h' r T' /\ grown h h' /\
    (forall p, at_path keqb T' (path ++ k :: p) = at_path keqb t p) /\
    (forall q, elsewhere q (path ++ [k]) -> at_path keqb T' q = at_path keqb T q).
Proof.
  intros S0 I0 R W St. destruct (session_ok h roots S0) as [Fr Rt].
  destruct (Rt _ I0) as [T0 G]. assert (T0 = T) by exact (reads_det h _ _ _ (good_reads _ _ _ _ G) R). subst T0.
  destruct (walk_chain h root T [] path None root T x (chain_root _ _ _ G) W) as [par [s C]]. cbn [app] in C.
  destruct (good_dict _ _ _ _ (chain_good _ _ _ _ _ _ _ C)) as [kids ->].
  set (N := (length path + S (Nat.max (depth T) (length path + S (depth t))))%nat).
  pose proof (stands_read _ _ _ _ Fr Rt St) as PR.
  destruct (td_set_spec path h root T par x kids N k v t C Fr PR (le_n _)) as [h' [r [E [G1 G2]]]].
  exists h', r, (treplace T path (TNode (dict_put keqb kids k t))).
  split; [exists N; intros fuel Hf; exact (td_set_more _ _ _ _ _ _ _ E Hf)|].
  split; [exact (good_reads _ _ _ _ G2)|]. split; [exact G1|].
  pose proof (chain_at _ _ _ _ _ _ _ C) as A. split.
  - intro p. rewrite at_replaced by eauto. cbn. rewrite entry_put, keqb_refl. reflexivity.
  - intros q H.
    assert (EQ : treplace T path (TNode (dict_put keqb kids k t)) = treplace T path (tput (TNode kids) k t)) by reflexivity.
    revert H. clear -A Keq. revert T A q. induction path as [|k0 path IH]; intros T A q H.
    + cbn in A. injection A as ->. cbn. destruct q as [|k' q].
      * exfalso. destruct (H [k]) as [_ B]. apply B. reflexivity.
      * cbn. rewrite entry_put. destruct (keqb k k') eqn:E; [|reflexivity]. apply Keq in E. subst k'.
        exfalso. destruct (H q) as [B _]. apply B. reflexivity.
    + cbn in A. destruct T as [|ks]; [discriminate|]. cbn. destruct (entry keqb ks k0) as [s|] eqn:E; [|discriminate].
      destruct q as [|k' q].
      * exfalso. destruct (H (k0 :: path ++ [k])) as [_ B]. apply B. reflexivity.
      * cbn. rewrite entry_put. destruct (keqb k0 k') eqn:E'; [|reflexivity]. apply Keq in E'. subst k'. rewrite E.
        apply IH; [exact A|]. intro r. destruct (H r) as [B C]. split; intro X; [apply B|apply C]; cbn; rewrite X; reflexivity.
Qed.

Lemma drop_in_session h roots root T path x k kids s :
  session keqb h roots -> In root roots -> reads h root T -> walk keqb h root path = Some x ->
  reads h x (TNode kids) -> entry keqb kids k = Some s ->
  exists h' r T', runs (fun fuel => td_drop keqb fuel h x k) (h', r) /\ reads h' r T' /\ grown h h' /\
    (exists rest : list (K * tree), at_path keqb T' path = Some (TNode rest)) /\
    (forall p, at_path keqb T' (path ++ k :: p) = None) /\
    (forall q, elsewhere q (path ++ [k]) -> at_path keqb T' q = at_path keqb T q).
Proof.
  intros S0 I0 R W Rx Ek. destruct (session_ok h roots S0) as [Fr Rt].
  destruct (Rt _ I0) as [T0 G]. assert (T0 = T) by exact (reads_det h _ _ _ (good_reads _ _ _ _ G) R). subst T0.
  destruct (walk_chain h root T [] path None root T x (chain_root _ _ _ G) W) as [par [s0 C]]. cbn [app] in C.
  assert (s0 = TNode kids) by exact (reads_det h _ _ _ (good_reads _ _ _ _ (chain_good _ _ _ _ _ _ _ C)) Rx). subst s0.
  set (N := (S (length path + S (Nat.max (depth T) (length path + S (depth T)))))%nat).
  destruct (td_drop_spec path h root T par x kids N k s C Fr Ek (le_n _)) as [h' [r [E [G1 G2]]]].
  exists h', r, (treplace T path (TNode (dict_del keqb kids k))).
  split; [exists N; intros fuel Hf; exact (td_drop_more _ _ _ _ _ _ E Hf)|].
  split; [exact (good_reads _ _ _ _ G2)|]. split; [exact G1|].
  pose proof (chain_at _ _ _ _ _ _ _ C) as A. split.
  { eexists. rewrite <- (app_nil_r path) at 2. rewrite at_replaced by eauto. reflexivity. }
  split.
  - intro p. rewrite at_replaced by eauto. cbn. rewrite entry_del, keqb_refl. reflexivity.
  - intros q H. revert H. clear -A Keq. revert T A q. induction path as [|k0 path IH]; intros T A q H.
    + cbn in A. injection A as ->. cbn. destruct q as [|k' q].
      * exfalso. destruct (H [k]) as [_ B]. apply B. reflexivity.
      * cbn. rewrite entry_del. destruct (keqb k k') eqn:E; [|reflexivity]. apply Keq in E. subst k'.
        exfalso. destruct (H q) as [B _]. apply B. reflexivity.
    + cbn in A. destruct T as [|ks]; [discriminate|]. cbn. destruct (entry keqb ks k0) as [s|] eqn:E; [|discriminate].
      destruct q as [|k' q].
      * exfalso. destruct (H (k0 :: path ++ [k])) as [_ B]. apply B. reflexivity.
      * cbn. rewrite entry_put. destruct (keqb k0 k') eqn:E'; [|reflexivity]. apply Keq in E'. subst k'. rewrite E.
        apply IH; [exact A|]. intro r. destruct (H r) as [B C]. split; intro X; [apply B|apply C]; cbn; rewrite X; reflexivity.
Qed.

Lemma at_walk h roots root T path x :
  session keqb h roots -> In root roots -> reads h root T -> walk keqb h root path = Some x ->
  exists kids : list (K * tree), reads h x (TNode kids) /\ at_path keqb T path = Some (TNode kids).
Proof.
  intros S0 I0 R W. destruct (session_ok h roots S0) as [Fr Rt].
  destruct (Rt _ I0) as [T0 G]. assert (T0 = T) by exact (reads_det h _ _ _ (good_reads _ _ _ _ G) R). subst T0.
  destruct (walk_chain h root T [] path None root T x (chain_root _ _ _ G) W) as [par [s0 C]]. cbn [app] in C.
  destruct (good_dict _ _ _ _ (chain_good _ _ _ _ _ _ _ C)) as [kids ->].
  exists kids. split; [exact (good_reads _ _ _ _ (chain_good _ _ _ _ _ _ _ C))|exact (chain_at _ _ _ _ _ _ _ C)].
Qed.
Lemma reads_get (h : heap) x (kids : list (K * tree)) o k : reads h x (TNode kids) -> lookup_obj h x = Some o ->
  match entry keqb kids k with Some _ => exists c, dict_get keqb (o_items o) k = Some c | None => dict_get keqb (o_items o) k = None end.
Proof.
  intros R L. apply reads_node in R. destruct R as [o' [L' F]]. rewrite L in L'. injection L' as <-.
  induction F as [|[k1 c] [k2 t] items kids' [A _] F IH]; cbn; [reflexivity|]. cbn in A. subst k2.
  destruct (keqb k1 k); [eauto|exact IH].
Qed.
End P.
