(** C62: snapshots as rows of texts. *)
From Verif Require Import Base Parse Text Value Json Transfer Universe Record Prop_Meld
  StateProofs JsonProofs UniverseProofs Spec_Transfer TransferProofs Spec_Universe Spec_Record ExecutorProofs Prop_Executor Prop_Record.
From Coq Require Import String List ZArith Lia Bool.
Import ListNotations.
Open Scope list_scope.
Open Scope Z_scope.

(** ** Keys of every dictionary object are distinct. *)
Section U.
Context {K V : Type} (keqb : K -> K -> bool) (Keq : forall a b, keqb a b = true <-> a = b).
Definition uniq (h : heap K V) : Prop := forall a o, lookup_obj h a = Some o -> NoDup (map fst (o_items o)).
Fixpoint pyuniq (v : pyv K V) : Prop :=
  match v with
  | PDict l => NoDup (map fst l) /\ (fix go l := match l with [] => True | (_, x) :: r => pyuniq x /\ go r end) l
  | _ => True
  end.
Definition all_uniq (d : list (K * pyv K V)) : Prop := Forall (fun e => pyuniq (snd e)) d.
Lemma pyuniq_dict l : pyuniq (PDict l) <-> NoDup (map fst l) /\ all_uniq l.
Proof.
  cbn [pyuniq]. assert (H : (fix go l := match l with [] => True | (_, x) :: r => pyuniq x /\ go r end) l <-> all_uniq l).
  { unfold all_uniq. induction l as [|[k x] l IH]; [split; auto|]. rewrite IH. split; [intros []; auto|intro F; inversion F; auto]. }
  now rewrite H.
Qed.
Lemma as_dict_uniq (items : list (K * cell V)) : all_uniq (as_dict items).
Proof. unfold all_uniq, as_dict. apply Forall_map. apply Forall_forall. intros [k [v|b]] _; exact I. Qed.
Lemma as_dict_keys (items : list (K * cell V)) : map fst (as_dict items) = map fst items.
Proof. unfold as_dict. rewrite map_map. reflexivity. Qed.
Lemma new_td_uniq : forall fuel (h : heap K V) par d h' r, uniq h -> NoDup (map fst d) -> all_uniq d -> new_td fuel h par d = Ok (h', r) -> uniq h'.
Proof.
  induction fuel as [|f IH]; intros h par d h' r U N A E; [discriminate|]. cbn [new_td] in E.
  match type of E with (bindr (?tr _ _) _) = _ => set (transfer := tr) in E end.
  assert (T : forall d g g' items, uniq g -> all_uniq d -> transfer g d = Ok (g', items) -> uniq g' /\ map fst items = map fst d).
  { clear d N A E. induction d as [|[k v] d IHd]; intros g g' items Ug Ad E; [cbn in E; injection E as <- <-; auto|].
    inversion Ad as [|? ? A1 A2]; subst. cbn [snd] in A1. cbn in E. fold transfer in E.
    match type of E with bindr ?X _ = _ => destruct X as [[g1 c]|] eqn:E1; cbn [bindr fst snd] in E; [|discriminate] end.
    assert (U1 : uniq g1).
    { destruct v as [x|l|b].
      - injection E1 as <- _. exact Ug.
      - destruct (new_td f g _ l) as [[g2 b]|] eqn:E2; cbn [bindr fst snd] in E1; [|discriminate]. injection E1 as <- _.
        apply pyuniq_dict in A1. eapply IH; [exact Ug|apply A1|apply A1|exact E2].
      - destruct (lookup_obj g b) as [o|] eqn:L; [|discriminate].
        destruct (new_td f g _ (as_dict (o_items o))) as [[g2 b2]|] eqn:E2; cbn [bindr fst snd] in E1; [|discriminate]. injection E1 as <- _.
        eapply IH; [exact Ug|rewrite as_dict_keys; exact (Ug _ _ L)|apply as_dict_uniq|exact E2]. }
    destruct (transfer g1 d) as [[g3 items3]|] eqn:E3; cbn [bindr fst snd] in E; [|discriminate]. injection E as <- <-.
    destruct (IHd _ _ _ U1 A2 E3) as [U3 Q]. split; [exact U3|]. cbn [map fst]. now rewrite Q. }
  set (h0 := mkHeap (cells h) (S (next h))) in E. assert (U0 : uniq h0) by exact U.
  destruct (transfer h0 d) as [[g items]|] eqn:E0; cbn [bindr fst snd] in E; [|discriminate]. injection E as <- _.
  destruct (T _ _ _ _ U0 A E0) as [Ug Q]. intros a o L. rewrite lookup_write in L. destruct (Nat.eqb (next h) a).
  - injection L as <-. cbn [o_items]. now rewrite Q.
  - exact (Ug _ _ L).
Qed.
Lemma put_keys {A} (d : list (K * A)) k v : NoDup (map fst d) -> NoDup (map fst (dict_put keqb d k v)).
Proof.
  assert (H : forall x, In x (map fst (dict_put keqb d k v)) -> x = k \/ In x (map fst d)).
  { induction d as [|[k' v'] d IH]; intros x; cbn [dict_put map fst In]; [intuition|]. destruct (keqb k' k); cbn [map fst In]; [auto|].
    intros [->|X]; auto. destruct (IH x X); auto. }
  induction d as [|[k' v'] d IH]; intros N; cbn [dict_put map fst]; [repeat constructor; auto|]. inversion N as [|? ? N1 N2]; subst.
  destruct (keqb k' k) eqn:E; cbn [map fst]; [constructor; auto|]. constructor.
  - intro X. assert (Q : k' = k \/ In k' (map fst d)).
    { clear -X. induction d as [|[k2 v2] d IH]; cbn [dict_put map fst In] in *; [intuition|]. destruct (keqb k2 k); cbn [map fst In] in X; intuition. }
    destruct Q as [->|Q]; [|auto]. rewrite (proj2 (Keq k k) eq_refl) in E. discriminate.
  - apply IH; [|exact N2]. intros x X. clear -X. induction d as [|[k2 v2] d IH]; cbn [dict_put map fst In] in *; [intuition|].
    destruct (keqb k2 k); cbn [map fst In] in X; intuition.
Qed.
Lemma put_all (d : list (K * pyv K V)) k v : pyuniq v -> all_uniq d -> all_uniq (dict_put keqb d k v).
Proof.
  unfold all_uniq. intros P. induction d as [|[k' v'] d IH]; intros F; cbn [dict_put]; [constructor; auto|]. inversion F; subst.
  destruct (keqb k' k); constructor; auto.
Qed.
Lemma td_set_uniq : forall fuel (h : heap K V) a k v h' r, uniq h -> pyuniq v -> td_set keqb fuel h a k v = Ok (h', r) -> uniq h'.
Proof.
  induction fuel as [|f IH]; intros h a k v h' r U P E; [discriminate|]. cbn [td_set] in E. destruct (lookup_obj h a) as [o|] eqn:L; [|discriminate].
  destruct (new_td (S f) h (o_parent o) _) as [[h1 m]|] eqn:E1; cbn [bindr fst snd] in E; [|discriminate].
  assert (U1 : uniq h1).
  { eapply new_td_uniq; [exact U| | |exact E1]; [apply put_keys; rewrite as_dict_keys; exact (U _ _ L)|apply put_all; [exact P|apply as_dict_uniq]]. }
  destruct (o_parent o) as [[p pk]|]; [|injection E as <- _; exact U1]. eapply IH; [exact U1| |exact E]. exact I.
Qed.

(** ** Flattening a nested dictionary. *)
Fixpoint flat (t : tree K V) : list (list K * V) :=
  match t with
  | TLeaf v => [([], v)]
  | TNode kids => (fix go l := match l with [] => [] | (k, s) :: r => map (fun e => (k :: fst e, snd e)) (flat s) ++ go r end) kids
  end.
Definition flats (l : list (K * tree K V)) : list (list K * V) := flat_map (fun e => map (fun x => (fst e :: fst x, snd x)) (flat (snd e))) l.
Lemma flat_node kids : flat (TNode kids) = flats kids.
Proof. cbn [flat]. unfold flats. induction kids as [|[k s] r IH]; cbn [flat_map fst snd]; [auto|]. now rewrite IH. Qed.
Lemma flatten_reads (h : heap K V) : forall t a fuel, reads h a t -> (depth t <= fuel)%nat -> td_flatten_iter fuel h a = Ok (flat t).
Proof.
  refine (tree_ind' _ _ _); [intros v a fuel []|]. intros kids IH a fuel R D. destruct fuel as [|f]; [cbn in D; lia|].
  apply reads_node in R. destruct R as [o [L F]]. cbn [td_flatten_iter]. rewrite L, flat_node. cbn [depth] in D. clear L.
  assert (D' : (fold_right (fun e a => Nat.max (depth (snd e)) a) 0 kids <= f)%nat) by lia. clear D.
  induction F as [|[k c] [k' s] items kids [A B] F IHF]; [reflexivity|]. cbn [fst snd] in A, B. subst k'. cbn [fold_right snd] in D'.
  inversion IH as [|? ? I1 I2]; subst. cbn [snd] in I1. specialize (IHF I2 ltac:(lia)). destruct c as [v|b].
  - subst s. cbn [bindr]. rewrite IHF. reflexivity.
  - rewrite (I1 b f B) by lia. cbn [bindr]. rewrite IHF. reflexivity.
Qed.
(** Every node's keys are distinct. *)
Fixpoint utree (t : tree K V) : Prop :=
  match t with
  | TLeaf _ => True
  | TNode kids => NoDup (map fst kids) /\ (fix go l := match l with [] => True | (_, s) :: r => utree s /\ go r end) kids
  end.
Lemma utree_node kids : utree (TNode kids) <-> NoDup (map fst kids) /\ Forall (fun e => utree (snd e)) kids.
Proof.
  cbn [utree]. assert (H : (fix go l := match l with [] => True | (_, s) :: r => utree s /\ go r end) kids <-> Forall (fun e => utree (snd e)) kids).
  { induction kids as [|[k x] l IH]; [split; auto|]. rewrite IH. split; [intros []; auto|intro F; inversion F; auto]. }
  now rewrite H.
Qed.
Lemma uniq_reads (h : heap K V) : uniq h -> forall t a, reads h a t -> utree t.
Proof.
  intro U. refine (tree_ind' _ _ _); [intros v a []|]. intros kids IH a R. apply reads_node in R. destruct R as [o [L F]]. apply utree_node.
  pose proof (U _ _ L) as N. clear L. split.
  - replace (map fst kids) with (map fst (o_items o)); [exact N|]. clear N IH. induction F as [|i e items kids [A B] F IHF]; cbn [map]; [auto|]. now rewrite A, IHF.
  - clear N. induction F as [|i e items kids [A B] F IHF]; [constructor|]. inversion IH as [|? ? I1 I2]; subst. constructor; [|auto].
    destruct (snd i); [rewrite B; exact I|exact (I1 _ B)].
Qed.
Lemma in_flats kids q v : In (q, v) (flats kids) <-> exists k s q', q = k :: q' /\ In (k, s) kids /\ In (q', v) (flat s).
Proof.
  unfold flats. rewrite in_flat_map. split.
  - intros [[k s] [A B]]. apply in_map_iff in B. destruct B as [[q' v'] [B C]]. cbn [fst snd] in *. injection B as <- <-. eauto 6.
  - intros (k & s & q' & -> & A & B). exists (k, s). split; [exact A|]. apply in_map_iff. exists (q', v). auto.
Qed.
Lemma entry_in (kids : list (K * tree K V)) k s : NoDup (map fst kids) -> (In (k, s) kids <-> entry keqb kids k = Some s).
Proof.
  induction kids as [|[k' s'] kids IH]; intro N; cbn [entry In]; [split; [intros []|discriminate]|]. inversion N as [|? ? N1 N2]; subst.
  destruct (keqb k' k) eqn:E.
  - apply Keq in E. subst k'. split; [intros [[= ->]|X]; auto|intros [= ->]; auto]. exfalso. apply N1. apply in_map_iff. exists (k, s). auto.
  - rewrite <- (IH N2). split; [intros [[= -> ->]|X]; auto|auto]. rewrite (proj2 (Keq k k) eq_refl) in E. discriminate.
Qed.
Lemma in_flat : forall t q v, utree t -> (In (q, v) (flat t) <-> at_path keqb t q = Some (TLeaf v)).
Proof.
  refine (tree_ind' _ _ _).
  - intros x q v _. cbn [flat In]. destruct q; cbn [at_path]; split; try (intros [[= <-]|[]]); try (intros [= <-]); auto; try discriminate.
  - intros kids IH q v U. apply utree_node in U. destruct U as [N F]. rewrite flat_node, in_flats. rewrite Forall_forall in IH, F. split.
    + intros (k & s & q' & -> & A & B). cbn [at_path]. rewrite (proj1 (entry_in kids k s N) A). exact (proj1 (IH _ A q' v (F _ A)) B).
    + destruct q as [|k q']; cbn [at_path]; [discriminate|]. destruct (entry keqb kids k) as [s|] eqn:E; [|discriminate]. intro Q.
      apply (entry_in kids k s N) in E. exists k, s, q'. split; [auto|]. split; [exact E|]. exact (proj2 (IH _ E q' v (F _ E)) Q).
Qed.
Lemma flat_nodup : forall t, utree t -> NoDup (map fst (flat t)).
Proof.
  refine (tree_ind' _ _ _); [intros v _; repeat constructor; auto|]. intros kids IH U. apply utree_node in U. destruct U as [N F]. rewrite flat_node.
  induction kids as [|[k s] kids IHk]; [constructor|]. inversion IH as [|? ? I1 I2]; subst. inversion F as [|? ? F1 F2]; subst. inversion N as [|? ? N1 N2]; subst.
  specialize (IHk I2 N2 F2). cbn [snd] in *. change (flats ((k, s) :: kids)) with (map (fun x => (k :: fst x, snd x)) (flat s) ++ flats kids).
  rewrite map_app, map_map. cbn [fst]. specialize (I1 F1).
  assert (D : forall q, In q (map fst (flats kids)) -> exists k', In k' (map fst kids) /\ exists q', q = k' :: q').
  { intros q Q. apply in_map_iff in Q. destruct Q as [[q0 v] [<- Q]]. apply in_flats in Q. destruct Q as (k' & s' & q' & -> & A & _). exists k'. cbn [fst].
    split; [apply in_map_iff; exists (k', s'); auto|eauto]. }
  clear -I1 IHk D N1. induction (flat s) as [|[q v] l IHl]; cbn [map app]; [exact IHk|]. inversion I1 as [|? ? J1 J2]; subst. constructor; [|exact (IHl J2)].
  rewrite in_app_iff. intros [X|X].
  - apply in_map_iff in X. destruct X as [[q' v'] [X Y]]. cbn [fst] in *. injection X as ->. apply J1. apply in_map_iff. exists (q, v'). auto.
  - destruct (D _ X) as (k' & A & q' & B). injection B as -> _. exact (N1 A).
Qed.
End U.

(** ** The executor's dictionaries. *)
Lemma update_uniq strict fuel h c root h' r : uniq h -> execute_update_state strict fuel h c root = Ok (h', r) -> uniq h'.
Proof.
  intros U E. unfold execute_update_state in E.
  repeat match type of E with bindr ?X _ = _ => destruct X; cbn [bindr] in E; [|discriminate] end.
  eapply (td_set_uniq key_eqb key_eqb_iff); [exact U| |exact E]. exact I.
Qed.
Lemma execute_uniq strict fuel : forall cmds h root snaps h' err, uniq h -> execute_from strict fuel h root cmds = (snaps, h', err) -> uniq h'.
Proof.
  induction cmds as [|c cmds IH]; intros h root snaps h' err U E; cbn [execute_from] in E; [injection E as _ <- _; exact U|].
  match type of E with match ?X with _ => _ end = _ => destruct X as [[[h1 sn] cu]|e] eqn:Q end; [|injection E as _ <- _; exact U].
  destruct (execute_from strict fuel h1 cu cmds) as [[sn2 h2] er2] eqn:E2. injection E as _ <- _.
  eapply IH; [|exact E2]. destruct (execute_update_state strict fuel h c root) as [[ha ra]|] eqn:A; cbn [bindr fst snd] in Q; [|discriminate].
  apply update_uniq in A; [|exact U]. destruct (child ha ra k_global) as [g|]; cbn [bindr] in Q; [|discriminate].
  destruct (child ha g k_time) as [t|]; cbn [bindr] in Q; [|discriminate].
  destruct (eset fuel ha t k_timestamp _) as [[hb rb]|] eqn:B; cbn [bindr] in Q; [|discriminate]. apply Ok_inj in Q. injection Q as -> -> ->.
  eapply (td_set_uniq key_eqb key_eqb_iff); [exact A| |exact B]. exact I.
Qed.
Ltac nd := cbn [map fst]; repeat (apply NoDup_cons; [cbn [In]; let Q := fresh in intro Q; repeat (destruct Q as [Q|Q]; [discriminate Q|]); destruct Q|]); apply NoDup_nil.
Lemma replay_uniq strict cmds snaps h err : replay strict cmds snaps h err -> uniq h.
Proof.
  intros [N R]. specialize (R N (le_n N)). unfold execute in R.
  destruct (enew _ (mkHeap [] 0) None initial_states) as [[h0 root]|e] eqn:E.
  - eapply execute_uniq; [|exact R]. eapply (new_td_uniq (K := key) (V := val)); [|  | |exact E]; [intros a o L; discriminate L| |].
    + unfold initial_states. nd.
    + unfold initial_states, all_uniq. repeat apply Forall_cons; cbn [snd]; try apply Forall_nil; repeat match goal with
        | |- pyuniq (PDict _) => apply pyuniq_dict; split; [nd|unfold all_uniq]
        | |- Forall _ (_ :: _) => apply Forall_cons; cbn [snd]
        | |- Forall _ [] => apply Forall_nil
        end.
  - injection R as _ <- _. intros a o L. discriminate L.
Qed.
Lemma defined_prefix strict cmds n e : progress strict [] cmds n e -> forall k, (k <= n)%nat -> defined (firstn k cmds).
Proof.
  intros P. destruct (progress_facts _ _ _ _ _ P) as [L [_ [F _]]]. induction k as [|k IH]; intro H; [apply defined_nil|].
  destruct (nth_error cmds k) as [c|] eqn:E; [|apply nth_error_None in E; lia].
  assert (St : firstn (S k) cmds = firstn k cmds ++ [c]).
  { clear - E. revert k E. induction cmds as [|d r IH]; intros [|k] E; try discriminate; cbn in *; [injection E as <-; reflexivity|]. f_equal. apply IH. exact E. }
  rewrite St. apply defined_step; [apply IH; lia|]. exact (proj1 (F k c ltac:(lia) E)).
Qed.
Lemma mapM_total {A B} (f : A -> res B) (g : A -> B -> Prop) l : (forall x, In x l -> exists y, f x = Ok y) ->
  exists ys, mapM f l = Ok ys /\ Forall2 (fun x y => f x = Ok y) l ys.
Proof.
  induction l as [|x l IH]; intro H; [exists []; split; [reflexivity|constructor]|]. destruct (H x (or_introl eq_refl)) as [y Y].
  destruct IH as [ys [E F]]; [intros z Z; apply H; right; exact Z|]. exists (y :: ys). cbn [mapM]. rewrite Y. cbn [bindr]. rewrite E. split; [reflexivity|constructor; auto].
Qed.
Lemma last_path p : last (path_of p) (KText []) = KView (snd p).
Proof. rewrite path_base. apply last_last. Qed.

(** The text of the time column. *)
Definition time_text (t : option Z) : text := match t with Some z => str_int z | None => t_ "null" end.
(** A snapshot flattened has one cell for every place written so far, holding the text of the
    value the place holds, one cell for the time, and no others. *)
Theorem C62_cells : forall strict cmds snaps h err n a c, replay strict cmds snaps h err ->
  nth_error snaps n = Some a -> nth_error cmds n = Some c ->
  (forall p l, text_property (snd p) -> ~ holds_after (firstn (S n) cmds) p (Some (VList l))) ->
  exists cells, runs (fun fuel => flatten fuel h a) cells /\ NoDup (map fst cells) /\
    forall q t, In (q, t) cells <->
      (q = time_path /\ t = VStr (time_text (c_time c))) \/
      (exists p v, real_place p /\ q = path_of p /\ holds_after (firstn (S n) cmds) p (Some v) /\ prop_call [v] (snd p) M_to_str = Ok t).
Proof.
  intros strict cmds snaps h err n a c R A C NL. pose proof (replay_uniq _ _ _ _ _ R) as U.
  destruct (execute_spec strict cmds) as [s' [h' [e' [R' [P F]]]]]. destruct (replay_det _ _ _ _ _ _ _ _ R R') as [<- [<- <-]].
  destruct (F n a A) as [T [c' [C' [Rd [Sh [Tm On]]]]]]. assert (c' = c) by congruence. subst c'.
  assert (Df : defined (firstn (S n) cmds)).
  { eapply defined_prefix; [exact P|]. apply Nat.le_succ_l. apply nth_error_Some. congruence. }
  pose proof (uniq_reads h U T a Rd) as UT.
  assert (K : forall q v, In (q, v) (flat T) <-> (q = time_path /\ v = time_val (c_time c)) \/
              exists p, real_place p /\ q = path_of p /\ holds_after (firstn (S n) cmds) p (Some v)).
  { intros q v. rewrite (in_flat key_eqb key_eqb_iff T q v UT). split.
    - intro Q. destruct (On _ _ Q) as [->|[p [Rp ->]]]; [left; split; [auto|congruence]|]. right. exists p. split; [exact Rp|]. split; [auto|].
      destruct (Df p) as [o Ho]. rewrite (Sh p o Rp Ho) in Q. destruct o as [o|]; cbn in Q; [|discriminate]. injection Q as ->. exact Ho.
    - intros [[-> ->]|[p [Rp [-> Ho]]]]; [exact Tm|]. exact (Sh p (Some v) Rp Ho). }
  assert (Tot : forall x, In x (flat T) -> exists y, (do t <- key_to_str (last (fst x) (KText [])) (snd x); Ok (fst x, t)) = Ok y).
  { intros [q v] X. cbn [fst snd]. apply K in X. destruct X as [[-> ->]|[p [Rp [-> Ho]]]]; [eexists; reflexivity|].
    rewrite last_path. cbn [key_to_str]. rewrite to_str_prop. destruct (existsb _ _) eqn:E; [|eexists; reflexivity].
    destruct v as [|b|m|s|l]; try (eexists; reflexivity). exfalso. apply (NL p l); [apply text_property_b; exact E|exact Ho]. }
  destruct (mapM_total _ (fun _ _ => True) _ Tot) as [cells [M F2]]. exists cells. split.
  { exists (depth T). intros fuel Hf. unfold flatten. rewrite (flatten_reads h T a fuel Rd Hf). exact M. }
  assert (Keys : map fst cells = map fst (flat T)).
  { clear -F2. induction F2 as [|x y l ys E F2 IH]; cbn [map]; [auto|]. destruct (key_to_str _ _); cbn [bindr] in E; [|discriminate].
    apply Ok_inj in E. subst y. cbn [fst]. now rewrite IH. }
  split; [rewrite Keys; apply flat_nodup; exact UT|]. intros q t.
  assert (InC : In (q, t) cells <-> exists v, In (q, v) (flat T) /\ key_to_str (last q (KText [])) v = Ok t).
  { clear -F2. induction F2 as [|[q0 v0] [q1 t1] l ys E F2 IH]; [split; [intros []|intros [v [[] _]]]|]. cbn [In fst snd] in *.
    destruct (key_to_str (last q0 _) v0) as [t0|] eqn:E0; cbn [bindr] in E; [|discriminate]. apply Ok_inj in E. injection E as -> ->. rewrite IH. split.
    - intros [[= -> ->]|[v [A B]]]; [exists v0; auto|exists v; auto].
    - intros [v [[[= -> ->]|A] B]]; [left; congruence|right; eauto]. }
  rewrite InC. split.
  - intros [v [X Y]]. apply K in X. destruct X as [[-> ->]|[p [Rp [-> Ho]]]].
    + left. split; [auto|]. cbn in Y. destruct (c_time c); apply Ok_inj in Y; exact Y.
    + right. rewrite last_path in Y. exists p, v. auto.
  - intros [[-> ->]|[p [v [Rp [-> [Ho Y]]]]]].
    + exists (time_val (c_time c)). split; [apply K; auto|]. destruct (c_time c); reflexivity.
    + exists v. split; [apply K; right; eauto|]. rewrite last_path. exact Y.
Qed.
(** A cell read back is the value again, unless the property has type str. *)
Theorem C62_read : forall p v t, unicode_value v -> ~ text_property (snd p) -> prop_call [v] (snd p) M_to_str = Ok t ->
  exists w, cell_from_str (path_of p) t = Ok w /\ same_value v w.
Proof.
  intros p v t U N H. destruct (value_trip (snd p) v U ltac:(intro; contradiction)) as (s & w & A & B & _ & D & _).
  assert (t = VStr s) by congruence. subst t. exists w. unfold cell_from_str. rewrite last_path. split; [exact B|exact (D N)].
Qed.

Lemma holds_written cs p v : holds_after cs p (Some v) -> exists c, In c cs /\ c_prop c = snd p.
Proof.
  intro H. remember (Some v) as o eqn:E. revert v E. induction H as [p|cs c p o N H IH|cs c p o w A H IH F]; intros v E; [discriminate| |].
  - destruct (IH v E) as (d & X & Y). exists d. split; [apply in_or_app; left; exact X|exact Y].
  - exists c. split; [apply in_or_app; right; left; reflexivity|]. symmetry. apply A.
Qed.
(** Two commands, and the row of the second snapshot. *)
Definition flat_cmds : list command :=
  [mkCmd GV_wind U_REPLACE sub_all (VInt 0) (Some 3) (VInt 0) None; mkCmd PV_hand U_REPLACE (SId 1) (VList [VStr (t_ "1m")]) (Some 4) VNone None].
Example C62_example : exists snaps h a cells, replay false flat_cmds snaps h None /\ nth_error snaps 1 = Some a /\
  runs (fun fuel => flatten fuel h a) cells /\
  In (time_path, VStr (t_ "4")) cells /\ In (path_of (Some 1, PV_hand), VStr (t_ "[""1m""]")) cells.
Proof.
  destruct (C37_snapshots false flat_cmds) as [snaps [h [err [R _]]]].
  assert (Q : exists N, forall fuel, (N <= fuel)%nat -> execute false fuel flat_cmds = (snaps, h, err)) by exact R. destruct Q as [N Q].
  assert (X : err = None /\ exists a b, snaps = [a; b]).
  { pose proof (Q (N + 10)%nat ltac:(lia)) as E. rewrite Nat.add_comm in E. vm_compute in E. injection E as <- _ <-. eauto. }
  destruct X as [-> [a [b ->]]].
  assert (NL : forall p l, text_property (snd p) -> ~ holds_after (firstn 2 flat_cmds) p (Some (VList l))).
  { intros p l T H. destruct (holds_written _ _ _ H) as (c & X & Y). cbn in X. unfold text_property in T. rewrite <- Y in T.
    destruct X as [<-|[<-|[]]]; cbn in T; repeat (destruct T as [T|T]; [discriminate T|]); destruct T. }
  destruct (C62_cells false flat_cmds [a; b] h None 1 b _ R eq_refl eq_refl NL) as (cells & Ru & ND & I0).
  exists [a; b], h, b, cells. split; [exact R|]. split; [reflexivity|]. split; [exact Ru|].
  split; [apply I0; left; auto|]. apply I0. right. exists (Some 1, PV_hand), (VList [VStr (t_ "1m")]). split; [exists 1; split; [lia|reflexivity]|].
  split; [reflexivity|]. split; [|reflexivity]. change (firstn 2 flat_cmds) with ([mkCmd GV_wind U_REPLACE sub_all (VInt 0) (Some 3) (VInt 0) None] ++ [mkCmd PV_hand U_REPLACE (SId 1) (VList [VStr (t_ "1m")]) (Some 4) VNone None]).
  eapply ha_here with (v := None); [|change [mkCmd GV_wind U_REPLACE sub_all (VInt 0) (Some 3) (VInt 0) None] with ([] ++ [mkCmd GV_wind U_REPLACE sub_all (VInt 0) (Some 3) (VInt 0) None]); apply ha_other; [intros [X _]; discriminate X|constructor]|reflexivity].
  split; [reflexivity|]. cbn. exists 1. repeat split; lia.
Qed.
Print Assumptions C62_cells.
