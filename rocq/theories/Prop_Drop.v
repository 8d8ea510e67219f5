(** C94, C95: [TransferDict.drop] and [TransferDict.setdefault]. *)
From Verif Require Import Base Transfer Spec_Transfer TransferProofs Prop_Transfer.
From Coq Require Import List ZArith Lia Bool Arith.
Import ListNotations.

(** In any program using the class, [x.drop(k)] on a dictionary [x] found below any root the
    program has, where [x] has the key [k], returns a whole new root; there nothing is found at
    or below that entry, everything else reads as in the old root, and every dictionary object
    there was still reads the same. The new root can itself be used the same way. *)
Theorem C94_drop : forall (K V : Type) (keqb : K -> K -> bool), (forall a b, keqb a b = true <-> a = b) ->
  forall (h : heap K V) roots root T path x k c,
  session keqb h roots -> In root roots -> reads h root T -> walk keqb h root path = Some x ->
  at_path keqb T (path ++ [k]) = Some c ->
  exists h' new T',
    runs (fun fuel => td_drop keqb fuel h x k) (h', new) /\
    session keqb h' (new :: roots) /\
    reads h' new T' /\
    (exists rest, at_path keqb T' path = Some (TNode rest)) /\
    (forall p, at_path keqb T' (path ++ k :: p) = None) /\
    (forall q, elsewhere q (path ++ [k]) -> at_path keqb T' q = at_path keqb T q) /\
    (forall y s, reads h y s -> reads h' y s).
Proof.
  intros K V keqb Keq h roots root T path x k c S0 I0 R W Ac.
  destruct (at_walk keqb Keq h roots root T path x S0 I0 R W) as [kids [Rx Ax]].
  assert (Ek : entry keqb kids k = Some c).
  { rewrite at_path_app in Ac. rewrite Ax in Ac. cbn in Ac. destruct (entry keqb kids k); [exact Ac|discriminate]. }
  destruct (drop_in_session keqb Keq h roots root T path x k kids c S0 I0 R W Rx Ek) as [h' [r [T' [Run [Rd [G [Ar [A B]]]]]]]].
  exists h', r, T'. split; [exact Run|]. split; [exact (s_drop keqb _ _ _ _ _ _ _ _ S0 I0 W Run)|].
  split; [exact Rd|]. split; [exact Ar|]. split; [exact A|]. split; [exact B|].
  intros y s Ry. apply (reads_mono h); [|exact Ry].
  apply grown_extends; [|exact G]. exact (proj1 (session_ok keqb Keq h roots S0)).
Qed.

(** Where [x] has no such key the call is a KeyError, whatever the fuel. *)
Theorem C94_missing : forall (K V : Type) (keqb : K -> K -> bool), (forall a b, keqb a b = true <-> a = b) ->
  forall (h : heap K V) roots root T path x k,
  session keqb h roots -> In root roots -> reads h root T -> walk keqb h root path = Some x ->
  at_path keqb T (path ++ [k]) = None ->
  forall fuel, td_drop keqb fuel h x k = Err KeyError.
Proof.
  intros K V keqb Keq h roots root T path x k S0 I0 R W Ac fuel.
  destruct (at_walk keqb Keq h roots root T path x S0 I0 R W) as [kids [Rx Ax]].
  rewrite at_path_app in Ac. rewrite Ax in Ac. cbn in Ac.
  destruct (proj1 (reads_node h x kids) Rx) as [o [L _]]. pose proof (reads_get keqb h x kids o k Rx L) as G.
  unfold td_drop. rewrite L. destruct (entry keqb kids k); [discriminate|]. rewrite G. reflexivity.
Qed.

(** [x.setdefault(k, v)] where [x] has no key [k] is [x.set(k, v)]: a whole new root with the
    entry added. *)
Theorem C95_absent : forall (K V : Type) (keqb : K -> K -> bool), (forall a b, keqb a b = true <-> a = b) ->
  forall (h : heap K V) roots root T path x k v t,
  session keqb h roots -> In root roots -> reads h root T -> walk keqb h root path = Some x ->
  stands_for keqb h roots v t -> at_path keqb T (path ++ [k]) = None ->
  exists h' new T',
    runs (fun fuel => td_setdefault keqb fuel h x k v) (h', new) /\
    session keqb h' (new :: roots) /\
    reads h' new T' /\
    (forall p, at_path keqb T' (path ++ k :: p) = at_path keqb t p) /\
    (forall q, elsewhere q (path ++ [k]) -> at_path keqb T' q = at_path keqb T q) /\
    (forall y s, reads h y s -> reads h' y s).
Proof.
  intros K V keqb Keq h roots root T path x k v t S0 I0 R W St Ac.
  destruct (at_walk keqb Keq h roots root T path x S0 I0 R W) as [kids [Rx Ax]].
  rewrite at_path_app in Ac. rewrite Ax in Ac. cbn in Ac.
  destruct (proj1 (reads_node h x kids) Rx) as [o [L _]]. pose proof (reads_get keqb h x kids o k Rx L) as G.
  destruct (entry keqb kids k); [discriminate|].
  destruct (C36_set K V keqb Keq h roots root T path x k v t S0 I0 R W St) as [h' [r [T' [Run [Rd [A [B C]]]]]]].
  exists h', r, T'. split.
  { destruct Run as [N Run]. exists N. intros fuel Hf. unfold td_setdefault. rewrite L, G. exact (Run fuel Hf). }
  split; [exact (s_set keqb _ _ _ _ _ _ _ _ _ _ S0 I0 W St Run)|]. auto.
Qed.
(** Where [x] has the key nothing is made and the very object [x] is returned, whatever the
    value under the key is. *)
Theorem C95_present : forall (K V : Type) (keqb : K -> K -> bool), (forall a b, keqb a b = true <-> a = b) ->
  forall (h : heap K V) roots root T path x k v c,
  session keqb h roots -> In root roots -> reads h root T -> walk keqb h root path = Some x ->
  at_path keqb T (path ++ [k]) = Some c ->
  forall fuel, td_setdefault keqb fuel h x k v = Ok (h, x).
Proof.
  intros K V keqb Keq h roots root T path x k v c S0 I0 R W Ac fuel.
  destruct (at_walk keqb Keq h roots root T path x S0 I0 R W) as [kids [Rx Ax]].
  rewrite at_path_app in Ac. rewrite Ax in Ac. cbn in Ac.
  destruct (proj1 (reads_node h x kids) Rx) as [o [L _]]. pose proof (reads_get keqb h x kids o k Rx L) as G.
  unfold td_setdefault. rewrite L. destruct (entry keqb kids k); [|discriminate]. destruct G as [c' ->]. reflexivity.
Qed.
(** So the result is not always a whole root: below the top, with the key present, the result
    of [setdefault] is the inner dictionary, where the other entries of the root are missing. *)
Theorem C95_root_refuted : exists (h : heap nat Z) roots root T path x k v,
  session Nat.eqb h roots /\ In root roots /\ reads h root T /\ walk Nat.eqb h root path = Some x /\
  exists h' new T',
    runs (fun fuel => td_setdefault Nat.eqb fuel h x k v) (h', new) /\ reads h' new T' /\
    exists q c, elsewhere q (path ++ [k]) /\ at_path Nat.eqb T q = Some c /\ at_path Nat.eqb T' q = None.
Proof.
  exists ex_heap, [0%nat], 0%nat, (TNode [(1%nat, TNode [(2%nat, TLeaf 10%Z)]); (3%nat, TLeaf 20%Z)]), [1%nat], 1%nat, 2%nat, (PLeaf 11%Z).
  split; [exact C36_made|]. split; [left; reflexivity|].
  assert (R1 : reads ex_heap 1 (TNode [(2%nat, TLeaf 10%Z)])) by (eexists; split; [reflexivity|]; cbn; auto).
  split; [eexists; split; [reflexivity|]; cbn -[ex_heap]; split; [reflexivity|]; split; [exact R1|]; auto|].
  split; [reflexivity|].
  exists ex_heap, 1%nat, (TNode [(2%nat, TLeaf 10%Z)]). split; [exists 0%nat; reflexivity|]. split; [exact R1|].
  exists [3%nat], (TLeaf 20%Z). split; [intro r; split; intro X; discriminate X|]. split; reflexivity.
Qed.

(** [d = TransferDict({1: {2: 10}, 3: 20})], [d[1].drop(2)]. *)
Example C94_example : exists h' new T',
  runs (fun fuel => td_drop Nat.eqb fuel ex_heap 1%nat 2%nat) (h', new) /\ reads h' new T' /\
  at_path Nat.eqb T' [1%nat; 2%nat] = None /\ at_path Nat.eqb T' [1%nat] = Some (TNode []) /\ at_path Nat.eqb T' [3%nat] = Some (TLeaf 20%Z).
Proof.
  exists (mkHeap (cells (fst (match td_drop Nat.eqb 9 ex_heap 1%nat 2%nat with Ok r => r | _ => (ex_heap, 0%nat) end)))
    (next (fst (match td_drop Nat.eqb 9 ex_heap 1%nat 2%nat with Ok r => r | _ => (ex_heap, 0%nat) end)))).
  exists (snd (match td_drop Nat.eqb 9 ex_heap 1%nat 2%nat with Ok r => r | _ => (ex_heap, 0%nat) end)), (TNode [(1%nat, TNode []); (3%nat, TLeaf 20%Z)]).
  split.
  { exists 9%nat. intros fuel Hf. apply (td_drop_more Nat.eqb 9); [vm_compute; reflexivity|exact Hf]. }
  split; [|split; [reflexivity|split; reflexivity]].
  vm_compute. eexists. split; [reflexivity|]. split; [reflexivity|]. split; [|split; [reflexivity|]; auto].
  eexists. split; reflexivity.
Qed.
(** The hypotheses of the general theorem hold there. *)
Example C94_example_general : exists h' new T',
  runs (fun fuel => td_drop Nat.eqb fuel ex_heap 1%nat 2%nat) (h', new) /\ session Nat.eqb h' [new; 0%nat] /\
  reads h' new T' /\ at_path Nat.eqb T' [3%nat] = Some (TLeaf 20%Z).
Proof.
  destruct (C94_drop nat Z Nat.eqb Nat.eqb_eq ex_heap [0%nat] 0%nat
      (TNode [(1%nat, TNode [(2%nat, TLeaf 10%Z)]); (3%nat, TLeaf 20%Z)]) [1%nat] 1%nat 2%nat (TLeaf 10%Z) C36_made)
    as [h' [r [T' [Run [Se [Rd [_ [_ [B _]]]]]]]]].
  - left; reflexivity.
  - eexists. split; [reflexivity|]. cbn. split; [reflexivity|]. split; [|split; [reflexivity|]; auto].
    eexists. split; [reflexivity|]. cbn. auto.
  - reflexivity.
  - reflexivity.
  - exists h', r, T'. split; [exact Run|]. split; [exact Se|]. split; [exact Rd|].
    rewrite B; [reflexivity|]. intro rr. split; intro X; discriminate X.
Qed.
Print Assumptions C94_drop.
Print Assumptions C94_missing.
Print Assumptions C95_absent.
Print Assumptions C95_present.
Print Assumptions C95_root_refuted.
