(** C36: [TransferDict.set] is a persistent nested update. *)
From Verif Require Import Base Transfer Spec_Transfer TransferProofs.
From Coq Require Import List ZArith Lia Bool Arith.
Import ListNotations.

(** In any program using the class, [x.set(k, v)] on a dictionary [x] found below any root
    the program has (at any depth, in any old version) returns a whole new root; there the
    entry is [v], everything else reads as in the old root, and every dictionary object there
    was still reads the same. *)
Theorem C36_set : forall (K V : Type) (keqb : K -> K -> bool), (forall a b, keqb a b = true <-> a = b) ->
  forall (h : heap K V) roots root T path x k v t,
  session keqb h roots -> In root roots -> reads h root T -> walk keqb h root path = Some x ->
  stands_for keqb h roots v t ->
  exists h' new T',
    runs (fun fuel => td_set keqb fuel h x k v) (h', new) /\
    reads h' new T' /\
    (forall p, at_path keqb T' (path ++ k :: p) = at_path keqb t p) /\
    (forall q, elsewhere q (path ++ [k]) -> at_path keqb T' q = at_path keqb T q) /\
    (forall y s, reads h y s -> reads h' y s).
Proof.
  intros K V keqb Keq h roots root T path x k v t S0 I0 R W St.
  destruct (set_in_session keqb Keq h roots root T path x k v t S0 I0 R W St) as [h' [r [T' [Run [Rd [G [A B]]]]]]].
  exists h', r, T'. split; [exact Run|]. split; [exact Rd|]. split; [exact A|]. split; [exact B|].
  intros y s Ry. apply (reads_mono h); [|exact Ry].
  apply grown_extends; [|exact G]. exact (proj1 (session_ok keqb Keq h roots S0)).
Qed.

(** The roots of a session are dictionaries, so that the premise [reads h root T] can always
    be met. *)
Theorem C36_roots_read : forall (K V : Type) (keqb : K -> K -> bool), (forall a b, keqb a b = true <-> a = b) ->
  forall (h : heap K V) roots root, session keqb h roots -> In root roots -> exists T, reads h root T /\ is_dict T.
Proof.
  intros K V keqb Keq h roots root S0 I0. destruct (session_ok keqb Keq h roots S0) as [_ R].
  destruct (R root I0) as [T G]. exists T. split; [exact (good_reads h T _ _ G)|]. exact (good_dict _ _ _ _ G).
Qed.

(** A session: [d = TransferDict({1: {2: 10}, 3: 20})], [d[1].set(2, 11)]. *)
Definition ex_dict : list (nat * pyv nat Z) := [(1%nat, PDict [(2%nat, PLeaf 10)]); (3%nat, PLeaf 20)].
Definition ex_heap : heap nat Z := mkHeap [(0%nat, mkObj None [(1%nat, Ref 1%nat); (3%nat, Leaf 20)]); (1%nat, mkObj (Some (0%nat, 1%nat)) [(2%nat, Leaf 10)])] 2.
Example C36_made : session Nat.eqb ex_heap [0%nat].
Proof.
  apply (s_make Nat.eqb (mkHeap [] 0) [] ex_dict (TNode [(1%nat, TNode [(2%nat, TLeaf 10)]); (3%nat, TLeaf 20)])).
  - constructor.
  - repeat (constructor; cbn).
  - exists 5%nat. intros fuel H. do 5 (destruct fuel as [|fuel]; [lia|]). reflexivity.
Qed.
Example C36_example : exists h' new T',
  runs (fun fuel => td_set Nat.eqb fuel ex_heap 1%nat 2%nat (PLeaf 11)) (h', new) /\ reads h' new T' /\
  at_path Nat.eqb T' [1%nat; 2%nat] = Some (TLeaf 11) /\ at_path Nat.eqb T' [3%nat] = Some (TLeaf 20).
Proof.
  destruct (C36_set nat Z Nat.eqb Nat.eqb_eq ex_heap [0%nat] 0%nat
      (TNode [(1%nat, TNode [(2%nat, TLeaf 10)]); (3%nat, TLeaf 20)]) [1%nat] 1%nat 2%nat (PLeaf 11) (TLeaf 11) C36_made)
    as [h' [r [T' [Run [Rd [A [B _]]]]]]].
  - left; reflexivity.
  - eexists. split; [reflexivity|]. cbn. split; [reflexivity|]. split; [|split; [reflexivity|]; auto].
    eexists. split; [reflexivity|]. cbn. auto.
  - reflexivity.
  - constructor.
  - exists h', r, T'. split; [exact Run|]. split; [exact Rd|]. split; [exact (A [])|].
    rewrite B; [reflexivity|]. intro rr. split; intro X; discriminate X.
Qed.
Print Assumptions C36_set.
Print Assumptions C36_roots_read.
