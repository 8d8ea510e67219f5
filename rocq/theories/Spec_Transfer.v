(** Specification vocabulary for the nested read-only dictionaries: plain nested
    dictionaries and what is found in them along a path of keys. *)
From Verif Require Import Base Transfer.
From Coq Require Import List.
Import ListNotations.

(** A plain nested dictionary. *)
Inductive tree (K V : Type) := TLeaf (v : V) | TNode (kids : list (K * tree K V)).
Arguments TLeaf {K V} v.
Arguments TNode {K V} kids.

(** The entry under a key. *)
Fixpoint entry {K A} (keqb : K -> K -> bool) (d : list (K * A)) (k : K) : option A :=
  match d with [] => None | (k', v) :: r => if keqb k' k then Some v else entry keqb r k end.
(** What is found following a path: [t[k1][k2]...]. *)
Fixpoint at_path {K V} (keqb : K -> K -> bool) (t : tree K V) (path : list K) : option (tree K V) :=
  match path with
  | [] => Some t
  | k :: r => match t with
              | TLeaf _ => None
              | TNode kids => match entry keqb kids k with Some s => at_path keqb s r | None => None end
              end
  end.
Definition is_dict {K V} (t : tree K V) : Prop := exists kids, t = TNode kids.
(** [p] does not lead to, through or below the place [q]. *)
Definition elsewhere {K} (p q : list K) : Prop := forall r, p <> q ++ r /\ q <> p ++ r.

(** The object [a] of the heap reads as the nested dictionary [t]. *)
Fixpoint reads {K V} (h : heap K V) (a : nat) (t : tree K V) {struct t} : Prop :=
  match t with
  | TLeaf _ => False
  | TNode kids =>
    exists o, lookup_obj h a = Some o /\
    (fix go items kids {struct kids} : Prop :=
      match items, kids with
      | [], [] => True
      | (k, c) :: items', (k', t') :: kids' =>
          k = k' /\ (match c with Leaf v => t' = TLeaf v | Ref b => reads h b t' end) /\ go items' kids'
      | _, _ => False
      end) (o_items o) kids
  end.
(** [root[k1][k2]...] is a dictionary object. *)
Fixpoint walk {K V} (keqb : K -> K -> bool) (h : heap K V) (root : nat) (path : list K) : option nat :=
  match path with
  | [] => Some root
  | k :: r => match td_get keqb h root k with
              | Ok (Some (Ref b)) => walk keqb h b r
              | _ => None
              end
  end.
(** A call finishes with [x] (given enough of the model's fuel). *)
Definition runs {A} (f : nat -> res A) (x : A) : Prop := exists N, forall fuel, (N <= fuel)%nat -> f fuel = Ok x.
(** What a value given to [set] or the constructor stands for: a plain value, a dictionary
    of such values, or a TransferDict found below one of the [roots]. *)
Inductive stands_for {K V} (keqb : K -> K -> bool) (h : heap K V) (roots : list nat) : pyv K V -> tree K V -> Prop :=
| sf_leaf v : stands_for keqb h roots (PLeaf v) (TLeaf v)
| sf_ref root path a t : In root roots -> walk keqb h root path = Some a -> reads h a t -> stands_for keqb h roots (PRef a) t
| sf_dict l kids : Forall2 (fun i e => fst i = fst e /\ stands_for keqb h roots (snd i) (snd e)) l kids ->
    stands_for keqb h roots (PDict l) (TNode kids).
(** A program using the class: it makes dictionaries and calls [set] and [drop] on any dictionary found
    below a root it has; [roots] are all the roots it ever got. *)
Inductive session {K V} (keqb : K -> K -> bool) : heap K V -> list nat -> Prop :=
| s_start : session keqb (mkHeap [] 0) []
| s_make h roots d t h' r : session keqb h roots -> stands_for keqb h roots (PDict d) t ->
    runs (fun fuel => new_td fuel h None d) (h', r) -> session keqb h' (r :: roots)
| s_set h roots root path x k v t h' r : session keqb h roots -> In root roots -> walk keqb h root path = Some x ->
    stands_for keqb h roots v t -> runs (fun fuel => td_set keqb fuel h x k v) (h', r) -> session keqb h' (r :: roots)
| s_drop h roots root path x k h' r : session keqb h roots -> In root roots -> walk keqb h root path = Some x ->
    runs (fun fuel => td_drop keqb fuel h x k) (h', r) -> session keqb h' (r :: roots).
