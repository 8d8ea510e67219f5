(** Model of mahjong/record/universe/executor.py 141-222: [TransferDict], as objects in a
    heap. Keys [K] are compared by [keqb]; values that are not dictionaries are [V]. *)
From Verif Require Import Base.
From Coq Require Import List ZArith Lia Bool.
Import ListNotations.

Section Transfer.
Context {K V : Type} (keqb : K -> K -> bool).

(** What a [nested_dict] holds under a key: a plain value or a TransferDict object. *)
Inductive cell := Leaf (v : V) | Ref (a : nat).
(** 143-148: the fields of an object ([parent] and [parent_key] together). *)
Record obj := mkObj { o_parent : option (nat * K); o_items : list (K * cell) }.
(** The objects made so far; [next] is the identity of the next one. Objects are never
    changed after construction: the model can only add. *)
Record heap := mkHeap { cells : list (nat * obj); next : nat }.
Fixpoint find_obj (l : list (nat * obj)) (a : nat) : option obj :=
  match l with [] => None | (b, o) :: r => if Nat.eqb b a then Some o else find_obj r a end.
Definition lookup_obj (h : heap) (a : nat) : option obj := find_obj (cells h) a.
Definition write (h : heap) (a : nat) (o : obj) : heap := mkHeap ((a, o) :: cells h) (next h).

(** A value handed to the constructor or to [set]: plain, a dict, or a TransferDict. *)
Inductive pyv := PLeaf (v : V) | PDict (l : list (K * pyv)) | PRef (a : nat).
Definition cell_pyv (c : cell) : pyv := match c with Leaf v => PLeaf v | Ref a => PRef a end.
Definition as_dict (items : list (K * cell)) : list (K * pyv) := map (fun e => (fst e, cell_pyv (snd e))) items.

(** [d[k] = v] / [{**d, k: v}] in insertion order; [d[k]]; [del d[k]]. *)
Fixpoint dict_put {A} (d : list (K * A)) (k : K) (v : A) : list (K * A) :=
  match d with
  | [] => [(k, v)]
  | (k', v') :: r => if keqb k' k then (k', v) :: r else (k', v') :: dict_put r k v
  end.
Fixpoint dict_get {A} (d : list (K * A)) (k : K) : option A :=
  match d with [] => None | (k', v) :: r => if keqb k' k then Some v else dict_get r k end.
Definition dict_del {A} (d : list (K * A)) (k : K) : list (K * A) := filter (fun e => negb (keqb (fst e) k)) d.

(** 142-148 [__init__], with 216-222 [transfer_value]: the children are copied with this
    object as their parent. The fuel bounds the nesting depth. *)
Fixpoint new_td (fuel : nat) (h : heap) (parent : option (nat * K)) (nested : list (K * pyv)) : res (heap * nat) :=
  match fuel with
  | O => Err OutOfFuel
  | S f =>
    let self := next h in
    let fix transfer (h : heap) (l : list (K * pyv)) : res (heap * list (K * cell)) :=
      match l with
      | [] => Ok (h, [])
      | (k, v) :: r =>
        do x <- (match v with
                 | PLeaf v => Ok (h, Leaf v)
                 | PDict d => do y <- new_td f h (Some (self, k)) d; Ok (fst y, Ref (snd y))
                 | PRef a => match lookup_obj h a with
                             | Some o => do y <- new_td f h (Some (self, k)) (as_dict (o_items o)); Ok (fst y, Ref (snd y))
                             | None => Err AttributeError
                             end
                 end);
        do xs <- transfer (fst x) r;
        Ok (fst xs, (k, snd x) :: snd xs)
      end in
    do x <- transfer (mkHeap (cells h) (S self)) nested;
    Ok (write (fst x) self (mkObj parent (snd x)), self)
  end.

(** 182-194 [set]. The fuel bounds the length of the parent chain as well. *)
Fixpoint td_set (fuel : nat) (h : heap) (self : nat) (key : K) (value : pyv) : res (heap * nat) :=
  match fuel with
  | O => Err OutOfFuel
  | S f =>
    match lookup_obj h self with
    | None => Err AttributeError
    | Some o =>
      let modified_dict := dict_put (as_dict (o_items o)) key value in
      do m <- new_td fuel h (o_parent o) modified_dict;
      match o_parent o with
      | Some (p, pk) => td_set f (fst m) p pk (PRef (snd m))
      | None => Ok m
      end
    end
  end.

(** 202-208 [drop]. *)
Definition td_drop (fuel : nat) (h : heap) (self : nat) (key : K) : res (heap * nat) :=
  match lookup_obj h self with
  | None => Err AttributeError
  | Some o =>
    match dict_get (o_items o) key with
    | None => Err KeyError
    | Some _ =>
      do m <- new_td fuel h None (as_dict (dict_del (o_items o) key));
      match o_parent o with
      | Some (p, pk) => td_set fuel (fst m) p pk (PRef (snd m))
      | None => Ok m
      end
    end
  end.

(** 210-214 [setdefault]. *)
Definition td_setdefault (fuel : nat) (h : heap) (self : nat) (key : K) (default : pyv) : res (heap * nat) :=
  match lookup_obj h self with
  | None => Err AttributeError
  | Some o => match dict_get (o_items o) key with
              | None => td_set fuel h self key default
              | Some _ => Ok (h, self)
              end
  end.

(** 165-166 [__getitem__]; [.get(key, None)] is the option. *)
Definition td_get (h : heap) (self : nat) (key : K) : res (option cell) :=
  match lookup_obj h self with None => Err AttributeError | Some o => Ok (dict_get (o_items o) key) end.
(** 150-157 [flatten_iter]: the paths to the values that are not dictionaries. *)
Fixpoint td_flatten_iter (fuel : nat) (h : heap) (self : nat) : res (list (list K * V)) :=
  match fuel with
  | O => Err OutOfFuel
  | S f =>
    match lookup_obj h self with
    | None => Err AttributeError
    | Some o =>
      (fix go (items : list (K * cell)) : res (list (list K * V)) :=
         match items with
         | [] => Ok []
         | (k, c) :: r =>
           do xs <- (match c with
                     | Leaf v => Ok [([k], v)]
                     | Ref b => do sub <- td_flatten_iter f h b; Ok (map (fun e => (k :: fst e, snd e)) sub)
                     end);
           do ys <- go r; Ok (xs ++ ys)
         end) (o_items o)
    end
  end.
End Transfer.
Arguments cell : clear implicits.
Arguments obj : clear implicits.
Arguments heap : clear implicits.
Arguments pyv : clear implicits.
