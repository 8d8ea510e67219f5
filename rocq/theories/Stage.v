(** Model of mahjong/record/stage.py: [StageGroupby] as a machine driven by the two calls
    a user can make, [next(object)] and [next(group)]. *)
From Verif Require Import Base.
From Coq Require Import List ZArith Lia Bool.
Import ListNotations.

Section Stage.
Context {T K : Type} (keqb : K -> K -> bool) (key : T -> K) (stages : list K).

(** [tgtkey]: [UnknownKey(value)] (12-17) or a list of stages. The initial value of line
    27 is a new object, equal to no key: [None]. *)
Inductive target := TUnknown (value : option K) | TStages (l : list K).

Definition okeqb (a : option K) (b : option K) : bool :=
  match a, b with Some x, Some y => keqb x y | None, None => true | _, _ => false end.

(** 43-51 [_stage_accepted]: the answer, and the target list after the deletions. *)
Fixpoint drop_stages (l : list K) (k : option K) : bool * list K :=
  match l with
  | [] => (false, [])
  | s :: r => if okeqb k (Some s) then (true, l) else drop_stages r k
  end.
Definition stage_accepted (t : target) (k : option K) : bool * target :=
  match t with
  | TUnknown v => (okeqb v k, t)
  | TStages l => let (b, l') := drop_stages l k in (b, TStages l')
  end.

(** A group generator (53-60): not started, suspended at the [yield], or finished. *)
Inductive gen := GNew | GSuspended | GDone.

(** The object (21-28). [cur] is the position of the group whose [id] is [self.id], if
    any; [groups] are the generators handed out, by position. Only the target of the
    latest group is kept: an older group tests [self.id is id] first, so its own list is
    never read again. *)
Record st := mkSt {
  it : list T; currvalue : option T; currkey : option K; tgtkey : target;
  cur : option nat; groups : list gen }.
Definition start (iterable : list T) : st := mkSt iterable None None (TUnknown None) None [].

(** 36-38: the skipping loop; [None] when the iterator is exhausted first. *)
Fixpoint skip (t : target) (v : option T) (k : option K) (l : list T) : target * option T * option K * option (list T) :=
  match stage_accepted t k with
  | (true, t') => match l with
                  | [] => (t', v, k, None)
                  | x :: r => skip t' (Some x) (Some (key x)) r
                  end
  | (false, t') => (t', v, k, Some l)
  end.

(** [currkey in stages], [stages[stages.index(currkey):]] (39-40). *)
Fixpoint from_stage (l : list K) (k : option K) : option (list K) :=
  match l with
  | [] => None
  | s :: r => if okeqb (Some s) k then Some l else from_stage r k
  end.
Definition new_target (k : option K) : target :=
  match from_stage stages k with Some l => TStages l | None => TUnknown k end.

(** What the caller gets: [StopIteration] of the object, a group with its key, an element,
    or the end of a group. *)
Inductive out := OStop | OGroup (t : target) | OElem (x : T) | OEnd.

(** 33-41 [__next__]. *)
Definition next_group (s : st) : out * st :=
  match skip (tgtkey s) (currvalue s) (currkey s) (it s) with
  | (t, v, k, None) => (OStop, mkSt [] v k t None (groups s))
  | (_, v, k, Some l) =>
    let t := new_target k in
    (OGroup t, mkSt l v k t (Some (length (groups s))) (groups s ++ [GNew]))
  end.

Fixpoint set_nth {A} (l : list A) (i : nat) (a : A) : list A :=
  match l, i with
  | [], _ => []
  | _ :: r, O => a :: r
  | x :: r, S j => x :: set_nth r j a
  end.

(** 54-55: the loop test of group [i], and the [yield]. *)
Definition test_group (s : st) (i : nat) : out * st :=
  let fin t := mkSt (it s) (currvalue s) (currkey s) t (cur s) (set_nth (groups s) i GDone) in
  if match cur s with Some j => Nat.eqb i j | None => false end then
    match stage_accepted (tgtkey s) (currkey s), currvalue s with
    | (true, t), Some x => (OElem x, mkSt (it s) (Some x) (currkey s) t (cur s) (set_nth (groups s) i GSuspended))
    | (_, t), _ => (OEnd, fin t)
    end
  else (OEnd, fin (tgtkey s)).

(** [next(group i)]. *)
Definition pull (s : st) (i : nat) : out * st :=
  match nth_error (groups s) i with
  | Some GNew => test_group s i
  | Some GSuspended =>
    match it s with
    | [] => (OEnd, mkSt [] (currvalue s) (currkey s) (tgtkey s) (cur s) (set_nth (groups s) i GDone))
    | x :: r => test_group (mkSt r (Some x) (Some (key x)) (tgtkey s) (cur s) (groups s)) i
    end
  | _ => (OEnd, s)
  end.

(** A sequence of calls and what they return. *)
Inductive op := Next | Pull (i : nat).
Definition step (s : st) (o : op) : out * st := match o with Next => next_group s | Pull i => pull s i end.
Fixpoint run (s : st) (ops : list op) : list out :=
  match ops with [] => [] | o :: r => let (x, s') := step s o in x :: run s' r end.

(** [list(g)] of the group at position [i], and [list((k, list(g)) for k, g in object)].
    The fuel bounds the number of calls. *)
Fixpoint drain (fuel : nat) (s : st) (i : nat) : res (list T * st) :=
  match fuel with
  | O => Err OutOfFuel
  | S f => match pull s i with
           | (OElem x, s') => do r <- drain f s' i; Ok (x :: fst r, snd r)
           | (_, s') => Ok ([], s')
           end
  end.
Fixpoint consume (fuel : nat) (s : st) : res (list (target * list T)) :=
  match fuel with
  | O => Err OutOfFuel
  | S f => match next_group s with
           | (OGroup t, s') =>
             do g <- drain f s' (length (groups s));
             do r <- consume f (snd g); Ok ((t, fst g) :: r)
           | (_, _) => Ok []
           end
  end.
End Stage.
Arguments target : clear implicits. Arguments st : clear implicits. Arguments out : clear implicits.
