(** Model of mahjong/record/utils/builder.py: the stack of keyword dictionaries.

    The keyword dictionaries have keys [K] compared by [keqb] and values [V]. *)
From Verif Require Import Base.
From Coq Require Import List ZArith Lia Bool.
Import ListNotations.

Section Builder.
Context {K V R : Type} (keqb : K -> K -> bool).

(** A dict in insertion order: reading, [d[k] = v], [d.update(other)]. *)
Definition kwargs := list (K * V).
Fixpoint kw_get (d : kwargs) (k : K) : option V :=
  match d with [] => None | (k', v) :: r => if keqb k' k then Some v else kw_get r k end.
Fixpoint kw_put (d : kwargs) (k : K) (v : V) : kwargs :=
  match d with
  | [] => [(k, v)]
  | (k', v') :: r => if keqb k' k then (k', v) :: r else (k', v') :: kw_put r k v
  end.
Definition kw_update (d other : kwargs) : kwargs := fold_left (fun a kv => kw_put a (fst kv) (snd kv)) other d.

(** 8-13 [StackedDict.merged_dict]; the stack is the Python list [stack_dicts]. *)
Definition merged_dict (stack : list kwargs) : kwargs := fold_left kw_update stack [].
(** 25-26 [__enter__], 28-29 [__exit__]: [list.pop()]. *)
Definition enter (stack : list kwargs) (item : kwargs) : list kwargs := stack ++ [item].
Definition exit_ (stack : list kwargs) : res (list kwargs) :=
  match rev stack with [] => Err IndexError | _ :: r => Ok (rev r) end.

(** A program using one builder. [Call kw k] is [builder( **kw )], going on with [k] of its
    outcome (a result or the exception the constructor raised); [When kw body k] is a
    [with builder.when( **kw ): body], going on with [k] of the outcome of the body: normal,
    or the exception that left it (which [k] may re-raise or handle). *)
Inductive prog :=
| Done
| Raise (e : exn)
| Call (kw : kwargs) (k : res R -> prog)
| When (kw : kwargs) (body : prog) (k : option exn -> prog).

Context (ctor : kwargs -> res R).

(** 42-44 [__call__] inside [with self.when( **kwargs )]. *)
Definition call (stack : list kwargs) (kw : kwargs) : res (res R * kwargs * list kwargs) :=
  let s := enter stack kw in
  let m := merged_dict s in
  let r := ctor m in
  do s' <- exit_ s; Ok (r, m, s').

(** A run: the dictionaries handed to the constructor, how it ended, the stack left. *)
Fixpoint run (stack : list kwargs) (p : prog) : res (list kwargs * option exn * list kwargs) :=
  match p with
  | Done => Ok ([], None, stack)
  | Raise e => Ok ([], Some e, stack)
  | Call kw k =>
    do c <- call stack kw;
    let '(r, m, s) := c in
    do rest <- run s (k r);
    let '(log, out, s') := rest in Ok (m :: log, out, s')
  | When kw body k =>
    do b <- run (enter stack kw) body;
    let '(log, out, s) := b in
    do s1 <- exit_ s;
    do rest <- run s1 (k out);
    let '(log', out', s') := rest in Ok (log ++ log', out', s')
  end.
End Builder.
Arguments prog : clear implicits.
