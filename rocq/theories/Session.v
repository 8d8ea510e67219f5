(** Model of tenhou/__init__.py 5-8: the generators [to_command_iter] makes, which all work on
    the one translator [tenhou_command] of xml_macher.py 82. *)
From Verif Require Import Base Text Event Value Universe Translator.
From Coq Require Import List ZArith.
Import ListNotations.
Open Scope list_scope.
Open Scope Z_scope.

(** 5-8: a generator whose body was not entered yet, one that was suspended in the [yield from]
    of line 8 (with the events and the commands still to come), and one that has ended. *)
Inductive gen :=
| Fresh (strict : bool) (events : list event)
| Running (strict : bool) (i : Z) (events : list event) (pending : list command)
| Done.
(** What [next] gives: a command, StopIteration, or the exception raised by the body. *)
Inductive outcome := Yield (c : command) | Stop | Raise (e : exn).

Section Session.
Variable t : translator.
(** The context an exception leaves behind: any, the model does not say which. *)
Variable broken : event -> ctx -> ctx.

(** 7-8: the loop, on the context all the generators share (translator.py 30, 55-56, 58-71). *)
Fixpoint advance (strict : bool) (i : Z) (events : list event) (x : ctx) : outcome * gen * ctx :=
  match events with
  | [] => (Stop, Done, x)
  | e :: r =>
    match call t strict e i x with
    | Err er => (Raise er, Done, broken e x)
    | Ok ([], x') => advance strict (i + 1) r x'
    | Ok (c :: pending, x') => (Yield c, Running strict (i + 1) r pending, x')
    end
  end.
(** [next] of a generator: line 6 [clear] is reached by the first one. *)
Definition next (g : gen) (x : ctx) : outcome * gen * ctx :=
  match g with
  | Fresh strict events => advance strict 0 events empty_ctx
  | Running strict i events [] => advance strict i events x
  | Running strict i events (c :: pending) => (Yield c, Running strict i events pending, x)
  | Done => (Stop, Done, x)
  end.

(** A program that holds several generators and calls [next] on them in some order: the number
    of the generator and what it gave. A number without a generator is skipped. *)
Fixpoint set_nth (n : nat) (g : gen) (l : list gen) : list gen :=
  match l, n with
  | [], _ => []
  | _ :: r, O => g :: r
  | a :: r, S m => a :: set_nth m g r
  end.
Fixpoint session (schedule : list nat) (gens : list gen) (x : ctx) : list (nat * outcome) :=
  match schedule with
  | [] => []
  | n :: rest =>
    match nth_error gens n with
    | None => session rest gens x
    | Some g => let '(o, g', x') := next g x in (n, o) :: session rest (set_nth n g' gens) x'
    end
  end.
End Session.
