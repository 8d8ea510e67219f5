(** Specification vocabulary for programs that read several logs. *)
From Verif Require Import Base Text Event Value Universe Translator Session.
From Coq Require Import List.
Import ListNotations.
Open Scope list_scope.

(** What the first [k] calls of [next] give when the log is converted on its own: the commands
    [to_commands] gives and then StopIteration; if it raises, the commands of the events before
    the one it raises at, then the exception, then StopIteration. *)
Inductive alone (t : translator) (strict : bool) (events : list event) (k : nat) : list outcome -> Prop :=
| alone_ok cmds : to_commands t strict events = Ok cmds ->
    alone t strict events k (firstn k (map Yield cmds ++ repeat Stop k))
| alone_err m cmds er : m < length events -> to_commands t strict events = Err er ->
    to_commands t strict (firstn m events) = Ok cmds -> to_commands t strict (firstn (S m) events) = Err er ->
    alone t strict events k (firstn k (map Yield cmds ++ Raise er :: repeat Stop k)).

(** What one of the generators gave, in order. *)
Definition given_by (n : nat) (outs : list (nat * outcome)) : list outcome :=
  map snd (filter (fun o => Nat.eqb (fst o) n) outs).
