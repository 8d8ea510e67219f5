(** Specification vocabulary for C46: which handlers an event is offered to. *)
From Verif Require Import Base Parse Text Event Universe Translator.
From Coq Require Import List ZArith Bool.
Import ListNotations.
Open Scope list_scope.
Open Scope Z_scope.

(** One use of a decorator: default_event, match_name(name), match_attr(attr) or
    match_both(name=name, attr=attr). *)
Inductive registration :=
| OnAny (h : handler)
| OnName (name : text) (h : handler)
| OnAttr (attr : text) (h : handler)
| OnBoth (name attr : text) (h : handler).

(** The handlers meant for an event, in the order they should be tried: those registered for
    its name and one of its attributes (attribute by attribute), for its name, for one of its
    attributes (attribute by attribute), and for any event; each group in order of
    registration. *)
Definition for_both (regs : list registration) (name attr : text) : list handler :=
  flat_map (fun r => match r with OnBoth n a h => if text_eqb n name && text_eqb a attr then [h] else [] | _ => [] end) regs.
Definition for_name (regs : list registration) (name : text) : list handler :=
  flat_map (fun r => match r with OnName n h => if text_eqb n name then [h] else [] | _ => [] end) regs.
Definition for_attr (regs : list registration) (attr : text) : list handler :=
  flat_map (fun r => match r with OnAttr a h => if text_eqb a attr then [h] else [] | _ => [] end) regs.
Definition for_any (regs : list registration) : list handler :=
  flat_map (fun r => match r with OnAny h => [h] | _ => [] end) regs.
Definition candidates (regs : list registration) (e : event) : list handler :=
  flat_map (fun a => for_both regs (tag e) (fst a)) (attrib e) ++ for_name regs (tag e) ++
  flat_map (fun a => for_attr regs (fst a)) (attrib e) ++ for_any regs.

(** Handlers are tried in turn, each in the context the one before left, until one yields
    commands. *)
Inductive first_answer (e : event) : list handler -> ctx -> option (list command) -> ctx -> Prop :=
| fa_none x : first_answer e [] x None x
| fa_silent h r x x' o x'' : h e x = Ok ([], x') -> first_answer e r x' o x'' -> first_answer e (h :: r) x o x''
| fa_answer h r x c cs x' : h e x = Ok (c :: cs, x') -> first_answer e (h :: r) x (Some (c :: cs)) x'.

(** One of the handlers tried before any yielded commands raises. *)
Inductive first_raises (e : event) : list handler -> ctx -> exn -> Prop :=
| fr_here h r x err : h e x = Err err -> first_raises e (h :: r) x err
| fr_later h r x x' err : h e x = Ok ([], x') -> first_raises e r x' err -> first_raises e (h :: r) x err.
