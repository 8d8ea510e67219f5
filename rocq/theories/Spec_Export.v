(** Specification vocabulary for the converter script. *)
From Verif Require Import Base Parse Text.
From Coq Require Import String List ZArith.
Import ListNotations.
Open Scope list_scope.
Open Scope Z_scope.

(** The white space of Unicode, as [str.isspace] knows it. *)
Definition blank (c : Z) : Prop :=
  9 <= c <= 13 \/ 28 <= c <= 32 \/ 8192 <= c <= 8202 \/ In c [133; 160; 5760; 8232; 8233; 8239; 8287; 12288].
(** A text that neither begins nor ends with white space. *)
Definition trimmed (s : text) : Prop := (forall c r, s = c :: r -> ~ blank c) /\ (forall r c, s = r ++ [c] -> ~ blank c).
