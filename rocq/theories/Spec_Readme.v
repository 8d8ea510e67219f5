(** What a table with named columns shows in a row. *)
From Verif Require Import Base Value Universe Spec_Universe.
From Coq Require Import List ZArith.
Import ListNotations.

(** The column of a place: its seat number or "all", and its property. *)
Definition place_column (p : place) : sub * view := (match fst p with Some i => SId i | None => sub_all end, snd p).
(** The cell of a column in the [n]-th row; nothing in columns there are not. *)
Inductive shown (table : list ((sub * view) * list (option val))) (k : sub * view) (n : nat) : option val -> Prop :=
| shown_cell cells o : In (k, cells) table -> nth_error cells n = Some o -> shown table k n o
| shown_none : ~ In k (map fst table) -> shown table k n None.
