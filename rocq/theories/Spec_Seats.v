(** Specification vocabulary: the events of a log name no seat but the four of a table. *)
From Verif Require Import Base Parse Text Event Spec_Log.
From Coq Require Import String List ZArith.
Import ListNotations.
Open Scope list_scope.
Open Scope Z_scope.

(** Melds, riichi, wins and lost connections are those of somebody sitting at the table. *)
Definition seated (e : event) : Prop :=
  In (tag e) [t_ "N"; t_ "REACH"; t_ "AGARI"; t_ "BYE"] -> forall s, holds e (t_ "who") s -> In s [t_ "0"; t_ "1"; t_ "2"; t_ "3"].
