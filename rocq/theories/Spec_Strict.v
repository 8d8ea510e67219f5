(** Specification vocabulary for C111: logs that do not contradict themselves. *)
From Verif Require Import Base Parse Text Event Spec_Meld Spec_Log Spec_Play Spec_Score Spec_Header.
From Coq Require Import String List ZArith.
Import ListNotations.
Open Scope list_scope.
Open Scope Z_scope.

(** Scores are whole hundreds, for all [n] seats: at a deal one number each, at the end of a deal, if
    it lists them at all, two. *)
Definition whole_scores (n : Z) (e : event) : Prop :=
  (tag e = t_ "INIT" -> exists l, n <= Z.of_nat (length l) /\ holds e (t_ "ten") (comma_list l)) /\
  (ends_deal e -> forall s, holds e (t_ "sc") s -> exists l, 2 * n <= Z.of_nat (length l) /\ s = comma_list l).
(** Calls, riichi, wins and leaving are by somebody at the table. *)
Definition by_players (n : Z) (e : event) : Prop :=
  In (tag e) [t_ "N"; t_ "REACH"; t_ "AGARI"; t_ "BYE"] -> exists p, 0 <= p < n /\ holds e (t_ "who") (str_int p).

(** What an event says again is what was known before it: the scores at a deal and at the end of a
    deal are those that the seats have, and a seat announced again has the same name. *)
Definition repeats (unquote : text -> text) (n : Z) (before : list event) (e : event) : Prop :=
  (forall p l s z, 0 <= p < n -> tag e = t_ "INIT" -> holds e (t_ "ten") (comma_list l) ->
     nth_error l (Z.to_nat p) = Some s -> score_after p before z -> z = 100 * s) /\
  (forall p l s z, 0 <= p < n -> ends_deal e -> holds e (t_ "sc") (comma_list l) ->
     nth_error l (2 * Z.to_nat p) = Some s -> score_after p before z -> z = 100 * s) /\
  (forall p name e' name', seat p -> announces p name e -> In e' before -> announces p name' e' -> unquote name = unquote name').
Definition consistent (unquote : text -> text) (n : Z) (es : list event) : Prop :=
  forall before e after, es = before ++ e :: after -> repeats unquote n before e.
