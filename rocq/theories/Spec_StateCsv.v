(** Specification vocabulary for the CSV file of the table of states. *)
From Verif Require Import Base Parse Text Value Transfer Universe Csv StateCsv Spec_Universe Spec_Csv.
From Coq Require Import String List ZArith.
Import ListNotations.
Open Scope list_scope.
Open Scope Z_scope.

(** The value a cleaned table shows in the [n]-th row of a column. *)
Definition value_shown (table : list (list key * column)) (q : list key) (n : nat) (w : val) : Prop :=
  exists l, In (q, CValues l) table /\ nth_error l n = Some w.
(** A text that cannot be taken for a number, a truth value or a missing value. *)
Definition clear_text (none_too : bool) (s : text) : Prop :=
  (exists c, In c s /\ ~ In c (t_ "0123456789+-.eEiInNfFtTyY") /\ c <> 32 /\ ~ (9 <= c <= 13)) /\
  ~ In s (map t_ ["True"; "TRUE"; "true"; "False"; "FALSE"; "false"]%string) /\ ~ looks_missing none_too s.
(** The same, and it does not begin with a blank. *)
Definition plain_word (none_too : bool) (s : text) : Prop := clear_text none_too s /\ hd 0 s <> 32.
