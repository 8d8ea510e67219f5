(** Specification vocabulary for the CSV files of commands. *)
From Verif Require Import Base Parse Text Event Value Universe Spec_Record.
From Coq Require Import String List ZArith Bool.
Import ListNotations.
Open Scope list_scope.
Open Scope Z_scope.

(** The same value, where an integer may have become a floating point number of the same size,
    and a boolean a number 1 or 0: Python finds them equal. *)
Inductive recovered : val -> val -> Prop :=
| rc_same v w : same_value v w -> recovered v w
| rc_float z m k : m = z * 10 ^ Z.of_nat k -> recovered (VNum (NInt z)) (VNum (NDec m k))
| rc_bool_int (b : bool) : recovered (VBool b) (VNum (NInt (if b then 1 else 0)))
| rc_bool_float (b : bool) m k : m = (if b then 1 else 0) * 10 ^ Z.of_nat k -> recovered (VBool b) (VNum (NDec m k)).

(** Texts without carriage return and NUL. *)
Definition one_line_break (s : text) : Prop := ~ In 13 s /\ ~ In 0 s.
(** A value that can be written: of Unicode characters; a property of type str has a value
    that is no list, and if it is a text, one without carriage return and NUL. *)
Definition writable (p : view) (v : val) : Prop :=
  unicode_value v /\ (text_property p -> ~ is_list_value v /\ forall s, v = VStr s -> one_line_break s).
(** A command as converters make it: for the table or one of its seats, with a timestamp. *)
Definition filed (c : command) : Prop :=
  writable (c_prop c) (c_value c) /\ writable (c_prop c) (c_state c) /\
  (c_sub c = sub_all \/ exists i, 0 <= i <= 3 /\ c_sub c = SId i) /\
  exists t, c_time c = Some t /\ 0 <= t < 2 ^ 63.

(** Everything but value and state. *)
Definition same_header (c d : command) : Prop :=
  c_prop d = c_prop c /\ c_update d = c_update c /\ c_sub d = c_sub c /\ c_time d = c_time c /\ c_event d = c_event c.

(** The number of the piece the n-th row is read in, if the file is read in pieces of the
    given lengths and a last piece. *)
Fixpoint piece (cuts : list nat) (n : nat) : nat :=
  match cuts with [] => O | k :: r => if Nat.ltb n k then O else S (piece r (n - k)) end.

(** The texts that are taken for a missing value. *)
Definition looks_missing (none_too : bool) (s : text) : Prop :=
  In s (map t_ [""; "NA"; "N/A"; "n/a"; "NaN"; "nan"; "-NaN"; "-nan"; "NULL"; "null"; "<NA>"; "#N/A"; "#N/A N/A"; "#NA";
                "1.#IND"; "-1.#IND"; "1.#QNAN"; "-1.#QNAN"]%string) \/ (none_too = true /\ s = t_ "None").

(** Attributes that are Unicode texts without carriage return and NUL, also when decoded. *)
Definition clean_event (unquote : text -> text) (e : event) : Prop :=
  Forall (fun a => unicode (snd a) /\ one_line_break (snd a) /\ unicode (unquote (snd a)) /\ one_line_break (unquote (snd a))) (attrib e).
