(** Specification vocabulary for records of commands. *)
From Verif Require Import Base Parse Text Value Universe.
From Coq Require Import String List ZArith.
Import ListNotations.
Open Scope list_scope.
Open Scope Z_scope.

(** The properties whose type is str. *)
Definition text_property (v : view) : Prop :=
  In v [RV_play_level; RV_seed; GV_extra_reason; PV_name; PV_level; PV_extra_level].
(** The same value: nothing changes but the number of zeros after a decimal point. *)
Inductive same_value : val -> val -> Prop :=
| sv_none : same_value VNone VNone
| sv_bool b : same_value (VBool b) (VBool b)
| sv_int z : same_value (VNum (NInt z)) (VNum (NInt z))
| sv_dec m k m' k' : m * 10 ^ Z.of_nat k' = m' * 10 ^ Z.of_nat k -> same_value (VNum (NDec m k)) (VNum (NDec m' k'))
| sv_text s : same_value (VStr s) (VStr s)
| sv_list l m : Forall2 same_value l m -> same_value (VList l) (VList m).
(** Texts of Unicode characters: code points without the surrogates, on any depth. *)
Definition unicode (s : text) : Prop := Forall (fun c => 0 <= c < 55296 \/ 57344 <= c <= 1114111) s.
Inductive unicode_value : val -> Prop :=
| uv_none : unicode_value VNone
| uv_bool b : unicode_value (VBool b)
| uv_num n : unicode_value (VNum n)
| uv_text s : unicode s -> unicode_value (VStr s)
| uv_list l : Forall unicode_value l -> unicode_value (VList l).
Definition is_list_value (v : val) : Prop := exists l, v = VList l.
(** A sub scope is a number, or a text that does not consist of digits only. *)
Definition proper_sub (s : sub) : Prop :=
  match s with SId _ => True | SText t => exists c, In c t /\ ~ 48 <= c <= 57 end.
