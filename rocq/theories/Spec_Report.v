(** Vocabulary for C86-C89: numbers as they are typed in. *)
From Verif Require Import Base Parse.
From Coq Require Import List ZArith.
Import ListNotations.
Open Scope list_scope.
Open Scope Z_scope.

(** [s] consists of decimal digits and denotes [n]; leading zeros are allowed. *)
Inductive spells : text -> Z -> Prop :=
| sp_one d : 0 <= d <= 9 -> spells [48 + d] d
| sp_more s n d : spells s n -> 0 <= d <= 9 -> spells (s ++ [48 + d]) (10 * n + d).
