(** The recipe of README.md for the table of states. *)
From Verif Require Import Base Parse Text Value Universe.
From Coq Require Import List ZArith Bool.
Import ListNotations.
Open Scope list_scope.

(** README.md 100: the columns the commands are arranged by. *)
Definition column_key : Type := sub * view.
(** Are two such keys the same?  (pandas compares the columns' values.) *)
Definition column_eqb (a b : column_key) : bool := sub_eqb (fst a) (fst b) && view_eqb (snd a) (snd b).
(** README.md 101: of each row, the key and the state. *)
Definition df_state (cmds : list command) : list (column_key * val) := map (fun c => ((c_sub c, c_prop c), c_state c)) cmds.
(** README.md 103-104 (set_index with append, unstack): one column for each key there is.  Simplified:
    pandas sorts the columns, here they stand in the order of their last appearance. *)
Fixpoint column_keys (rows : list (column_key * val)) : list column_key :=
  match rows with
  | [] => []
  | (k, _) :: r => let ks := column_keys r in if existsb (column_eqb k) ks then ks else k :: ks
  end.
(** README.md 104: the column has a cell for each row, empty where the row has another key.
    A state None is an empty cell, too. *)
Definition unstacked (rows : list (column_key * val)) (k : column_key) : list (option val) :=
  map (fun r => if column_eqb (fst r) k then match snd r with VNone => None | v => Some v end else None) rows.
(** README.md 106 (ffill): an empty cell gets what the last filled cell above it has. *)
Fixpoint ffill (last : option val) (cells : list (option val)) : list (option val) :=
  match cells with
  | [] => []
  | None :: r => last :: ffill last r
  | Some v :: r => Some v :: ffill (Some v) r
  end.
(** README.md 98-106, on cleaned commands. *)
Definition readme_states (cmds : list command) : list (column_key * list (option val)) :=
  map (fun k => (k, ffill None (unstacked (df_state cmds) k))) (column_keys (df_state cmds)).
