(** Specification vocabulary for C121: the tiles that left the wall. *)
From Verif Require Import Base Tile Parse Text Event Value Universe Translator TenhouCommands Transfer Spec_Transfer Spec_Universe Spec_Meld Spec_Log Spec_Play.
From Coq Require Import List ZArith Bool.
Import ListNotations.
Open Scope list_scope.
Open Scope Z_scope.

(** The tiles drawn by [p]. *)
Definition draws_of (p : Z) (acts : list action) : list Z :=
  flat_map (fun a => match a with Draw q t => if q =? p then [t] else [] | _ => [] end) acts.
(** The tiles [p] got in the deal [d], followed by [after]: dealt and drawn. *)
Definition got (p : Z) (d : deal) (after : list action) : list Z := d_hands d p ++ draws_of p after.
(** The seats of a table of [n] players. *)
Definition table (n : Z) : list Z := if n =? 3 then [0; 1; 2] else [0; 1; 2; 3].
(** All tiles that left the wall or were turned: what the players got, and the dora indicators. *)
Definition left_wall (n : Z) (d : deal) (after : list action) : list Z :=
  flat_map (fun p => got p d after) (table n) ++ d_dora d :: new_doras after.

(** How often a text is among the cells of a list. *)
Definition times (s : text) (l : list val) : nat := length (filter (fun v => match v with VStr x => text_eqb x s | _ => false end) l).
(** How many tiles of a set are printed like [t]: one red five, three other fives, four of each other tile. *)
Definition copies (t : Z) : nat :=
  if is_red t then 1%nat else if (t / 4 =? 4) || (t / 4 =? 13) || (t / 4 =? 22) then 3%nat else 4%nat.
Definition name_of (t : Z) : text := match printed t with VStr s => s | _ => [] end.

(** After the commands [now], the hand, the tiles laid down in calls and the discards of [p], together. *)
Definition shown_of (now : list command) (p : Z) (all : list val) : Prop :=
  exists hand laid discards, all = hand ++ laid ++ discards /\
    holds_after now (Some p, PV_hand) (Some (VList hand)) /\ holds_after now (Some p, PV_meld_public_tiles) (Some (VList laid)) /\
    holds_after now (Some p, PV_discard_tiles) (Some (VList discards)).
(** The same for all seats of a table of [n] players, and the dora indicators. *)
Definition shown_at_table (now : list command) (n : Z) (all : list val) : Prop :=
  exists seats dora, Forall2 (shown_of now) (table n) seats /\ holds_after now (None, GV_dora_indicators) (Some (VList dora)) /\
    all = concat seats ++ dora.
