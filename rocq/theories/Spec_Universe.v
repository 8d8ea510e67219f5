(** Specification vocabulary for the universal format: what a command does to the place it
    is addressed to, and what a snapshot must show. *)
From Verif Require Import Base Parse Text Value Universe Transfer Spec_Transfer.
From Coq Require Import String List ZArith Bool Permutation.
Import ListNotations.
Open Scope list_scope.
Open Scope Z_scope.

(** ** Kinds of properties *)
Definition is_counter (v : view) : Prop :=
  In v [RV_player_count; RV_play_wind_count; GV_wind; GV_round; GV_sub_round; GV_dealer; PV_round].
Definition is_tiles (v : view) : Prop :=
  In v [GV_dora_indicators; PV_hand; PV_discard_tiles; PV_meld_public_tiles; PV_bonus_tiles].
Definition is_list (v : view) : Prop :=
  is_tiles v \/ In v [RV_using_tiles; PV_fixed_meld; PV_discard_from_hand; PV_faans].

(** ** Places. Properties of the record and of the deal exist once, those of players once
    for each of the seats 0..3. *)
Definition place : Type := option Z * view.
Definition addressed (c : command) (p : place) : Prop :=
  snd p = c_prop c /\
  match scope_of (c_prop c) with
  | SPlayer => exists i, 0 <= i <= 3 /\ c_sub c = SId i /\ fst p = Some i
  | _ => fst p = None
  end.
(** Where a snapshot shows a place, and the time. *)
Definition path_of (p : place) : list key :=
  match fst p with
  | None => [KScope (scope_of (snd p)); k_single; KView (snd p)]
  | Some i => [KScope SPlayer; KPid i; KView (snd p)]
  end.
Definition real_place (p : place) : Prop :=
  match scope_of (snd p) with SPlayer => exists i, 0 <= i <= 3 /\ fst p = Some i | _ => fst p = None end.
Definition time_path : list key := [k_global; k_time; k_timestamp].

(** ** Effects *)
(** The things a list or a text consists of. *)
Inductive consists_of : val -> list val -> Prop :=
| co_list l : consists_of (VList l) l
| co_text s : consists_of (VStr s) (map (fun c => VStr [c]) s).
(** Take away, for each given value, the first element equal to it. *)
Inductive without : list val -> list val -> list val -> Prop :=
| wo_nil l : without l [] l
| wo_cons a y b x r n : Forall (fun z => val_eqb z x = false) a -> val_eqb y x = true -> without (a ++ b) r n ->
    without (a ++ y :: b) (x :: r) n.
(** [old] is None for a place never written. *)
Definition effect (c : command) (old : option val) (new : val) : Prop :=
  match c_update c with
  | U_REPLACE | U_ASSERT_EQUAL_OR_SET => new = c_value c
  | U_RESET_DEFAULT => (is_counter (c_prop c) /\ new = VInt 0) \/ (is_list (c_prop c) /\ new = VList [])
  | U_ADD =>
      (exists s t, old = Some (VStr s) /\ c_value c = VStr t /\ new = VStr (s ++ t)) \/
      (exists l m, old = Some (VList l) /\ c_value c = VList m /\ new = VList (l ++ m)) \/
      (exists o x y, old = Some o /\ as_num o = Some x /\ as_num (c_value c) = Some y /\ new = VNum (num_add x y))
  | U_REMOVE =>
      (is_list (c_prop c) /\ exists l vs n, old = Some (VList l) /\ consists_of (c_value c) vs /\ without l vs n /\ new = VList n) \/
      (~ is_list (c_prop c) /\ exists o x y, old = Some o /\ as_num o = Some x /\ as_num (c_value c) = Some y /\ new = VNum (num_sub x y))
  | U_CLEAR => False
  end.
(** What a place holds after a sequence of commands: only commands addressed to it matter. *)
Inductive holds_after : list command -> place -> option val -> Prop :=
| ha_nil p : holds_after [] p None
| ha_other cs c p v : ~ addressed c p -> holds_after cs p v -> holds_after (cs ++ [c]) p v
| ha_here cs c p v w : addressed c p -> holds_after cs p v -> effect c v w -> holds_after (cs ++ [c]) p (Some w).

(** ** Agreement of an asserted value with the stored one *)
(** The same things the same number of times, in any order, up to Python's equality. *)
Definition same_things (l m : list val) : Prop := exists m', Permutation m m' /\ Forall2 (fun a b => val_eqb a b = true) l m'.
(** What can be counted, and what is counted (nothing in None). *)
Definition countable (v : val) (l : list val) : Prop :=
  (v = VNone /\ l = []) \/ (consists_of v l /\ Forall (fun x => forall k, x <> VList k) l).
Definition agrees (v : view) (asserted stored : val) : Prop :=
  (is_tiles v -> exists l m, countable asserted l /\ countable stored m /\ same_things l m) /\
  (~ is_tiles v -> val_eqb asserted stored = true).
(** Tile properties can only be compared if both values can be counted. *)
Definition comparable (v : view) (asserted stored : val) : Prop :=
  is_tiles v -> (exists l, countable asserted l) /\ (exists m, countable stored m).

(** [c] can be executed after [cs]. *)
Definition can_do (cs : list command) (c : command) : Prop :=
  exists p old w, addressed c p /\ holds_after cs p old /\ effect c old w /\
    (c_update c = U_ASSERT_EQUAL_OR_SET -> forall o, old = Some o -> comparable (c_prop c) (c_value c) o).
(** [c] asserts something else than what is there after [cs]. *)
Definition contradicts (cs : list command) (c : command) : Prop :=
  c_update c = U_ASSERT_EQUAL_OR_SET /\
  exists p o, addressed c p /\ holds_after cs p (Some o) /\ ~ agrees (c_prop c) (c_value c) o.

(** A snapshot (a nested dictionary) shows the effects of exactly [cs] and the time [t], and
    nothing else. *)
Definition shows_state (T : tree key val) (cs : list command) (t : option Z) : Prop :=
  (forall p v, real_place p -> holds_after cs p v -> at_path key_eqb T (path_of p) = option_map TLeaf v) /\
  at_path key_eqb T time_path = Some (TLeaf (time_val t)) /\
  (forall q v, at_path key_eqb T q = Some (TLeaf v) -> q = time_path \/ exists p, real_place p /\ q = path_of p).
