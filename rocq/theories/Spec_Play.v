(** Specification vocabulary for C40-C42: what the universal format must show of the play
    described by a log (Spec_Log.v). *)
From Verif Require Import Base Tile Parse Text Tenhou Event Spec_Meld Spec_Log Value.
From Coq Require Import String List ZArith Permutation.
Import ListNotations.
Open Scope list_scope.
Open Scope Z_scope.

(** How a physical tile is printed: number and suit letter, 0 for a red five. *)
Definition suit_letter (c : color) : Z := match c with Cm => 109 | Cp => 112 | Cs => 115 | Cz => 122 end.
Definition is_red (t : Z) : bool := (t =? 16) || (t =? 52) || (t =? 88).
Definition printed (t : Z) : val := VStr [48 + (if is_red t then 0 else snd (face t)); suit_letter (fst (face t))].

(** The game type of every GO event of the log gives seat [p] a place: four players, or
    three (bit 4 of the type) and [p] is not the last seat. *)
Definition has_seat (p : Z) (es : list event) : Prop :=
  forall e, In e es -> tag e = t_ "GO" -> exists v, holds e (t_ "type") (str_int v) /\ (flag v 4 = false \/ p < 3).

(** A winning event of seat [p] shows the winner's hand: all tiles of the hand, on a win off
    another player's discard with the winning tile added. *)
Definition shows_hand (p : Z) (hand : Z -> Prop) (e : event) : Prop :=
  exists from l, holds e (t_ "fromWho") (str_int from) /\ holds e (t_ "hai") (comma_list l) /\ NoDup l /\
    ((from = p /\ forall t, In t l <-> hand t) \/
     (from <> p /\ exists m, holds e (t_ "machi") (str_int m) /\ ~ hand m /\ forall t, In t l <-> hand t \/ t = m)).

(** Fair play of seat [p] holding [hand]: it is dealt different tiles, draws a tile it does
    not have, and discards, calls with and wins with tiles it has. *)
Definition fair (p : Z) (hand : Z -> Prop) (a : action) (e : event) : Prop :=
  match a with
  | Deal d => NoDup (d_hands d p) /\ Forall valid_tile (d_hands d p)
  | Draw q t => q = p -> ~ hand t
  | Discard q t => q = p -> hand t
  | Call q v => q = p -> forall t, laid_down v t -> hand t
  | NewDora _ => True
  | Other => tag e = t_ "AGARI" -> exists w, holds e (t_ "who") (str_int w) /\ (w = p -> shows_hand p hand e)
  end.
Definition fair_play (p : Z) (acts : list action) (es : list event) : Prop :=
  forall before a after e, acts = before ++ a :: after -> nth_error es (length before) = Some e ->
    fair p (in_hand p [] before) a e.

(** ** Which discards came from the hand *)
(** Actions that change the hand of [p]. *)
Definition concerns (p : Z) (a : action) : Prop :=
  match a with
  | Deal _ => True
  | Draw q _ | Discard q _ | Call q _ => q = p
  | _ => False
  end.
(** The latest change of [p]'s hand was the draw of [t]. *)
Definition just_drew (p t : Z) (acts : list action) : Prop :=
  exists a b, acts = a ++ Draw p t :: b /\ Forall (fun x => ~ concerns p x) b.
(** The flags of the discards of [p] among [acts], played after [before]. *)
Inductive flags (p : Z) : list action -> list action -> list bool -> Prop :=
| fl_nil b : flags p b [] []
| fl_discard b t r f fs : (f = false <-> just_drew p t b) -> flags p (b ++ [Discard p t]) r fs -> flags p b (Discard p t :: r) (f :: fs)
| fl_other b a r fs : (forall t, a <> Discard p t) -> flags p (b ++ [a]) r fs -> flags p b (a :: r) fs.

(** ** Calls *)
(** A list of exactly the tiles with a property. *)
Definition tiles_of (P : Z -> Prop) (l : list Z) : Prop := NoDup l /\ forall t, In t l <-> P t.
(** A call as it should be shown: its tiles, laid down or taken. *)
Definition shown_meld (v : Z) (m : val) : Prop :=
  exists l, tiles_of (fun t => laid_down v t \/ taken v t) l /\ m = VList (map printed l).
(** Setting aside a north tile in three-player games is not a meld. *)
Definition is_kita (v : Z) : bool := match call_kind v with CKita => true | _ => false end.
