(** Specification vocabulary for C115: a deal as one player plays it by the rules, and the hand
    and melds of that player at any moment, told from what happened at the table only. Nothing
    here refers to the trackers or to the checker. *)
From Coq Require Import String.
From Verif Require Import Base Tile Parse Text Tenhou Event Spec_Tile Spec_Win Spec_Waiting Spec_Meld Spec_Log Spec_Checker.
From Coq Require Import List ZArith.
Import ListNotations.
Open Scope list_scope.
Open Scope Z_scope.

(** What others do, and what changes nobody's tiles. *)
Definition by_others (p : Z) (a : action) : Prop :=
  match a with
  | Deal _ => False
  | Draw q _ | Discard q _ | Call q _ => q <> p
  | NewDora _ | Other => True
  end.
(** All tiles laid down by the call are in the hand. *)
Definition from_hand (p v : Z) (acts : list action) : Prop := forall t, laid_down v t -> in_hand p [] acts t.

(** [playing p acts b]: one deal, as seat [p] plays it by the rules up to now; [b] tells whether
    [p] has to act. Thirteen different tiles are dealt. A player who has nothing to do may draw,
    or call another's discard: after chi and pon it must discard, after a kan it draws again. A
    player who has to act discards a tile of the hand, or makes a closed kan, adds a tile to a
    pon or sets aside a north tile, and then draws again. *)
Inductive playing (p : Z) : list action -> bool -> Prop :=
| play_deal : forall d, NoDup (d_hands d p) -> Forall valid_tile (d_hands d p) -> length (d_hands d p) = 13%nat ->
    playing p [Deal d] false
| play_others : forall acts b a, playing p acts b -> by_others p a -> playing p (acts ++ [a]) b
| play_draw : forall acts t, playing p acts false -> valid_tile t -> ~ in_hand p [] acts t ->
    playing p (acts ++ [Draw p t]) true
| play_discard : forall acts t, playing p acts true -> in_hand p [] acts t ->
    playing p (acts ++ [Discard p t]) false
| play_claim : forall acts v, playing p acts false -> call_kind v = CFlush \/ call_kind v = CTriplet -> from_hand p v acts ->
    playing p (acts ++ [Call p v]) true
| play_open_kan : forall acts v, playing p acts false -> call_kind v = CKan -> source v <> 0 -> from_hand p v acts ->
    playing p (acts ++ [Call p v]) false
| play_closed_kan : forall acts v, playing p acts true -> call_kind v = CKan -> source v = 0 -> from_hand p v acts ->
    playing p (acts ++ [Call p v]) false
| play_added : forall acts v, playing p acts true -> call_kind v = CAddedKan \/ call_kind v = CKita -> from_hand p v acts ->
    playing p (acts ++ [Call p v]) false.

(** The melds of [p]: the calls that are neither added to an earlier one nor a north tile. *)
Definition melds_made (p : Z) (acts : list action) : Z :=
  Z.of_nat (length (filter (fun v => match call_kind v with CAddedKan | CKita => false | _ => true end) (calls_of p acts))).
(** A list of exactly the tiles in hand. *)
Definition hand_at (p : Z) (acts : list action) (hand : list Z) : Prop :=
  NoDup hand /\ forall t, In t hand <-> in_hand p [] acts t.
(** The hand is complete, with the melds made. *)
Definition complete_at (p : Z) (acts : list action) : Prop :=
  exists hand, hand_at p acts hand /\ complete hand (melds_made p acts).
(** The player sees the tile neither in the hand nor on the table. *)
Definition unseen_at (p : Z) (acts : list action) (t : Z) : Prop :=
  ~ in_hand p [] acts t /\ ~ Exists (shows t) acts /\ forall d, In (Deal d) acts -> d_dora d <> t.

(** The discards of [p], each with what happened before it and the tile. *)
Fixpoint own_discards (p : Z) (before acts : list action) : list (list action * Z) :=
  match acts with
  | [] => []
  | a :: rest => match a with Discard q t => if q =? p then [(before, t)] else [] | _ => [] end ++ own_discards p (before ++ [a]) rest
  end.
(** Tile number 0, one of the four 1m, was discarded. *)
Definition zero_discarded (acts : list action) : Prop := exists q, In (Discard q 0) acts.
(** What the program takes for unseen: the tiles the player does not see, but with three players
    no 1m and no 9m, and tile number 0 also after it was discarded. *)
Definition taken_for_unseen (p players : Z) (acts : list action) (t : Z) : Prop :=
  ~ in_hand p [] acts t /\ (forall d, In (Deal d) acts -> d_dora d <> t) /\ (players = 3 -> 36 <= t) /\
  forall a, In a acts -> (forall q, t = 0 -> a <> Discard q 0) -> ~ shows t a.
