(** Specification vocabulary for C118: what the advice in a row of the report says, told from what
    happened at the table only. Nothing here refers to the trackers or to the functions of the
    checker; [round] and [shown] are the records that the report consists of. *)
From Coq Require Import String.
From Verif Require Import Base Tile Parse Text Tenhou Event Checker Spec_Tile Spec_Win Spec_Waiting Spec_Meld Spec_Log Spec_Checker Spec_Mixed Spec_Turns.
From Coq Require Import List ZArith QArith Permutation.
Import ListNotations.
Open Scope list_scope.
Open Scope Z_scope.

(** [n] physical tiles satisfy [P]. *)
Definition number_of (P : Z -> Prop) (n : Z) : Prop :=
  exists l, NoDup l /\ (forall t, In t l <-> valid_tile t /\ P t) /\ Z.of_nat (length l) = n.
(** As good as, and better: fewer steps, or as many and more tiles. *)
Definition as_good (x y : shown) : Prop := sh_step x = sh_step y /\ sh_count x = sh_count y.
Definition better (x y : shown) : Prop := sh_step x < sh_step y \/ (sh_step x = sh_step y /\ sh_count y < sh_count x).

(** The advice about the discard of a tile by seat [p] after [before]:
    the expected rows are the first of all rows, they are as good as each other and better than the
    rest;
    with a meld on the table there is exactly one row for each face whose discard keeps the distance,
    and it says what that discard leads to;
    with nothing on the table the rows pair up the discards that keep the distance to the standard
    shape with those that keep the distance to seven pairs;
    the wrong rate is 1 - c / (b * u^d), for the tiles c of the choice, the tiles b of an expected
    row, the difference d of their steps, and the number u of tiles taken for unseen, to which
    eight are added in a game of three;
    it is at most 1, and at least 0 with a meld on the table and no useful red five in hand;
    it is 0 if the choice is as good as an expected row. *)
Definition advice_about (p players : Z) (pt : list action * Z) (row : round) : Prop :=
  let (before, t) := pt in exists hand, hand_at p before hand /\
    let m := melds_made p before in
    let unseen := taken_for_unseen p players before in
    (exists x rest, In x (rr_expected row) /\ rr_merged row = rr_expected row ++ rest /\
       Forall (as_good x) (rr_expected row) /\ Forall (better x) rest) /\
    (m <> 0 -> let s := Standard 1 (4 - m) in
       exists ks, NoDup ks /\ (forall k, In k ks <-> keeps_distance true s (hand_counts hand) k) /\
         Forall2 (fun k x => right_row [s] hand k (sh_discard x) (sh_step x) (sh_useful x) /\
                   (reds_useless hand (advances true s (without (hand_counts hand) k)) -> right_count [s] hand unseen k (sh_count x))) ks (rr_merged row)) /\
    (m = 0 -> forall n1 n2, distance true standard (hand_counts hand) n1 -> distance true seven_pairs (hand_counts hand) n2 ->
       exists ks1 ks2 pairs,
         NoDup ks1 /\ (forall k, In k ks1 <-> keeps_distance true standard (hand_counts hand) k) /\
         NoDup ks2 /\ (forall k, In k ks2 <-> keeps_distance true seven_pairs (hand_counts hand) k) /\
         Permutation (combine ks1 ks2) pairs /\
         Forall2 (fun ks x => mixed_row hand n1 n2 ks (sh_discard x) (sh_step x) (sh_useful x) /\
                   (reds_useless hand (mixed_advances hand n1 n2 ks) -> mixed_count hand unseen n1 n2 ks (sh_count x))) pairs (rr_merged row)) /\
    (exists best u, In best (rr_expected row) /\ 0 < sh_count best /\ sh_step best <= sh_step (rr_choice row) /\ number_of unseen u /\
       rr_wrong_rate row == 1 - inject_Z (sh_count (rr_choice row)) /
         inject_Z (sh_count best * (u + if players =? 3 then 8 else 0) ^ (sh_step (rr_choice row) - sh_step best))) /\
    (rr_wrong_rate row <= 1)%Q /\
    (m <> 0 -> reds_idle (shapes_for m) hand -> reds_useless hand (advances true (Standard 1 (4 - m)) (without (hand_counts hand) (face t))) -> (0 <= rr_wrong_rate row)%Q) /\
    (forall x, In x (rr_expected row) -> as_good x (rr_choice row) -> rr_wrong_rate row == 0).

(** At this moment there is something to advise: the hand has no useful red five; with a meld on the table
    some discard that keeps the distance leaves an advancing tile among those taken for unseen;
    with nothing on the table the hand is not complete and every such discard does. *)
Definition advisable (p players : Z) (before : list action) : Prop :=
  exists hand, hand_at p before hand /\
    let m := melds_made p before in
    reds_idle (shapes_for m) hand /\
    let unseen := taken_for_unseen p players before in
    (m <> 0 -> let s := Standard 1 (4 - m) in
       exists k u, keeps_distance true s (hand_counts hand) k /\ advances true s (without (hand_counts hand) k) (face u) /\ unseen u /\ valid_tile u) /\
    (m = 0 -> ~ complete hand 0 /\
       forall s k, In s (shapes_for 0) -> keeps_distance true s (hand_counts hand) k ->
         exists u, advances true s (without (hand_counts hand) k) (face u) /\ unseen u /\ valid_tile u).
(** At this moment there is nothing to advise: the hand is complete, or a meld is on the table, no
    useful red five is in hand and no discard that keeps the distance leaves an advancing tile. *)
Definition nothing_to_advise (p players : Z) (before : list action) : Prop :=
  exists hand, hand_at p before hand /\
    let m := melds_made p before in
    (complete hand m \/
     (m <> 0 /\ reds_idle (shapes_for m) hand /\ let s := Standard 1 (4 - m) in
       forall k u, keeps_distance true s (hand_counts hand) k -> advances true s (without (hand_counts hand) k) (face u) ->
         valid_tile u -> ~ taken_for_unseen p players before u)).
