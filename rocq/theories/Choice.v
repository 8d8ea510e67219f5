(** Model of the rest of mahjong/record/player.py: [TenhouPlayer.is_player_choice], [opened_hand_type]. *)
From Verif Require Import Base Text Tenhou Event.
From Coq Require Import List ZArith Bool.
Open Scope Z_scope.

(** player.py 54-55 [is_player_choice]: [or] looks at the next test only if the one before is false. The value is
    a match object or a truth value; the model keeps its truth. *)
Definition is_player_choice (index : Z) (e : event) : res bool :=
  do d <- is_discard index e;
  if d then Ok true else
  do o <- player_open_hand index e;
  if o then Ok true else player_win index e.

(** player.py 57-58 [opened_hand_type]. *)
Definition opened_hand_type (index : Z) (e : event) : res meld := meld_from e.
