(** Specification vocabulary for C120: the table as the universal format should show it at a moment
    of the game. The moment [k] is when [k] events of the log have happened. *)
From Verif Require Import Base Tile Parse Text Event Value Universe Translator TenhouCommands Transfer Spec_Transfer Spec_Universe Spec_Meld Spec_Log Spec_Play Spec_Score Spec_Header.
From Coq Require Import String List ZArith Permutation.
Import ListNotations.
Open Scope list_scope.
Open Scope Z_scope.

(** The column of times says that the command belongs to one of the first [k] events. *)
Definition happened_before (k : nat) (c : command) : Prop := exists t, c_time c = Some t /\ t < Z.of_nat k.

(** After the commands [now] the place of player [p] shows the table after the actions [acts] (written as the
    events [es]), of which [after] followed the last deal [d]: the hand, the discards, the melds, the north
    tiles set aside, the dora indicators, the score and the riichi. *)
Record shows_seat (now : list command) (p : Z) (acts : list action) (d : deal) (after : list action) (es : list event) : Prop := mkShows
{ sh_hand : exists hand l, tiles_of (in_hand p [] acts) hand /\
    holds_after now (Some p, PV_hand) (Some (VList l)) /\ Permutation l (map printed hand);
  sh_discards : holds_after now (Some p, PV_discard_tiles) (Some (VList (map printed (discards_of p after))));
  sh_melds : exists ms, Forall2 shown_meld (filter (fun v => negb (is_kita v)) (calls_of p after)) ms /\
    holds_after now (Some p, PV_fixed_meld) (Some (VList ms));
  sh_north : exists ls, Forall2 (fun v l => tiles_of (laid_down v) l) (filter is_kita (calls_of p after)) ls /\
    holds_after now (Some p, PV_bonus_tiles) (Some (VList (map printed (concat ls))));
  sh_dora : holds_after now (None, GV_dora_indicators) (Some (VList (map printed (d_dora d :: new_doras after))));
  sh_score : forall z, score_after p es z -> holds_after now (Some p, PV_score) (Some (VInt z));
  sh_riichi : forall before e later, es = before ++ e :: later -> tag e = t_ "INIT" -> Forall (fun e' => tag e' <> t_ "INIT") later ->
    exists b, holds_after now (Some p, PV_in_richii) (Some (VBool b)) /\ (b = true <-> exists e', In e' later /\ declares p e') }.
