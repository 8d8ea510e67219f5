(** Two deals played by the rules: one with a pon, for which the report is made, and one in which
    the dealer draws the winning tile and discards. *)
From Coq Require Import String.
From Verif Require Import Base Tile Parse Text Tenhou Event State Spec_Log Checker Spec_Checker Spec_Turns Prop_Turns LogCheck TurnsCheck.
From Coq Require Import List ZArith Lia Bool.
Import ListNotations.
Open Scope list_scope.
Open Scope Z_scope.

Definition said (s : string) : event := mkEvent (t_ s) [].
Definition acts_in (es : list event) : list action := match acts_of es with Some l => l | None => [] end.
Definition log_b (es : list event) : bool := forallb legal_b (acts_in es) && forall2_b writes_b (acts_in es) es.
Lemma log_is es : log_b es = true -> log (acts_in es) es.
Proof. intro H. apply andb_true_iff in H. destruct H as [A B]. split; [exact (forallb_is _ _ _ legal_is A)|exact (forall2_is _ _ writes_is _ _ B)]. Qed.

(** The dealer discards twice, takes a third red dragon from the right neighbour, who has declared
    riichi, and discards again. *)
Definition pon_deal : list event :=
  [mkEvent (t_ "INIT") [(t_ "seed", t_ "0,0,0,1,2,7"); (t_ "hai0", t_ "1,4,12,18,40,44,48,57,60,80,109,124,130");
     (t_ "hai1", t_ "134,5"); (t_ "hai2", t_ "2,6"); (t_ "hai3", t_ "3")];
   said "T132"; said "D130"; said "U128"; said "E128"; said "T133"; said "D124"; mkEvent (t_ "REACH") [(t_ "who", t_ "1")]; said "E134";
   mkEvent (t_ "N") [(t_ "who", t_ "0"); (t_ "m", t_ "51817")]; said "D109"].
Example C115_case : seat 0 /\ log (acts_in pon_deal) pon_deal /\ playing 0 (acts_in pon_deal) false /\
  map snd (own_discards 0 [] (acts_in pon_deal)) = [130; 124; 109] /\
  map (fun x => melds_made 0 (fst x)) (own_discards 0 [] (acts_in pon_deal)) = [0; 0; 1] /\
  exists rows, game_reason_list pon_deal 0 4 = Ok rows /\ map rr_somebody_richii rows = [false; false; true] /\
    map (fun r => sh_step (rr_choice r)) rows = [3; 2; 2].
Proof.
  split; [split; lia|]. split; [apply log_is; vm_compute; reflexivity|]. split; [apply playing_is; vm_compute; reflexivity|]. split; [vm_compute; reflexivity|]. split; [vm_compute; reflexivity|].
  eexists. split; [vm_compute; reflexivity|]. split; reflexivity.
Qed.

(** 1m2m3m 4p5p6p 7s8s9s 1z1z1z 2z and the second 2z is drawn; the dealer discards it. *)
Definition win_deal : list event :=
  [mkEvent (t_ "INIT") [(t_ "seed", t_ "0,0,0,1,2,7"); (t_ "hai0", t_ "1,4,8,48,53,56,96,100,104,108,109,110,112");
     (t_ "hai1", t_ "134,5"); (t_ "hai2", t_ "2,6"); (t_ "hai3", t_ "3")];
   said "T113"; said "D113"; said "U128"; said "E128"].
Example C115_complete_case : seat 0 /\ log (acts_in win_deal) win_deal /\ playing 0 (acts_in win_deal) false /\
  game_reason_list win_deal 0 4 = Err RuntimeError /\
  exists before t after, acts_in win_deal = before ++ Discard 0 t :: after /\ complete_at 0 before.
Proof.
  assert (L : log (acts_in win_deal) win_deal) by (apply log_is; vm_compute; reflexivity).
  assert (P : playing 0 (acts_in win_deal) false) by (apply playing_is; vm_compute; reflexivity).
  assert (E : game_reason_list win_deal 0 4 = Err RuntimeError) by (vm_compute; reflexivity).
  split; [split; lia|]. split; [exact L|]. split; [exact P|]. split; [exact E|].
  destruct (C115_outcome 0 4 _ _ _ ltac:(split; lia) (or_intror eq_refl) P L) as [(rows & Q)|[[_ Q]|Q]]; [congruence|exact Q|congruence].
Qed.
