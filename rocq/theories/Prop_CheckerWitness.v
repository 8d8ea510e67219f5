(** C52-C54, C64: what goes wrong, and concrete cases for the theorems of Prop_Checker.v. *)
From Coq Require Import String.
From Verif Require Import Base Category Tile TileSet Spec_Tile TileSetFacts Win Spec_Win WinFacts WinProofs Waiting Spec_Waiting WaitingFacts WaitingPM WaitingBrute WaitingHeur WaitingHeurTop WaitingSize Spec_Hand WaitingTop.
From Verif Require Import Parse Text Tenhou TenhouProofs Spec_Meld MeldProofs Prop_Meld Event State Spec_Log StateProofs Prop_State Checker Spec_Checker CheckerProofs CheckerHand CheckerRows CheckerReport CheckerGame Prop_Checker CheckerTexts.
From Coq Require Import List ZArith QArith Lia Bool Permutation.
Import ListNotations.
Open Scope list_scope.
Open Scope Z_scope.

(** The player of seat 0 discards tile [t]. *)
Definition drop (t : Z) : event := mkEvent (68 :: str_int t) [].
Definition everything : list inv := map (fun n => ITile (Z.of_nat n)) (seq 1 135).
Lemma everything_nodup : NoDup everything.
Proof.
  unfold everything. apply FinFun.Injective_map_NoDup; [|apply seq_NoDup]. intros x y Q. injection Q as Q. now apply Nat2Z.inj.
Qed.
Lemma by_check (l : list Z) (b : bool) : (if list_eq_dec Z.eq_dec (nodup Z.eq_dec l) l then b else false) = true -> NoDup l /\ b = true.
Proof. destruct (list_eq_dec Z.eq_dec (nodup Z.eq_dec l) l) as [<-|]; [|discriminate]. intro. split; [apply NoDup_nodup|assumption]. Qed.
Definition valid_tileb (t : Z) : bool := (0 <=? t) && (t <? 136).
Lemma valid_tileb_iff t : valid_tileb t = true -> valid_tile t.
Proof. unfold valid_tileb, valid_tile. rewrite andb_true_iff, Z.leb_le, Z.ltb_lt. lia. Qed.
Definition discards_check (hand : list Z) (melds : list meld) (t : Z) : bool :=
  if list_eq_dec Z.eq_dec (nodup Z.eq_dec hand) hand then
    forallb valid_tileb hand && (table_melds melds <=? 4) && (Z.of_nat (length hand) =? 14 - 3 * table_melds melds) &&
    existsb (Z.eqb t) hand && forallb (fun x => forallb valid_tileb (m_self x ++ m_borrowed x)) melds
  else false.
Lemma discards_checked hand melds t : discards_check hand melds t = true -> discards (drop t) 0 hand melds t.
Proof.
  unfold discards_check. intro E. apply by_check in E. destruct E as [N E]. rewrite !andb_true_iff in E. destruct E as ((((A & B) & C) & D) & F).
  split; [split; lia|]. split; [|split; [reflexivity|]].
  - split; [exact N|]. split; [rewrite forallb_forall in A; apply Forall_forall; intros x X; apply valid_tileb_iff; auto|].
    split; [apply Z.leb_le in B; unfold table_melds in *; lia|]. split; [now apply Z.eqb_eq|].
    apply existsb_exists in D. destruct D as (x & X & Q). apply Z.eqb_eq in Q. now subst x.
  - rewrite forallb_forall in F. apply Forall_forall. intros x X. specialize (F x X). rewrite forallb_forall in F. apply Forall_forall. intros y Y. apply valid_tileb_iff; auto.
Qed.
Definition no_redb (hand : list Z) : bool := forallb (fun t => negb ((t =? 16) || (t =? 52) || (t =? 88))) hand.
Lemma no_redb_ok hand : no_redb hand = true -> no_red_five hand.
Proof. unfold no_redb, no_red_five, red_number. rewrite forallb_forall. intros F t T. specialize (F t T). rewrite negb_true_iff, !orb_false_iff, !Z.eqb_neq in F. lia. Qed.

(** *** Cases for the theorems: two pons and a kita on the table, eight tiles in hand. *)
Definition two_pons : list meld := [mkMeld CTriplet [108; 109] [110] 1; mkMeld CTriplet [112; 113] [114] 1; mkMeld CKita [120] [] 0].
Definition eight : list Z := [0; 4; 12; 18; 40; 44; 48; 57].
Example C52_case : discards (drop 57) 0 eight two_pons 57 /\ table_melds two_pons = 2 /\ no_red_five eight /\
  exists r, reported (drop 57) 0 eight 4 everything two_pons = Ok r /\ length (rr_merged r) = 5%nat /\ length (rr_expected r) = 1%nat /\
    Qred (rr_wrong_rate r) = 0%Q.
Proof.
  split; [apply discards_checked; vm_compute; reflexivity|]. split; [reflexivity|]. split; [apply no_redb_ok; reflexivity|].
  eexists. split; [vm_compute; reflexivity|]. split; [reflexivity|]. split; reflexivity.
Qed.
(** The same hand, discarding 1m or breaking the 234p: worse, and the rate says how much. *)
Example C64_case : exists r1 r2, reported (drop 0) 0 eight 4 everything two_pons = Ok r1 /\ Qred (rr_wrong_rate r1) = (3 # 20)%Q /\
  reported (drop 40) 0 eight 4 everything two_pons = Ok r2 /\ (1 # 2 < rr_wrong_rate r2 < 1)%Q.
Proof.
  eexists. eexists. split; [vm_compute; reflexivity|]. split; [reflexivity|]. split; [vm_compute; reflexivity|]. cbn [rr_wrong_rate]. split; reflexivity.
Qed.
(** A closed hand that is nearer to the standard shape. *)
Definition standard_hand : list Z := [0; 4; 8; 40; 44; 48; 80; 85; 93; 96; 116; 108; 109; 130].
Example C52_closed_case : discards (drop 130) 0 standard_hand [] 130 /\ table_melds [] = 0 /\ no_red_five standard_hand /\
  (exists r, reported (drop 130) 0 standard_hand 4 everything [] = Ok r /\ (2 <= length (rr_merged r))%nat) /\
  exists n1 n2, distance true (Standard 1 4) (hand_counts standard_hand) n1 /\ distance true (DistinctPairs 7) (hand_counts standard_hand) n2 /\ (n1 < n2)%nat.
Proof.
  assert (T : discards (drop 130) 0 standard_hand [] 130) by (apply discards_checked; vm_compute; reflexivity).
  split; [exact T|]. split; [reflexivity|]. split; [apply no_redb_ok; reflexivity|]. split.
  - eexists. split; [vm_compute; reflexivity|]. cbn [rr_merged length]. lia.
  - destruct T as (_ & (N & V & M & L & _) & _). destruct (hand_tiles_facts standard_hand N V) as (H & EH & HF).
    destruct (h_both_spec (Standard 1 4) (re_sort H)) as (n1 & t1 & D1 & E1 & _); [apply (re_sort_facts _ _ HF)|apply (re_sort_facts _ _ HF)|apply (shapes_size standard_hand 0 _ _ (re_sort_facts _ _ HF)); [lia|exact L|now left]|].
    destruct (h_both_spec (DistinctPairs 7) (re_sort H)) as (n2 & t2 & D2 & E2 & _); [apply (re_sort_facts _ _ HF)|apply (re_sort_facts _ _ HF)|apply (shapes_size standard_hand 0 _ _ (re_sort_facts _ _ HF)); [lia|exact L|now right; left]|].
    exists n1, n2. split; [eapply distance_ext; [|exact D1]; apply (hf_count _ _ (re_sort_facts _ _ HF))|]. split; [eapply distance_ext; [|exact D2]; apply (hf_count _ _ (re_sort_facts _ _ HF))|].
    vm_compute in EH. apply Ok_inj in EH. subst H.
    assert (Q1 : match h_both (pattern_of (Standard 1 4)) (re_sort (match hand_tiles standard_hand with Ok h => h | Err _ => [] end)) true with Ok (w, _) => w =? 1 | Err _ => false end = true) by (vm_compute; reflexivity).
    assert (Q2 : match h_both (pattern_of (DistinctPairs 7)) (re_sort (match hand_tiles standard_hand with Ok h => h | Err _ => [] end)) true with Ok (w, _) => w =? 5 | Err _ => false end = true) by (vm_compute; reflexivity).
    match type of E1 with h_both _ ?hh _ = _ => change (re_sort (match hand_tiles standard_hand with Ok h => h | Err _ => [] end)) with hh in Q1, Q2 end.
    rewrite E1 in Q1. rewrite E2 in Q2. apply Z.eqb_eq in Q1, Q2. lia.
Qed.

(** *** C52: a hand of six pairs. The report says that after discarding 1z the hand waits for 2z; in fact 1z is
    one of the pairs. The rows of the two patterns come in different orders and are merged by position. *)
Definition six_pairs : list Z := [0; 1; 8; 9; 54; 55; 60; 61; 72; 73; 108; 109; 112; 116].
Lemma one_text n : str_int n = [49] -> n = 1.
Proof.
  intro E. destruct (Z_lt_dec n 0) as [L|L].
  - unfold str_int in E. destruct (Z.ltb_spec n 0); [discriminate|lia].
  - destruct (str_int_nonneg n) as (_ & _ & Q); [lia|]. rewrite E in Q. rewrite <- Q. reflexivity.
Qed.
Lemma names_one_z k : names [49; 122] k -> k = (Cz, 1).
Proof.
  destruct k as [c n]. unfold names, face_text. cbn [fst snd]. intros [E|(_ & _ & E)]; change [49; 122] with ([49] ++ [122]) in E; apply app_inj_tail in E; destruct E as [E1 E2].
  - symmetry in E1. apply one_text in E1. subst n. destruct c; try discriminate. reflexivity.
  - discriminate.
Qed.
Theorem C52_refuted : exists e p hand invisible t r row, discards e p hand [] t /\ NoDup invisible /\ no_red_five hand /\
  reported e p hand 4 invisible [] = Ok r /\ In row (rr_expected r) /\ In row (rr_merged r) /\
  forall k, ~ right_row (shapes_for 0) hand k (sh_discard row) (sh_step row) (sh_useful row).
Proof.
  assert (T : discards (drop 108) 0 six_pairs [] 108) by (apply discards_checked; vm_compute; reflexivity).
  exists (drop 108), 0, six_pairs, everything, 108.
  destruct (reported (drop 108) 0 six_pairs 4 everything []) as [r|] eqn:E; [|exfalso; vm_compute in E; discriminate E].
  destruct (C63_choice _ _ _ _ _ _ _ _ T everything_nodup E) as [(_ & (n & B & Sn) & _) _].
  assert (Sc : sh_step (rr_choice r) = 1) by (vm_compute in E; apply Ok_inj in E; subst r; reflexivity).
  assert (Row : exists row, In row (rr_expected r) /\ In row (rr_merged r) /\ sh_discard row = [[49; 122]] /\ sh_step row = 0).
  { vm_compute in E. apply Ok_inj in E. subst r. eexists. split; [left; reflexivity|]. split; [left; reflexivity|]. split; reflexivity. }
  destruct Row as (row & I1 & I2 & D & St). exists r, row. split; [exact T|]. split; [exact everything_nodup|]. split; [apply no_redb_ok; reflexivity|]. split; [reflexivity|].
  split; [exact I1|]. split; [exact I2|]. rewrite D, St. intros k ((x & Qx & Nx) & (m & Bm & Sm) & _). injection Qx as <-. apply names_one_z in Nx. subst k.
  change (Cz, 1) with (face 108) in Bm. change (shapes_for (table_melds [])) with (shapes_for 0) in B. rewrite (best_unique _ _ _ _ Bm B) in Sm. lia.
Qed.

(** *** C64: the reported best discard is worse than the one made, the rate is negative. *)
Definition lost_row : list Z := [8; 11; 9; 69; 71; 68; 18; 17; 12; 15; 67; 66; 56; 45].
Theorem C64_refuted : exists e p hand invisible t r, discards e p hand [] t /\ NoDup invisible /\ no_red_five hand /\
  reported e p hand 4 invisible [] = Ok r /\ (rr_wrong_rate r < 0)%Q.
Proof.
  exists (drop 56), 0, lost_row, everything, 56. eexists. split; [apply discards_checked; vm_compute; reflexivity|]. split; [exact everything_nodup|].
  split; [apply no_redb_ok; reflexivity|]. split; [vm_compute; reflexivity|]. reflexivity.
Qed.

(** *** C54: a complete hand (drawing the winning tile and not winning) ends the whole report with an error. *)
Theorem C54_complete_refuted : exists e p hand invisible t, discards e p hand [] t /\ NoDup invisible /\ no_red_five hand /\
  complete hand 0 /\ reported e p hand 4 invisible [] = Err StopIteration.
Proof.
  set (hand := [0; 4; 8; 40; 44; 48; 80; 84; 92; 96; 100; 89; 108; 109]).
  assert (T : discards (drop 108) 0 hand [] 108) by (apply discards_checked; vm_compute; reflexivity).
  exists (drop 108), 0, hand, everything, 108. split; [exact T|]. split; [exact everything_nodup|]. split; [apply no_redb_ok; reflexivity|].
  assert (E : reported (drop 108) 0 hand 4 everything [] = Err StopIteration) by (vm_compute; reflexivity).
  split; [|exact E]. apply (C54_outcomes _ _ _ _ _ _ _ T) in E. exact E.
Qed.
(** When every useful tile is in sight the rate divides by zero. *)
Theorem C54_no_tile_refuted : exists e p hand invisible melds t, discards e p hand melds t /\ NoDup invisible /\ no_red_five hand /\
  ~ complete hand (table_melds melds) /\ reported e p hand 4 invisible melds = Err ZeroDivisionError.
Proof.
  set (melds := repeat (mkMeld CTriplet [120; 121] [122] 1) 4).
  assert (T : discards (drop 108) 0 [108; 112] melds 108) by (apply discards_checked; vm_compute; reflexivity).
  exists (drop 108), 0, [108; 112], (map ITile [17; 18; 34; 35]), melds, 108. split; [exact T|].
  assert (E : reported (drop 108) 0 [108; 112] 4 (map ITile [17; 18; 34; 35]) melds = Err ZeroDivisionError) by (vm_compute; reflexivity).
  split; [apply FinFun.Injective_map_NoDup; [intros x y Q; now injection Q|]; apply (by_check [17; 18; 34; 35] true); vm_compute; reflexivity|]. split; [apply no_redb_ok; reflexivity|]. split; [|exact E].
  intro C. apply (C54_outcomes _ _ _ 4 (map ITile [17; 18; 34; 35]) _ _ T) in C. rewrite E in C. discriminate.
Qed.
(** Also when useful tiles are left: a hand waiting for the mates of its red 5m. *)
Theorem C54_red_five_refuted : exists e p hand invisible melds t, discards e p hand melds t /\ NoDup invisible /\
  (exists k j u, keeps_distance true (Standard 1 (4 - table_melds melds)) (hand_counts hand) k /\
     advances true (Standard 1 (4 - table_melds melds)) (without (hand_counts hand) k) j /\ hidden hand invisible u /\ valid_tile u /\ face u = j) /\
  reported e p hand 4 invisible melds = Err ZeroDivisionError.
Proof.
  set (melds := repeat (mkMeld CTriplet [120; 121] [122] 1) 4). set (i := map ITile [17; 18; 19; 34; 35]).
  assert (T : discards (drop 112) 0 [16; 112] melds 112) by (apply discards_checked; vm_compute; reflexivity).
  assert (T' : discards (drop 112) 0 [17; 112] melds 112) by (apply discards_checked; vm_compute; reflexivity).
  exists (drop 112), 0, [16; 112], i, melds, 112. split; [exact T|].
  assert (Ni : forall l, (if list_eq_dec Z.eq_dec (nodup Z.eq_dec l) l then true else false) = true -> NoDup (map ITile l)).
  { intros l Q. apply FinFun.Injective_map_NoDup; [intros x y Q'; now injection Q'|]. apply (by_check l true Q). }
  split; [apply Ni; vm_compute; reflexivity|]. split; [|vm_compute; reflexivity].
  (* the same hand with a plain 5m *)
  assert (E' : exists r, reported (drop 112) 0 [17; 112] 4 (map ITile [18; 19]) melds = Ok r) by (eexists; vm_compute; reflexivity).
  apply (C54_open_partial _ _ _ 4 (map ITile [18; 19]) _ _ T') in E'; [|apply Ni; vm_compute; reflexivity|discriminate|apply no_red_idle, no_redb_ok; reflexivity].
  destruct E' as (k & j & u & K & A & (Hu & Nu) & V & F). exists k, j, u.
  assert (Hc : forall x, hand_counts [17; 112] x = hand_counts [16; 112] x) by reflexivity.
  split; [eapply keeps_ext; [exact Hc|exact K]|]. split; [eapply advances_ext; [|exact A]; intro x; symmetry; apply without_ext; exact Hc|].
  split; [|auto]. destruct Hu as [Hu|[Hu|[]]]; injection Hu as <-; (split; [cbn; tauto|cbn; lia]).
Qed.

(** *** C53: a deal, one turn. *)
Definition deal13 : event := mkEvent (t_ "INIT")
  [(t_ "seed", t_ "0,0,0,1,2,7"); (t_ "hai0", t_ "0,4,12,18,40,44,48,57,60,80,109,124,130");
   (t_ "hai1", t_ "1,5"); (t_ "hai2", t_ "2,6"); (t_ "hai3", t_ "3")].
Definition deal13_action : action := Deal (mkDeal (fun p =>
  if p =? 0 then [0; 4; 12; 18; 40; 44; 48; 57; 60; 80; 109; 124; 130] else if p =? 1 then [1; 5] else if p =? 2 then [2; 6] else [3])
  [0; 0; 0; 1; 2] 7).
Definition turn_log : list event :=
  [deal13; mkEvent (t_ "T132") []; mkEvent (t_ "REACH") [(t_ "who", t_ "1")]; drop 130; mkEvent (t_ "U128") []; mkEvent (t_ "E128") []; mkEvent (t_ "T133") []; drop 124].
Definition turn_acts : list action := [deal13_action; Draw 0 132; Other; Discard 0 130; Draw 1 128; Discard 1 128; Draw 0 133; Discard 0 124].
Lemma turn_log_ok : log turn_acts turn_log.
Proof.
  split.
  - repeat (constructor; [cbn [legal_action]; unfold seat, valid_tile; try lia; exact I|]). constructor.
  - unfold turn_acts, turn_log. constructor.
    { split; [reflexivity|]. split; [reflexivity|]. intros p P. assert (p = 0 \/ p = 1 \/ p = 2 \/ p = 3) as [->|[->|[->| ->]]] by lia; reflexivity. }
    constructor; [reflexivity|]. constructor.
    { split; [discriminate|]. split; [discriminate|]. split; [discriminate|]. intros (l & c & x & Q & R & _). cbn [tag] in Q. injection Q as Q _. lia. }
    constructor; [reflexivity|]. constructor; [reflexivity|]. constructor; [reflexivity|]. constructor; [reflexivity|]. constructor; [reflexivity|]. constructor.
Qed.
Example C53_case : seat 0 /\ log turn_acts turn_log /\ takes_turns 0 turn_acts /\ discards_of 0 turn_acts = [130; 124] /\
  exists rows, game_reason_list turn_log 0 4 = Ok rows /\ map rr_somebody_richii rows = [true; true].
Proof.
  split; [split; lia|]. split; [exact turn_log_ok|]. split.
  - intros before after t t'. unfold turn_acts.
    do 8 (destruct before as [|? before]; [cbn [app]; intro Q; discriminate Q|cbn [app]; intro Q; injection Q as _ Q; revert Q]). destruct before; discriminate.
  - split; [reflexivity|]. eexists. split; [vm_compute; reflexivity|]. reflexivity.
Qed.

(** Two discards in a row, as a log has them only when an event is lost, give one row. *)
Theorem C53_refuted : exists acts es rows, log acts es /\ game_reason_list es 0 4 = Ok rows /\
  length (discards_of 0 acts) = 2%nat /\ length rows = 1%nat.
Proof.
  exists [deal13_action; Draw 0 132; Discard 0 130; Discard 0 124], [deal13; mkEvent (t_ "T132") []; drop 130; drop 124]. eexists. split.
  - split; [repeat (constructor; [cbn [legal_action]; unfold seat, valid_tile; try lia; exact I|]); constructor|]. constructor.
    { split; [reflexivity|]. split; [reflexivity|]. intros p P. assert (p = 0 \/ p = 1 \/ p = 2 \/ p = 3) as [->|[->|[->| ->]]] by lia; reflexivity. }
    constructor; [reflexivity|]. constructor; [reflexivity|]. constructor; [reflexivity|]. constructor.
  - split; [vm_compute; reflexivity|]. split; reflexivity.
Qed.

(** *** C65, C66: the case above. *)
Example C65_case : exists r, reported (drop 57) 0 eight 4 everything two_pons = Ok r /\
  rr_hand r = [t_ "1m"; t_ "2m"; t_ "4m"; t_ "5m"; t_ "2p"; t_ "3p"; t_ "4p"; t_ "6p"] /\
  rr_melds r = [[t_ "1z"; t_ "1z"; t_ "1z"]; [t_ "2z"; t_ "2z"; t_ "2z"]; [t_ "4z"]] /\ sh_useful (rr_choice r) = [t_ "1m"; t_ "2m"; t_ "3m"; t_ "4m"; t_ "5m"; t_ "6m"].
Proof. eexists. split; [vm_compute; reflexivity|]. split; [reflexivity|]. split; reflexivity. Qed.
(** *** C55: 5m and 1z wait; two and three of them are unseen. *)
Example C55_case : exists x, convert_to_reasoning (map ITile [17; 19; 108; 110; 111; 112]) (Plain 1 Cz) [Plain 5 Cm; Plain 1 Cz] 0 = Ok x /\ ri_count x = 5.
Proof. eexists. split; [vm_compute; reflexivity|]. reflexivity. Qed.
(** *** C54: a closed hand with live tiles for both patterns: the report is made. *)
Example C54_case : exists r, reported (drop 130) 0 standard_hand 4 everything [] = Ok r.
Proof. eexists. vm_compute. reflexivity. Qed.

Print Assumptions C52_refuted.
Print Assumptions C53_refuted.
Print Assumptions C54_complete_refuted.
Print Assumptions C54_no_tile_refuted.
Print Assumptions C54_red_five_refuted.
Print Assumptions C64_refuted.
