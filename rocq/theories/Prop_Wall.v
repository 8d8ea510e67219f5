(** C121: the universal format shows every tile that left the wall exactly once. *)
From Verif Require Import Base Category Tile Parse Text Tenhou TenhouProofs Spec_Tile Spec_Meld MeldProofs Prop_Meld Event Const Reader State Spec_Log StateProofs Prop_State Value Universe Translator TenhouCommands
  Transfer Spec_Transfer Spec_Universe UniverseProofs Prop_Executor CommandProofs Prop_Commands Spec_Play CommandState CommandPlay PlaySteps PlayProofs Prop_Play Prop_Hand Spec_Score FinishProofs Prop_Score
  Prop_Meld Spec_Header Prop_Header Prop_Reader Spec_Read Prop_Read Spec_Convert ConvertProofs Prop_Convert Spec_Moment Prop_Moment Spec_Wall.
From Coq Require Import String List ZArith Lia Bool Permutation.
Import ListNotations.
Open Scope list_scope.
Open Scope Z_scope.

(** Every move of [p] is with tiles it has, every tile drawn is new to the hand. *)
Definition honest (p : Z) (acts : list action) : Prop :=
  forall before a after, acts = before ++ a :: after ->
    match a with
    | Deal d => NoDup (d_hands d p)
    | Draw q t => q = p -> ~ in_hand p [] before t
    | Discard q t => q = p -> in_hand p [] before t
    | Call q v => q = p -> forall t, laid_down v t -> in_hand p [] before t
    | _ => True
    end.
Lemma fair_honest p acts es : length acts = length es -> fair_play p acts es -> honest p acts.
Proof.
  intros L F before a after E. destruct (nth_error es (length before)) as [e|] eqn:N.
  - specialize (F before a after e E N). destruct a; cbn [fair] in F; auto. now destruct F.
  - apply nth_error_None in N. rewrite E, app_length in L. cbn in L. lia.
Qed.
Lemma honest_before p acts a : honest p (acts ++ [a]) -> honest p acts.
Proof. intros H b x c E. apply (H b x (c ++ [a])). rewrite E, <- app_assoc. reflexivity. Qed.
Lemma tiles_same P Q l m : tiles_of P l -> tiles_of Q m -> (forall t, P t <-> Q t) -> Permutation l m.
Proof. intros [N1 I1] [N2 I2] E. apply NoDup_Permutation; auto. intro t. now rewrite I1, I2. Qed.
Lemma forall2_snoc_l {A B} (R : A -> B -> Prop) l x m : Forall2 R (l ++ [x]) m -> exists m' y, m = m' ++ [y] /\ Forall2 R l m' /\ R x y.
Proof.
  intro F. apply Forall2_app_inv_l in F. destruct F as (m1 & m2 & F1 & F2 & ->). inversion F2 as [|? y ? ? Ry F3]; subst. inversion F3; subst. eauto 6.
Qed.
Lemma discards_snoc p acts a : discards_of p (acts ++ [a]) = discards_of p acts ++ match a with Discard q t => if q =? p then [t] else [] | _ => [] end.
Proof. unfold discards_of. rewrite flat_map_app. cbn [flat_map]. now rewrite app_nil_r. Qed.
Lemma calls_snoc p acts a : calls_of p (acts ++ [a]) = calls_of p acts ++ match a with Call q v => if q =? p then [v] else [] | _ => [] end.
Proof. unfold calls_of. rewrite flat_map_app. cbn [flat_map]. now rewrite app_nil_r. Qed.
Lemma draws_snoc p acts a : draws_of p (acts ++ [a]) = draws_of p acts ++ match a with Draw q t => if q =? p then [t] else [] | _ => [] end.
Proof. unfold draws_of. rewrite flat_map_app. cbn [flat_map]. now rewrite app_nil_r. Qed.

Lemma kept p before d : forall after hand ls, honest p (before ++ Deal d :: after) -> no_deal after ->
  tiles_of (in_hand p [] (before ++ Deal d :: after)) hand -> Forall2 (fun v l => tiles_of (laid_down v) l) (calls_of p after) ls ->
  Permutation (hand ++ concat ls ++ discards_of p after) (got p d after).
Proof.
  unfold got. induction after as [|a after IH] using rev_ind; intros hand ls H N Th Fl.
  - cbn [calls_of flat_map] in Fl. inversion Fl; subst ls. cbn [concat discards_of draws_of flat_map]. rewrite !app_nil_r.
    apply (tiles_same _ (fun t => In t (d_hands d p)) _ _ Th); [split; [exact (H before _ [] eq_refl)|reflexivity]|]. intro t. rewrite in_hand_snoc. cbn [puts]. unfold touches. cbn [puts takes]. tauto.
  - apply Forall_app in N. destruct N as [N Na]. inversion Na as [|? ? Na1 _]; subst. clear Na.
    change (before ++ Deal d :: after ++ [a]) with (before ++ (Deal d :: after) ++ [a]) in *. rewrite app_assoc in H, Th.
    pose proof (H _ a [] eq_refl) as Ha. specialize (fun h l => IH h l (honest_before _ _ _ H) N). destruct Th as [Nh Ih].
    set (acts := before ++ Deal d :: after) in *. rewrite discards_snoc, draws_snoc. rewrite calls_snoc in Fl.
    assert (Same : (forall t, ~ touches p t a) -> tiles_of (in_hand p [] acts) hand).
    { intro U. split; [exact Nh|]. intro t. rewrite Ih, in_hand_snoc. specialize (U t). unfold touches in *. tauto. }
    destruct a as [d'|q t|q t|q v|t|]; [destruct (Na1 I)| | | | |].
    + destruct (q =? p) eqn:Q; rewrite ?app_nil_r in *.
      * apply Z.eqb_eq in Q. specialize (Ha Q). subst q.
        assert (It : In t hand) by (apply Ih, in_hand_snoc; left; now cbn).
        apply in_split in It. destruct It as (h1 & h2 & ->).
        assert (T' : tiles_of (in_hand p [] acts) (h1 ++ h2)).
        { split; [eapply NoDup_remove_1; exact Nh|]. intro x. pose proof (NoDup_remove_2 _ _ _ Nh) as No. specialize (Ih x). rewrite in_hand_snoc in Ih. unfold touches in Ih. cbn [puts takes] in Ih.
          rewrite in_app_iff in *. cbn [In] in Ih. destruct (Z.eq_dec t x); [subst x; tauto|]. tauto. }
        rewrite !app_assoc, <- Permutation_cons_append, <- (IH _ _ T' Fl). rewrite <- !app_assoc. cbn [app]. symmetry. apply Permutation_middle.
      * apply Z.eqb_neq in Q. apply IH; [|exact Fl]. apply Same. unfold touches. cbn. tauto.
    + destruct (q =? p) eqn:Q; rewrite ?app_nil_r in *.
      * apply Z.eqb_eq in Q. specialize (Ha Q). subst q.
        assert (T' : tiles_of (in_hand p [] acts) (t :: hand)).
        { split; [constructor; [|exact Nh]|].
          - rewrite Ih, in_hand_snoc. unfold touches. cbn [puts takes]. tauto.
          - intro x. cbn [In]. rewrite Ih, in_hand_snoc. unfold touches. cbn [puts takes]. destruct (Z.eq_dec t x); [subst x; tauto|]. tauto. }
        rewrite <- (IH _ _ T' Fl). rewrite !app_assoc. symmetry. cbn [app]. apply Permutation_cons_append.
      * apply Z.eqb_neq in Q. apply IH; [|exact Fl]. apply Same. unfold touches. cbn. tauto.
    + destruct (q =? p) eqn:Q; rewrite ?app_nil_r in *.
      * apply Z.eqb_eq in Q. specialize (Ha Q). subst q. apply forall2_snoc_l in Fl. destruct Fl as (ls' & l & -> & Fl & [Nl Il]).
        assert (T' : tiles_of (in_hand p [] acts) (l ++ hand)).
        { split.
          - apply NoDup_app_intro; auto. intros x X Y. apply Il in X. apply Ih, in_hand_snoc in Y. unfold touches in Y. cbn [puts takes] in Y. tauto.
          - intro x. rewrite in_app_iff, Il, Ih, in_hand_snoc. unfold touches. cbn [puts takes]. specialize (Ha x).
            assert (D : laid_down v x \/ ~ laid_down v x) by (rewrite <- Il; destruct (in_dec Z.eq_dec x l); tauto). tauto. }
        rewrite <- (IH _ _ T' Fl). rewrite concat_app. cbn [concat]. rewrite app_nil_r.
        transitivity ((hand ++ concat ls') ++ l ++ discards_of p after); [rewrite <- !app_assoc; reflexivity|]. rewrite Permutation_app_swap_app, <- !app_assoc. reflexivity.
      * apply Z.eqb_neq in Q. apply IH; [|exact Fl]. apply Same. unfold touches. cbn. tauto.
    + rewrite ?app_nil_r in *. apply IH; [|exact Fl]. apply Same. unfold touches. cbn. tauto.
    + rewrite ?app_nil_r in *. apply IH; [|exact Fl]. apply Same. unfold touches. cbn. tauto.
Qed.

Lemma now_is unquote so strict es cmds now later k : to_commands (tenhou_command unquote so) strict es = Ok cmds ->
  cmds = now ++ later -> (forall c, In c now -> happened_before k c) -> (forall c, In c later -> ~ happened_before k c) ->
  to_commands (tenhou_command unquote so) strict (firstn k es) = Ok now.
Proof.
  intros H Ec Bn Bl. destruct (C120_cut _ _ _ _ _ k H) as (now' & later' & Ec' & Mem & Later & Hk).
  enough (now' = now) by congruence. clear Hk. rewrite Ec in Ec', Mem. clear Ec H.
  assert (A : forall c, In c now' -> happened_before k c) by (intros c I0; apply Mem; [rewrite Ec'; apply in_or_app; now left|exact I0]).
  clear Mem. revert now' Ec' A. induction now as [|c now IH]; intros [|c' now'] Ec' A; [reflexivity| | |].
  - exfalso. apply (Bl c'); [cbn in Ec'; rewrite Ec'; now left|apply A; now left].
  - exfalso. apply (Later c); [cbn in Ec'; rewrite <- Ec'; now left|apply Bn; now left].
  - cbn in Ec'. injection Ec' as -> Q. f_equal. apply IH; auto; intros; [apply Bn|apply A]; now right.
Qed.

(** ** C121. What a player got is what the format shows of that player, tile by tile. *)
Theorem C121_player : forall unquote so strict n w acts es cmds now later k before d after p,
  (forall l, Permutation (so l) l) -> proper n w acts es -> to_commands (tenhou_command unquote so) strict es = Ok cmds ->
  cmds = now ++ later -> (forall c, In c now -> happened_before k c) -> (forall c, In c later -> ~ happened_before k c) ->
  firstn k acts = before ++ Deal d :: after -> no_deal after -> 0 <= p < n ->
  exists all, shown_of now p all /\ Permutation all (map printed (got p d after)).
Proof.
  intros unquote so strict n w acts es cmds now later k before d after p SO Pr H Ec Bn Bl Ea Nd P.
  pose proof (C120_moment _ _ _ _ _ _ _ _ _ _ _ _ _ _ _ SO Pr H Ec Bn Bl Ea Nd P) as [(hand & l & Th & Hh & Pm) D _ _ _ _ _].
  pose proof (now_is _ _ _ _ _ _ _ _ H Ec Bn Bl) as Hk.
  pose proof (proper_first _ _ _ _ k Pr) as (Nn & Lg & C & T & O & F).
  assert (Sp : seat p) by (unfold seat; lia). assert (HS := seats _ _ _ _ C P).
  pose proof Lg as Lg2. rewrite Ea in Lg2.
  destruct (C58_play _ _ _ _ _ _ _ _ _ SO Sp Lg2 Nd HS Hk) as (_ & _ & _ & (ls & Fl & D4) & _).
  exists (l ++ map printed (concat ls) ++ map printed (discards_of p after)). split; [exists l, (map printed (concat ls)), (map printed (discards_of p after)); auto|].
  rewrite Pm, <- !map_app. apply Permutation_map. pose proof (fair_honest p _ _ (forall2_len _ _ _ (proj2 Lg)) (F p P)) as Ho. rewrite Ea in Ho, Th.
  exact (kept p before d after hand ls Ho Nd Th Fl).
Qed.

(** The whole table: everything shown is everything that left the wall. *)
Theorem C121_table : forall unquote so strict n w acts es cmds now later k before d after,
  (forall l, Permutation (so l) l) -> proper n w acts es -> to_commands (tenhou_command unquote so) strict es = Ok cmds ->
  cmds = now ++ later -> (forall c, In c now -> happened_before k c) -> (forall c, In c later -> ~ happened_before k c) ->
  firstn k acts = before ++ Deal d :: after -> no_deal after ->
  exists all, shown_at_table now n all /\ Permutation all (map printed (left_wall n d after)).
Proof.
  intros unquote so strict n w acts es cmds now later k before d after SO Pr H Ec Bn Bl Ea Nd.
  assert (Nn : n = 3 \/ n = 4) by (now destruct Pr).
  pose proof (C120_moment _ _ _ _ _ _ _ _ _ _ _ _ _ _ 0 SO Pr H Ec Bn Bl Ea Nd ltac:(lia)) as [_ _ _ _ Do _ _].
  assert (G : forall ps, Forall (fun p => 0 <= p < n) ps ->
    exists seats, Forall2 (shown_of now) ps seats /\ Permutation (concat seats) (map printed (flat_map (fun p => got p d after) ps))).
  { induction ps as [|p ps IH]; intro Fp; [exists []; split; constructor|]. pose proof (Forall_inv Fp) as P. cbn beta in P. destruct (IH (Forall_inv_tail Fp)) as (seats & A & B).
    destruct (C121_player _ _ _ _ _ _ _ _ _ _ _ _ _ _ p SO Pr H Ec Bn Bl Ea Nd P) as (all & S0 & Pm). exists (all :: seats). split; [now constructor|].
    cbn [concat flat_map]. rewrite map_app. now apply Permutation_app. }
  destruct (G (table n)) as (seats & A & B). { unfold table. destruct Nn as [-> | ->]; cbn [Z.eqb Pos.eqb]; repeat constructor; lia. }
  exists (concat seats ++ map printed (d_dora d :: new_doras after)). split; [exists seats, (map printed (d_dora d :: new_doras after)); auto|].
  unfold left_wall. rewrite map_app. now apply Permutation_app_tail.
Qed.

(** No tile is shown more often than there are copies of it, when the tiles of the wall are different. *)
Definition all_tiles : list Z := map Z.of_nat (seq 0 136).
Lemma valid_all t : valid_tile t -> In t all_tiles.
Proof. intro V. unfold valid_tile in V. apply in_map_iff. exists (Z.to_nat t). split; [lia|]. apply in_seq. lia. Qed.
Lemma times_map s l : times s (map printed l) = length (filter (fun t => text_eqb (name_of t) s) l).
Proof.
  unfold times. induction l as [|t l IH]; [reflexivity|]. cbn [map filter]. destruct (printed t) eqn:E; try discriminate E.
  replace (name_of t) with s0 by (unfold name_of; now rewrite E). destruct (text_eqb s0 s); cbn [length]; now rewrite IH.
Qed.
Lemma times_perm s l m : Permutation l m -> times s l = times s m.
Proof.
  unfold times. induction 1 as [|x l m P IH|x y l|l m n P1 IH1 P2 IH2]; [reflexivity| | |congruence]; cbn [filter].
  - destruct x; try exact IH. destruct (text_eqb _ s); cbn [length]; congruence.
  - destruct x as [| | |x|], y as [| | |y|]; try reflexivity. destruct (text_eqb x s), (text_eqb y s); reflexivity.
Qed.

Definition few_b (t : Z) : bool := Nat.leb (length (filter (fun u => text_eqb (name_of u) (name_of t)) all_tiles)) (copies t).
Lemma few_all : forallb few_b all_tiles = true.
Proof. vm_compute. reflexivity. Qed.
Lemma all_length : length all_tiles = 136%nat.
Proof. reflexivity. Qed.
Opaque all_tiles.
Lemma few t : valid_tile t -> (length (filter (fun u => text_eqb (name_of u) (name_of t)) all_tiles) <= copies t)%nat.
Proof.
  intro V. apply valid_all in V. pose proof few_all as F. rewrite forallb_forall in F. specialize (F t V). unfold few_b in F. rewrite Nat.leb_le in F. exact F.
Qed.
Theorem C121_copies : forall unquote so strict n w acts es cmds now later k before d after,
  (forall l, Permutation (so l) l) -> proper n w acts es -> to_commands (tenhou_command unquote so) strict es = Ok cmds ->
  cmds = now ++ later -> (forall c, In c now -> happened_before k c) -> (forall c, In c later -> ~ happened_before k c) ->
  firstn k acts = before ++ Deal d :: after -> no_deal after ->
  NoDup (left_wall n d after) -> Forall valid_tile (left_wall n d after) ->
  exists all, shown_at_table now n all /\ (forall t, valid_tile t -> (times (name_of t) all <= copies t)%nat) /\ (length all <= 136)%nat.
Proof.
  intros unquote so strict n w acts es cmds now later k before d after SO Pr H Ec Bn Bl Ea Nd Nw Vw.
  destruct (C121_table _ _ _ _ _ _ _ _ _ _ _ _ _ _ SO Pr H Ec Bn Bl Ea Nd) as (all & S0 & Pm). exists all. split; [exact S0|].
  assert (Sub : incl (left_wall n d after) all_tiles) by (intros t I0; apply valid_all; rewrite Forall_forall in Vw; auto). split.
  - intros t V. rewrite (times_perm _ _ _ Pm), times_map. etransitivity; [|exact (few t V)]. apply NoDup_incl_length; [now apply NoDup_filter|].
    intros u I0. apply filter_In in I0. apply filter_In. split; [apply Sub|]; tauto.
  - rewrite (Permutation_length Pm), map_length, <- all_length. exact (NoDup_incl_length Nw Sub).
Qed.
Print Assumptions C121_player.
Print Assumptions C121_table.
Print Assumptions C121_copies.
