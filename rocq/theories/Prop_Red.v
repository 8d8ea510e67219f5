(** Property C55, exactly: how the copies of the useful tiles are counted when there are red
    fives among them. *)
From Coq Require Import String.
From Verif Require Import Base Category Tile TileSet Spec_Tile Parse Text Tenhou TenhouProofs Spec_Meld MeldProofs Prop_Meld Event State Win Waiting WaitingFacts Checker Spec_Checker CheckerProofs CheckerHand Spec_Win Spec_Waiting Spec_Mixed.
From Coq Require Import List ZArith Lia Bool.
Import ListNotations.
Open Scope list_scope.
Open Scope Z_scope.

Definition tiles_only (invisible : list inv) : Prop := forall u, In (ITile u) invisible -> valid_tile u.
Lemma range_faces t : legal_tile t -> exists r, tile_to_tenhou_range t = Ok r /\ NoDup r /\
  forall j, valid_tile j -> (In j r <-> In (face j) (counted_face t)).
Proof.
  intros L. destruct t as [n c|c].
  - destruct (C05_range_partial n c L) as (r & E & N & R). exists r. split; [exact E|]. split; [exact N|]. intros j V. rewrite R. cbn [counted_face In]. intuition.
  - assert (P : forall n c, legal_kind (c, n) -> forall r, tile_to_tenhou_range (Plain n c) = Ok r -> NoDup r /\ forall j, valid_tile j -> (In j r <-> In (face j) [(c, n)])).
    { intros n c0 K r E. destruct (C05_range_partial n c0 K) as (r' & E' & N & R). rewrite E in E'. apply Ok_inj in E'. subst r'. split; [exact N|]. intros j V. rewrite R. cbn [In]. intuition. }
    destruct c; cbn [legal_tile] in L; try (exfalso; now apply L).
    + exists [-4; -3; -2; -1]. split; [reflexivity|]. split; [repeat (apply NoDup_cons; [cbn [In]; lia|]); constructor|]. intros j V. cbn [counted_face In]. unfold valid_tile in V. lia.
    + exists [32; 33; 34; 35]. split; [reflexivity|]. apply (P 9 Cm); [cbn; lia|reflexivity].
    + exists [68; 69; 70; 71]. split; [reflexivity|]. apply (P 9 Cp); [cbn; lia|reflexivity].
Qed.
Lemma copies_faces s t n : tiles_only s -> legal_tile t -> copies s t = Ok n -> counts_unseen (fun u => In (ITile u) s) (counted_face t) n.
Proof.
  intros T L E. unfold copies in E. destruct (range_faces t L) as (r & Er & Nr & R). rewrite Er in E. cbn [bindr] in E. apply Ok_inj in E. subst n.
  eexists. split; [|split; [|reflexivity]].
  - apply NoDup_filter. unfold set_of. apply NoDup_nodup.
  - intro m. rewrite filter_In. unfold set_of. rewrite nodup_In, inv_mem_iff. split.
    + intros [A B]. pose proof (T m B) as V. split; [exact B|]. split; [exact V|]. now apply R.
    + intros (A & V & F). split; [|exact A]. now apply R.
Qed.
Lemma useful_faces s u n : tiles_only s -> Forall legal_tile u -> useful_count s u = Ok n -> counted (fun t => In (ITile t) s) u n.
Proof.
  intros T L. revert n. induction L as [|t u Lt _ IH]; intros n E.
  - apply Ok_inj in E. cbn in E. subst n. exists []. split; [constructor|reflexivity].
  - rewrite useful_count_cons in E. destruct (copies s t) as [a|] eqn:Ea; [|discriminate]. cbn [bindr] in E.
    destruct (useful_count s u) as [b|] eqn:Eb; [|discriminate]. cbn [bindr] in E. apply Ok_inj in E. subst n.
    destruct (IH b eq_refl) as (ns & F & ->). exists (a :: ns). split; [constructor; [now apply copies_faces|exact F]|reflexivity].
Qed.
Theorem C55_exactly : forall invisible t useful step x, tiles_only invisible -> Forall legal_tile useful ->
  convert_to_reasoning invisible t useful step = Ok x -> counted (fun u => In (ITile u) invisible) useful (ri_count x).
Proof.
  intros i t u st x T L E. unfold convert_to_reasoning in E. destruct (useful_count i u) as [c|] eqn:Ec; [|discriminate]. cbn [bindr] in E.
  apply Ok_inj in E. subst x. now apply useful_faces.
Qed.
Theorem C55_merge_exactly : forall invisible l x, tiles_only invisible -> Forall (fun y => Forall legal_tile (ri_useful y)) l ->
  reasoning_merge l invisible = Ok x -> counted (fun u => In (ITile u) invisible) (ri_useful x) (ri_count x).
Proof.
  intros i l x T F E. unfold reasoning_merge in E. destruct l as [|y l]; [discriminate|]. destruct (min_list _) as [st|]; [|discriminate]. cbn [bindr] in E.
  destruct (useful_count i _) as [c|] eqn:Ec; [|discriminate]. cbn [bindr] in E. apply Ok_inj in E. subst x. cbn [ri_useful ri_count].
  assert (G : forall l y, Forall (fun y => Forall legal_tile (ri_useful y)) (y :: l) -> Forall legal_tile (ri_useful (fold_left reduce_useful l y))).
  { clear. induction l as [|w l IH]; intros y F; [now inversion F|]. cbn [fold_left]. apply IH. inversion F as [|? ? A F']; subst. inversion F' as [|? ? B F'']; subst.
    constructor; [|exact F'']. unfold reduce_useful. destruct (ri_step w <? ri_step y); [auto|]. destruct (ri_step y =? ri_step w); [|auto]. cbn [ri_useful].
    apply set_update_P; assumption. }
  apply useful_faces; auto.
Qed.
Example C55_exactly_case : exists x, convert_to_reasoning [ITile 32; ITile 33; ITile 53; ITile 1] (Plain 1 Cz) [Aka Cp; Plain 1 Cm] 0 = Ok x /\ ri_count x = 3 /\
  tiles_only [ITile 32; ITile 33; ITile 53; ITile 1] /\ Forall legal_tile [Aka Cp; Plain 1 Cm].
Proof.
  eexists. split; [vm_compute; reflexivity|]. split; [reflexivity|]. split.
  - intros u H. cbn [In] in H. unfold valid_tile. destruct H as [H|[H|[H|[H|[]]]]]; injection H as <-; lia.
  - repeat constructor; cbn; try lia; discriminate.
Qed.
Print Assumptions C55_exactly.
Print Assumptions C55_merge_exactly.
