(** A computed check that a deal is played by the rules ([playing] of Spec_Turns.v), with the proof
    that the check can be relied on. *)
From Verif Require Import Base Tile Parse Text Tenhou Event StateProofs Spec_Meld Spec_Log Spec_Turns Prop_Hand LogCheck.
From Coq Require Import String List ZArith Lia Bool.
Import ListNotations.
Open Scope list_scope.
Open Scope Z_scope.

Definition subset_b (l h : list Z) : bool := forallb (fun t => mem_b t h) l.
Lemma subset_is p v h acts : (forall t, In t h <-> in_hand p [] acts t) -> subset_b (laid v) h = true -> from_hand p v acts.
Proof. unfold subset_b. rewrite forallb_forall. intros H F t L. apply H, mem_is, F, laid_is, L. Qed.
(** Whether [p] has to act after the action; None if it is against the rules. *)
Definition turn_next (p : Z) (h : list Z) (b : bool) (a : action) : option bool :=
  match a with
  | Deal _ => None
  | Draw q t => if q =? p then if negb b && valid_b t && negb (mem_b t h) then Some true else None else Some b
  | Discard q t => if q =? p then if b && mem_b t h then Some false else None else Some b
  | Call q v =>
    if q =? p then
      if subset_b (laid v) h then
        match call_kind v with
        | CFlush | CTriplet => if b then None else Some true
        | CKan => if eqb b (source v =? 0) then Some false else None
        | CAddedKan | CKita => if b then Some false else None
        | CKanFromTriplet => None
        end
      else None
    else Some b
  | NewDora _ | Other => Some b
  end.
Lemma turn_next_is p h b a b' acts : (forall t, In t h <-> in_hand p [] acts t) -> playing p acts b -> turn_next p h b a = Some b' -> playing p (acts ++ [a]) b'.
Proof.
  intros H P E. destruct a as [d|q t|q t|q v|t|]; cbn [turn_next] in E; try discriminate E.
  - destruct (Z.eqb_spec q p) as [->|N]; [|injection E as <-; now apply play_others].
    destruct (negb b && valid_b t && negb (mem_b t h)) eqn:Q; [|discriminate]. injection E as <-. rewrite !andb_true_iff, !negb_true_iff in Q. destruct Q as [[-> V] M].
    apply play_draw; [exact P|now apply valid_is|]. rewrite <- H, <- mem_is. congruence.
  - destruct (Z.eqb_spec q p) as [->|N]; [|injection E as <-; now apply play_others].
    destruct (b && mem_b t h) eqn:Q; [|discriminate]. injection E as <-. rewrite andb_true_iff in Q. destruct Q as [-> M]. apply play_discard; [exact P|]. now apply H, mem_is.
  - destruct (Z.eqb_spec q p) as [->|N]; [|injection E as <-; now apply play_others].
    destruct (subset_b (laid v) h) eqn:Q; [|discriminate]. pose proof (subset_is p v h acts H Q) as F. destruct (call_kind v) eqn:K.
    + destruct b; [discriminate|]. injection E as <-. apply play_claim; auto.
    + destruct b; [discriminate|]. injection E as <-. apply play_claim; auto.
    + destruct b; [|discriminate]. injection E as <-. apply play_added; auto.
    + destruct b; destruct (Z.eqb_spec (source v) 0) as [S0|S0]; cbn [eqb] in E; try discriminate; injection E as <-; [now apply play_closed_kan|now apply play_open_kan].
    + destruct b; [|discriminate]. injection E as <-. apply play_added; auto.
    + discriminate.
  - injection E as <-. now apply play_others.
  - injection E as <-. now apply play_others.
Qed.
Fixpoint turns_run (p : Z) (h : list Z) (b : bool) (acts : list action) : option bool :=
  match acts with
  | [] => Some b
  | a :: rest => match turn_next p h b a with Some b' => turns_run p (hand_next p h a) b' rest | None => None end
  end.
Lemma turns_run_is p : forall acts h b b' pre, (forall t, In t h <-> in_hand p [] pre t) -> playing p pre b -> turns_run p h b acts = Some b' -> playing p (pre ++ acts) b'.
Proof.
  induction acts as [|a acts IH]; intros h b b' pre H P E; cbn [turns_run] in E.
  - injection E as <-. now rewrite app_nil_r.
  - destruct (turn_next p h b a) as [b1|] eqn:Q; [|discriminate]. change (a :: acts) with ([a] ++ acts). rewrite app_assoc.
    eapply IH; [|eapply turn_next_is; eassumption|exact E]. now apply hand_next_in.
Qed.
Definition playing_b (p : Z) (acts : list action) : option bool :=
  match acts with
  | Deal d :: rest =>
    let h := d_hands d p in
    if nodup_b h && forallb valid_b h && Nat.eqb (length h) 13 then turns_run p h false rest else None
  | _ => None
  end.
Theorem playing_is p acts b : playing_b p acts = Some b -> playing p acts b.
Proof.
  destruct acts as [|[d| | | | |] rest]; try discriminate. cbn [playing_b]. destruct (nodup_b _ && _ && _) eqn:Q; [|discriminate].
  rewrite !andb_true_iff in Q. destruct Q as [[N V] L]. intro E. change (Deal d :: rest) with ([Deal d] ++ rest). eapply turns_run_is; [| |exact E].
  - apply (hand_next_in p [] [] (Deal d)). intro t. cbn [In]. split; [intros []|intro K; exact (in_hand_none _ _ K)].
  - apply play_deal; [now apply nodup_is|exact (forallb_is _ _ _ valid_is V)|now apply Nat.eqb_eq].
Qed.

(** Every seat below [n] plays every deal of a log by the rules. *)
Definition rules_b (n : Z) (es : list event) : bool :=
  forallb (fun deal => opt_b (acts_of deal) (fun acts => forallb legal_b acts && forall2_b writes_b acts deal &&
    forallb (fun p => negb (p <? n) || match playing_b p acts with Some _ => true | None => false end) four)) (snd (deal_parts es)).
Theorem rules_is n es : n <= 4 -> rules_b n es = true ->
  Forall (fun deal => exists acts, log acts deal /\ forall p, 0 <= p < n -> exists b, playing p acts b) (snd (deal_parts es)).
Proof.
  intros N H. unfold rules_b in H. revert H. apply forallb_is. intros deal H. apply opt_b_true in H. destruct H as (acts & _ & H). exists acts.
  rewrite !andb_true_iff in H. destruct H as [[L W] F]. split; [split; [exact (forallb_is _ _ _ legal_is L)|exact (forall2_is _ _ writes_is _ _ W)]|].
  intros p P. rewrite forallb_forall in F. assert (I0 : In p four) by (unfold four; cbn; lia). specialize (F p I0).
  destruct (p <? n) eqn:Q; [|lia]. cbn [negb orb] in F. destruct (playing_b p acts) as [b|] eqn:E; [|discriminate]. exists b. now apply playing_is.
Qed.
