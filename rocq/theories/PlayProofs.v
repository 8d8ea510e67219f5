(** Invariants of the translation of a log. *)
From Verif Require Import Base Category Tile Parse Text Tenhou TenhouProofs Spec_Tile Spec_Meld MeldProofs Prop_Meld Event Const Reader State Spec_Log StateProofs Prop_State Value Universe Translator TenhouCommands
  Transfer Spec_Transfer Spec_Universe UniverseProofs Prop_Executor CommandProofs Prop_Commands Spec_Play CommandState CommandPlay PlaySteps.
From Coq Require Import String List ZArith Lia Bool Permutation.
Import ListNotations.
Open Scope list_scope.
Open Scope Z_scope.

(** ** From the translator's values to what the commands say *)
Lemma interpret_mirrors' s cs c s' w : mirrors s cs -> ok_cmd c -> interpret s c = Ok (s', w) -> mirrors s' (cs ++ [c]).
Proof.
  intros M [O _] H.
  assert (Alt : well_addressed c \/ (forall p, ~ addressed c p) /\ exists i, c_sub c = SId i /\ ~ (0 <= i <= 3)).
  { unfold well_addressed. destruct (scope_of (c_prop c)) eqn:Q; [left; exact O| |left; exact O]. destruct O as [i O].
    destruct (Z_le_dec 0 i), (Z_le_dec i 3); try (left; exists i; split; [lia|exact O]); right;
    (split; [intros p [_ A]; rewrite Q in A; destruct A as [j [L [A _]]]; rewrite O in A; injection A as ->; lia|exists i; split; [exact O|lia]]). }
  destruct Alt as [W|[N [i [O' L]]]]; [exact (proj1 (interpret_mirrors _ _ _ _ _ M W H))|].
  intros p R. apply ha_other; [apply N|]. unfold interpret in H. destruct (execute_new_value _ _) as [x|]; [|discriminate]. cbn [bindr] in H.
  apply Ok_inj in H. assert (Q : s' = iput s (c_sub c, c_prop c) x) by congruence. rewrite Q, iget_iput. cbn [fst snd].
  replace (sub_eqb (c_sub c) (fst (key_of p)) && view_eqb (c_prop c) (snd (key_of p))) with false; [exact (M p R)|].
  symmetry. apply andb_false_iff. left. rewrite O'. unfold key_of, real_place in *. cbn [fst]. destruct (fst p) as [j|]; [|reflexivity].
  cbn. apply Z.eqb_neq. intros ->. destruct (scope_of (snd p)); try discriminate. destruct R as [k [R1 R2]]. injection R2 as ->. lia.
Qed.
Lemma states_ok_mirrors : forall cmds s cs s', states_ok s cmds s' -> Forall ok_cmd cmds -> mirrors s cs -> mirrors s' (cs ++ cmds).
Proof.
  intros cmds s cs s' S0. revert cs. induction S0 as [s|s c r s1 s' I0 S1 IH]; intros cs F M; [now rewrite app_nil_r|].
  inversion F; subst. replace (cs ++ c :: r) with ((cs ++ [c]) ++ r) by (rewrite <- app_assoc; reflexivity). apply IH; [assumption|].
  eapply interpret_mirrors'; eassumption.
Qed.
Lemma to_commands_run unquote so strict es cmds : to_commands (tenhou_command unquote so) strict es = Ok cmds ->
  exists x, call_all (tenhou_command unquote so) strict 0 es empty_ctx = Ok (cmds, x) /\ mirrors (x_vals x) cmds.
Proof.
  unfold to_commands. intro H. peelb H. destruct v as [l x]. apply Ok_inj in H. cbn [fst] in H. subst l. exists x. split; [reflexivity|].
  destruct (call_all_facts _ _ _ _ _ _ _ _ E) as [A B]. apply (states_ok_mirrors _ _ [] _ A B). apply mirrors_nil.
Qed.
Lemma player_place x cmds p v : mirrors (x_vals x) cmds -> seat p -> scope_of v = SPlayer -> holds_after cmds (Some p, v) (val_at x (SId p) v).
Proof. intros M P S0. apply (M (Some p, v)). unfold real_place. cbn. rewrite S0. exists p. unfold seat in P. split; [lia|reflexivity]. Qed.
Lemma table_place x cmds v : mirrors (x_vals x) cmds -> scope_of v <> SPlayer -> holds_after cmds (None, v) (val_at x sub_all v).
Proof. intros M S0. apply (M (None, v)). unfold real_place. cbn. destruct (scope_of v); congruence. Qed.

(** ** Induction along a log *)
Lemma forall2_snoc_inv {A B} (R : A -> B -> Prop) l b0 es : Forall2 R l (es ++ [b0]) -> exists l' a, l = l' ++ [a] /\ Forall2 R l' es /\ R a b0.
Proof.
  intro F. apply Forall2_app_inv_r in F. destruct F as [l1 [l2 [F1 [F2 ->]]]]. inversion F2 as [|a ? l3 ? R1 F3]; subst. inversion F3; subst. eauto 6.
Qed.
Lemma forall2_len {A B} (R : A -> B -> Prop) l m : Forall2 R l m -> length l = length m.
Proof. induction 1; cbn; congruence. Qed.
Section Runs.
Context (unquote : text -> text) (set_order : list Z -> list Z) (strict : bool).
Local Notation tr := (tenhou_command unquote set_order).
Lemma log_ind (P : list action -> ctx -> Prop) : P [] empty_ctx ->
  forall acts0 es0, log acts0 es0 ->
  (forall acts a es e more, acts0 = (acts ++ a :: more)%list -> nth_error es0 (length acts) = Some e -> firstn (length acts) es0 = es -> legal_action a -> writes a e ->
     forall i x x' cmds, P acts x -> call tr strict e i x = Ok (cmds, x') -> P (acts ++ [a]) x') ->
  forall cmds x, call_all tr strict 0 es0 empty_ctx = Ok (cmds, x) -> P acts0 x.
Proof.
  intros P0 acts0 es0 [L W] Step.
  assert (G : forall es acts rest more cmds x, acts0 = acts ++ more -> es0 = es ++ rest -> Forall2 writes acts es ->
    call_all tr strict 0 es empty_ctx = Ok (cmds, x) -> P acts x).
  { induction es as [|e es IH] using rev_ind; intros acts rest more cmds x Ea Ee F H.
    - inversion F; subst. cbn in H. apply Ok_inj in H. injection H as _ ->. exact P0.
    - apply forall2_snoc_inv in F. destruct F as [acts' [a [-> [F R]]]].
      rewrite call_all_app in H. peelb H. destruct v as [c1 x1], v0 as [c2 x2]. cbn [fst snd] in *. apply Ok_inj in H. injection H as -> ->.
      cbn [call_all] in E0. peelb E0. destruct v as [c3 x3]. apply Ok_inj in E0. assert (Q : x2 = x3) by (cbn [fst snd] in E0; congruence). subst x3.
      rewrite <- app_assoc in Ea, Ee. cbn [app] in Ea, Ee. pose proof (forall2_len _ _ _ F) as Len.
      refine (Step acts' a es e more Ea _ _ _ R _ _ _ _ (IH acts' (e :: rest) (a :: more) _ _ Ea Ee F eq_refl) E1).
      + rewrite Ee, Len, nth_error_app2, Nat.sub_diag by lia. reflexivity.
      + rewrite Ee, Len. rewrite firstn_app, Nat.sub_diag, firstn_O, firstn_all, app_nil_r. reflexivity.
      + rewrite Ea in L. apply Forall_app in L. destruct L as [_ L]. inversion L; assumption. }
  intros cmds x H. apply (G es0 acts0 [] [] cmds x); [now rewrite app_nil_r|now rewrite app_nil_r|exact W|exact H].
Qed.
End Runs.

(** ** Deals *)
Lemma destruct_last {A} (l : list A) : l = [] \/ exists l' a, l = l' ++ [a].
Proof. destruct l as [|a l] using rev_ind; eauto. Qed.
Lemma snoc_inj {A} (a b : list A) x y : a ++ [x] = b ++ [y] -> a = b /\ x = y.
Proof. apply app_inj_tail. Qed.
Lemma last_deal_snoc (acts : list action) a before d after : acts ++ [a] = before ++ Deal d :: after -> no_deal after ->
  (a = Deal d /\ before = acts /\ after = []) \/ (~ is_deal a /\ exists after', after = after' ++ [a] /\ acts = before ++ Deal d :: after' /\ no_deal after').
Proof.
  intros E N. destruct (destruct_last after) as [->|[after' [b ->]]].
  - left. apply app_inj_tail in E. destruct E as [-> ->]. auto.
  - right. replace (before ++ Deal d :: after' ++ [b]) with ((before ++ Deal d :: after') ++ [b]) in E by (rewrite <- app_assoc; reflexivity).
    apply app_inj_tail in E. destruct E as [-> ->]. apply Forall_app in N. destruct N as [N1 N2]. inversion N2; subst. eauto 6.
Qed.
Lemma just_drew_snoc p t acts a : just_drew p t (acts ++ [a]) <-> a = Draw p t \/ (~ concerns p a /\ just_drew p t acts).
Proof.
  unfold just_drew. split.
  - intros [u [v [E F]]]. destruct (destruct_last v) as [->|[v' [b ->]]].
    + apply app_inj_tail in E. destruct E as [_ ->]. now left.
    + right. replace (u ++ Draw p t :: v' ++ [b]) with ((u ++ Draw p t :: v') ++ [b]) in E by (rewrite <- app_assoc; reflexivity).
      apply app_inj_tail in E. destruct E as [-> ->]. apply Forall_app in F. destruct F as [F1 F2]. inversion F2; subst. split; [assumption|]. eauto.
  - intros [->|[N [u [v [-> F]]]]].
    + exists acts, []. split; [reflexivity|constructor].
    + exists u, (v ++ [a]). split; [rewrite <- app_assoc; reflexivity|]. apply Forall_app. split; [exact F|]. constructor; [exact N|constructor].
Qed.
Lemma flags_snoc p : forall after b fs a, flags p b after fs ->
  (forall t, a <> Discard p t) -> flags p b (after ++ [a]) fs.
Proof.
  induction 1 as [b|b t r f fs J F IH|b a0 r fs N F IH]; intro Na; cbn [app].
  - constructor; [exact Na|constructor].
  - constructor; auto.
  - constructor; auto.
Qed.
Lemma flags_snoc_discard p t f : forall after b fs, flags p b after fs ->
  (f = false <-> just_drew p t (b ++ after)) -> flags p b (after ++ [Discard p t]) (fs ++ [f]).
Proof.
  induction 1 as [b|b u r g fs J F IH|b a0 r fs N F IH]; intro Hf; cbn [app].
  - rewrite app_nil_r in Hf. constructor; [exact Hf|constructor].
  - constructor; [exact J|]. apply IH. rewrite <- app_assoc. exact Hf.
  - constructor; [exact N|]. apply IH. rewrite <- app_assoc. exact Hf.
Qed.

(** ** Tiles of a call *)
Lemma field_bounds v a w : 0 <= w -> 0 <= field v a w < 2 ^ w.
Proof. intro W. unfold field. apply Z.mod_pos_bound. apply Z.pow_pos_nonneg; lia. Qed.
Lemma call_tile_range q v x : legal_action (Call q v) -> laid_down v x \/ taken v x -> 0 <= x < 256.
Proof.
  intros (_ & _ & T) H.
  assert (CH : call_kind v = CFlush -> forall i, 0 <= i < 3 -> 0 <= chi_tile v i < 256).
  { intros K i Hi. unfold tile_field_ok in T. rewrite K in T. unfold chi_tile. pose proof (field_bounds v 10 6 ltac:(lia)) as B1. pose proof (field_bounds v (3 + 2 * i) 2 ltac:(lia)) as B2.
    change (2 ^ 2) with 4 in B2. cbv zeta. set (t := field v 10 6 / 3) in *.
    assert (0 <= t < 21) by (unfold t; split; [apply Z.div_pos; lia|apply Z.div_lt_upper_bound; lia]).
    assert (0 <= t / 7 <= 2) by (split; [apply Z.div_pos; lia|apply Z.lt_succ_r, Z.div_lt_upper_bound; lia]).
    pose proof (Z.mod_pos_bound t 7 ltac:(lia)). lia. }
  assert (PO : call_kind v = CTriplet -> forall i, 0 <= i < 3 -> 0 <= pon_tile v i < 256).
  { intros K i Hi. unfold tile_field_ok in T. rewrite K in T. unfold pon_tile. pose proof (field_bounds v 9 7 ltac:(lia)) as B1. pose proof (field_bounds v 5 2 ltac:(lia)) as B2.
    assert (0 <= field v 9 7 / 3 < 34) by (split; [apply Z.div_pos; lia|apply Z.div_lt_upper_bound; lia]). destruct (i <? field v 5 2); lia. }
  assert (Pos : forall z, 0 <= z mod 3 < 3) by (intro z; apply Z.mod_pos_bound; lia).
  pose proof (field_bounds v 8 8 ltac:(lia)) as HB. change (2 ^ 8) with 256 in HB. fold (high_byte v) in HB.
  unfold laid_down, taken, tile_field_ok in *. destruct (call_kind v) eqn:K.
  - destruct H as [[i [Hi [_ ->]]]| ->]; apply CH; auto. unfold chi_position. apply Pos.
  - destruct H as [[i [Hi [_ ->]]]| ->]; apply PO; auto. unfold pon_position. apply Pos.
  - destruct H as [->|[]]. unfold added_tile. pose proof (field_bounds v 9 7 ltac:(lia)) as B1. pose proof (field_bounds v 5 2 ltac:(lia)) as B2. change (2 ^ 2) with 4 in B2.
    assert (0 <= field v 9 7 / 3 < 34) by (split; [apply Z.div_pos; lia|apply Z.div_lt_upper_bound; lia]). lia.
  - destruct H as [[E _]|[_ ->]]; [|lia]. pose proof (Z.div_mod x 4 ltac:(lia)). pose proof (Z.mod_pos_bound x 4 ltac:(lia)). rewrite E in *.
    assert (0 <= high_byte v / 4 < 34) by (split; [apply Z.div_pos; lia|apply Z.div_lt_upper_bound; lia]). lia.
  - destruct H as [->|[]]. lia.
  - exfalso. unfold call_kind in K. repeat (match type of K with (if ?b then _ else _) = _ => destruct b end; try discriminate).
Qed.
Lemma tile_from_tenhou_high t : 136 <= t < 256 -> exists e, tile_from_tenhou t = Err e.
Proof.
  intro H. assert (G : (if 136 <=? t then match tile_from_tenhou t with Err _ => true | _ => false end else true) = true).
  { assert (R : 0 <= t < 256) by lia. clear H. revert t R. apply forall_range; [lia|]. vm_compute. reflexivity. }
  replace (136 <=? t) with true in G by (symmetry; apply Z.leb_le; lia). destruct (tile_from_tenhou t); [discriminate|eauto].
Qed.
Lemma tile_strs_small l ts : tile_strs l = Ok ts -> Forall (fun t => 0 <= t < 256) l -> Forall valid_tile l.
Proof.
  unfold tile_strs. revert ts. induction l as [|t l IH]; intros ts H F; [constructor|]. inversion F as [|? ? F1 F2]; subst. cbn [mapM] in H.
  destruct (do t <- tile_from_tenhou t; Ok (tile_str t)) as [s|] eqn:E1; [|discriminate]. cbn [bindr] in H.
  destruct (mapM (fun x => do t <- tile_from_tenhou x; Ok (tile_str t)) l) as [r|] eqn:E2; [|discriminate].
  constructor; [|eapply IH; [reflexivity|exact F2]]. unfold valid_tile. destruct (Z.lt_ge_cases t 136); [lia|].
  destruct (tile_from_tenhou_high t ltac:(lia)) as [e Q]. rewrite Q in E1. discriminate.
Qed.
Lemma call_texts (so : list Z -> list Z) q v m l ts : (forall l, Permutation (so l) l) -> legal_action (Call q v) -> decoded q v m ->
  (forall x, In x l -> laid_down v x \/ taken v x) -> tile_strs (so l) = Ok ts -> ts = map ptext (so l) /\ Forall valid_tile l.
Proof.
  intros SO L D H E. assert (V : Forall valid_tile (so l)).
  { apply (tile_strs_small _ _ E). apply Forall_forall. intros x I0. apply (call_tile_range q v x L). apply H. eapply Permutation_in; [apply SO|exact I0]. }
  rewrite (tile_strs_valid _ V) in E. apply Ok_inj in E. split; [exact E|]. eapply Permutation_Forall; [apply SO|exact V].
Qed.
