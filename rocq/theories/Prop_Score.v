(** C42 and C43: the scores and the final ranks of the universal format. *)
From Verif Require Import Base Category CategoryProofs Tile Parse Text Tenhou TenhouProofs Spec_Tile Spec_Meld MeldProofs Prop_Meld Event Const Reader State Spec_Log StateProofs Prop_State Value Universe Translator TenhouCommands
  Transfer Spec_Transfer Spec_Universe UniverseProofs Prop_Executor CommandProofs Prop_Commands Spec_Play CommandState CommandPlay PlaySteps PlayProofs FinishProofs Spec_Score Prop_Play.
From Coq Require Import String List ZArith Lia Bool Permutation Sorting.Sorted.
Import ListNotations.
Open Scope list_scope.
Open Scope Z_scope.

(** ** Number lists *)
Lemma number_list_comma l : l <> [] -> number_list (comma_list l) = Ok (map NInt l).
Proof.
  intro N. unfold number_list, comma_list. change (t_ ",") with [44]. rewrite split_join.
  - rewrite (mapM_map_ok _ _ _ str_int py_number NInt) by apply py_number_str. reflexivity.
  - destruct l; [congruence|discriminate].
  - apply Forall_forall. intros s I0. apply in_map_iff in I0 as (n & <- & _). apply str_int_no_comma.
Qed.
Lemma py_nth_some {A} (l : list A) (p : Z) a : 0 <= p -> (py_nth l p = Ok a <-> nth_error l (Z.to_nat p) = Some a).
Proof.
  intro P. unfold py_nth. cbv zeta. replace (p <? 0) with false by (symmetry; apply Z.ltb_ge; lia). cbv iota. cbn [orb].
  destruct (Z.of_nat (length l) <=? p) eqn:L; cbn [orb].
  - apply Z.leb_le in L. replace (p <? 0) with false by (symmetry; apply Z.ltb_ge; lia). cbn [orb]. split; [discriminate|]. intro H.
    assert (K : (Z.to_nat p < length l)%nat) by (apply nth_error_Some; congruence). lia.
  - replace (p <? 0) with false by (symmetry; apply Z.ltb_ge; lia). cbn [orb]. destruct (nth_error l (Z.to_nat p)); split; congruence.
Qed.
Lemma every_other_nth {A} : forall n (l : list A), nth_error (every_other l) n = nth_error l (2 * n).
Proof.
  induction n as [|n IH]; intro l.
  - destruct l as [|x [|y l]]; reflexivity.
  - replace (2 * S n)%nat with (S (S (2 * n))) by lia. destruct l as [|x [|y l]]; cbn [every_other nth_error]; [reflexivity|now destruct n|apply IH].
Qed.
Lemma tl_nth {A} n (l : list A) : nth_error (tl l) n = nth_error l (S n).
Proof. destruct l; [now destruct n|reflexivity]. Qed.

Section Scores.
Context (unquote : text -> text) (so : list Z -> list Z) (strict : bool).
Local Notation tr := (tenhou_command unquote so).
Local Notation handle := (handle unquote so).

Lemma run_snoc es e cmds x' : call_all tr strict 0 (es ++ [e]) empty_ctx = Ok (cmds, x') ->
  exists cmds1 x i cmds2, call_all tr strict 0 es empty_ctx = Ok (cmds1, x) /\ call tr strict e i x = Ok (cmds2, x').
Proof.
  intro H. rewrite call_all_app in H. peelb H. destruct v as [c1 x1], v0 as [c2 x2]. cbn [fst snd] in *. apply Ok_inj in H. injection H as -> ->.
  cbn [call_all] in E0. peelb E0. destruct v as [c3 x3]. apply Ok_inj in E0. assert (Q : x2 = x3) by (cbn [fst snd] in E0; congruence). subst x3. eauto 6.
Qed.
(** Only GO events set the number of players. *)
Ltac by_tag T := unfold event_views, other_views, views_for; repeat match goal with
  | |- context [text_eqb ?a ?t] => destruct (text_eqb a t) eqn:?; [match goal with K : text_eqb a t = true |- _ => apply text_eqb_iff in K; first [exfalso; apply T; congruence | reflexivity] end|]
  end; try reflexivity.
Lemma count_view t : t <> t_ "GO" -> existsb (view_eqb RV_player_count) (event_views t) = false.
Proof. intro T. by_tag T. Qed.
Lemma count_untouched e i x cmds x' : tag e <> t_ "GO" -> call tr strict e i x = Ok (cmds, x') -> val_at x' sub_all RV_player_count = val_at x sub_all RV_player_count.
Proof.
  intros T H. destruct (call_inv unquote so _ _ _ _ _ _ H) as [raw [x1 [Hh [_ [_ [_ D]]]]]]. specialize (D (sub_all, RV_player_count)).
  rewrite (untouched _ _ _ _ _ _ _ _ Hh (count_view _ T)) in D. cbn [run_deeds] in D. unfold val_at. congruence.
Qed.
Lemma go_count e i x cmds x' v : tag e = t_ "GO" -> call tr strict e i x = Ok (cmds, x') -> holds e (t_ "type") (str_int v) ->
  val_at x' sub_all RV_player_count = Some (VInt (if flag v 4 then 3 else 4)).
Proof.
  intros T H Hv. destruct (call_inv unquote so _ _ _ _ _ _ H) as [raw [x1 [Hh [_ [_ [_ D]]]]]].
  unfold CommandProofs.handle in Hh. 
  replace (hfind (handlers unquote so) (tag e)) with (Some game_type_command) in Hh by (rewrite T; reflexivity).
  unfold game_type_command, default_event_type in Hh. rewrite (holds_attr _ _ _ Hv) in Hh. cbn [bindr] in Hh. rewrite py_int_str in Hh. cbn [bindr] in Hh.
  peelb Hh. apply Ok_inj in Hh. injection Hh as -> _. peelb E. cbv zeta in E. apply Ok_inj in E. subst v0. cbn [fst] in D.
  specialize (D (sub_all, RV_player_count)). rewrite typed_deeds in D. cbn [snd] in D.
  match type of D with _ = Ok ?o => assert (Q : o = Some (VInt (player_count v1))) by (apply Ok_inj in D; exact D) end.
  unfold val_at. rewrite Q.
  assert (R : 0 <= v < 65536).
  { destruct (Z_le_dec 0 v), (Z_lt_dec v 65536); try (split; assumption); exfalso; rewrite C28_rejected in E0 by lia; discriminate. }
  destruct (C28_flags v R) as [g [G [_ [_ [_ [PC _]]]]]]. assert (g = v1) by congruence. subst g. now rewrite PC.
Qed.
Lemma counted_all p : seat p -> forall es cmds x, has_seat p es -> call_all tr strict 0 es empty_ctx = Ok (cmds, x) -> counted_in p x.
Proof.
  intros P es. induction es as [|e es IH] using rev_ind; intros cmds x HS H.
  - cbn in H. apply Ok_inj in H. injection H as -> ->. intros v K. discriminate K.
  - destruct (run_snoc _ _ _ _ H) as [c1 [x1 [i [c2 [H1 H2]]]]].
    assert (HS1 : has_seat p es) by (intros e' I0; apply HS; apply in_or_app; now left).
    destruct (text_eqb (tag e) (t_ "GO")) eqn:T.
    + apply text_eqb_iff in T. apply (go_step _ _ _ _ _ _ _ _ _ T H2); [|exact P]. apply HS; [apply in_or_app; right; now left|exact T].
    + assert (N : tag e <> t_ "GO") by (intro K; rewrite K, text_eqb_refl in T; discriminate).
      intros v K. rewrite (count_untouched _ _ _ _ _ N H2) in K. exact (IH _ _ HS1 H1 v K).
Qed.
Lemma table_count es n cmds x : table_size es n -> call_all tr strict 0 es empty_ctx = Ok (cmds, x) -> ctx_player_count x = Ok n.
Proof.
  intros [before [e [after [v [-> [T [F [Hv ->]]]]]]]]. revert cmds x. induction after as [|e' after IH] using rev_ind; intros cmds x H.
  - destruct (run_snoc _ _ _ _ H) as [c1 [x1 [i [c2 [_ H2]]]]]. pose proof (go_count _ _ _ _ _ _ T H2 Hv) as Q.
    unfold ctx_player_count. unfold val_at in Q. rewrite Q. reflexivity.
  - replace (before ++ e :: after ++ [e']) with ((before ++ e :: after) ++ [e']) in H by now rewrite <- app_assoc.
    destruct (run_snoc _ _ _ _ H) as [c1 [x1 [i [c2 [H1 H2]]]]]. apply Forall_app in F. destruct F as [F1 F2]. inversion F2; subst.
    specialize (IH F1 _ _ H1). pose proof (count_untouched _ _ _ _ _ H4 H2) as Q. unfold ctx_player_count, val_at in *. now rewrite Q.
Qed.

(** ** Scores *)
Lemma score_view t : t <> t_ "INIT" -> t <> t_ "AGARI" -> t <> t_ "RYUUKYOKU" -> t <> t_ "REACH" -> existsb (view_eqb PV_score) (event_views t) = false.
Proof.
  intros A B C D. unfold event_views, other_views, views_for; repeat match goal with
  | |- context [text_eqb ?a ?t] => destruct (text_eqb a t) eqn:?; [match goal with K : text_eqb a t = true |- _ => apply text_eqb_iff in K; first [exfalso; congruence | reflexivity] end|]
  end; reflexivity.
Qed.
(** A win. *)
Definition yaku_text (e : event) : option text :=
  match lookup (t_ "yaku") (attrib e) with Some y => Some y | None => lookup (t_ "yakuman") (attrib e) end.
Definition pattern_name (t : num) : res text := match t with NInt i => py_nth SCORE_PATTERN i | NDec _ _ => Err TypeError end.
Lemma agari_inv e x raw x' : tag e = t_ "AGARI" -> handle e x = Ok (raw, x') ->
  exists wt w ft f st sc yt ns yaku n rest,
    attr e (t_ "who") = Ok wt /\ py_int wt = Ok w /\ attr e (t_ "fromWho") = Ok ft /\ py_int ft = Ok f /\
    attr e (t_ "sc") = Ok st /\ number_list st = Ok sc /\ yaku_text e = Some yt /\ number_list yt = Ok ns /\ mapM pattern_name ns = Ok yaku /\
    ctx_player_count x = Ok n /\ game_finish x (Some f) (Some w) (Some sc) yaku e = Ok rest /\
    (forall p v, v <> PV_hand -> deeds (SId p, v) raw = deeds (SId p, v) rest) /\
    deeds (sub_all, GV_nobody_win) raw = [(U_REPLACE, VBool false)].
Proof.
  intros T H. unfold CommandProofs.handle in H.
  replace (hfind (handlers unquote so) (tag e)) with (Some agari_command) in H by (rewrite T; reflexivity).
  unfold agari_command, default_event_type in H. peelb H. apply Ok_inj in H. injection H as -> ->. peelb E.
  match type of E with Ok _ = Ok ?v => apply Ok_inj in E; subst v end. cbn [fst].
  match goal with K : game_finish x (Some ?f) (Some ?w) (Some ?sc) ?y e = Ok ?rest |- _ => rename K into GF end.
  match goal with K : (match lookup (t_ "yaku") (attrib e) with _ => _ end) = Ok ?y |- _ => assert (Y : yaku_text e = Some y); [|clear K] end.
  { unfold yaku_text. destruct (lookup (t_ "yaku") (attrib e)); [|destruct (lookup (t_ "yakuman") (attrib e)); [|discriminate]];
    match goal with K : Ok _ = Ok _ |- _ => apply Ok_inj in K; subst; reflexivity end. }
  assert (C : exists n, ctx_player_count x = Ok n).
  { unfold game_finish in GF. destruct (ctx_player_count x); [eauto|discriminate]. }
  destruct C as [n C]. do 6 eexists. do 3 eexists. exists n. eexists.
  split; [reflexivity|]. split; [eassumption|]. split; [reflexivity|]. split; [eassumption|]. split; [reflexivity|].
  split; [eassumption|]. split; [eassumption|]. split; [eassumption|]. split; [eassumption|]. split; [exact C|]. split; [exact GF|]. split.
  - intros p v N. rewrite typed_deeds, deeds_app. replace (deeds (SId p, v) _) with (@nil (update * val)) at 1; [reflexivity|].
    unfold deeds, about. cbn [filter c_sub c_prop cmd fst snd sub_eqb sub_all andb].
    replace (view_eqb PV_hand v) with false; [now rewrite andb_false_r|]. symmetry. apply not_true_iff_false. rewrite view_eqb_iff. congruence.
  - rewrite typed_deeds, deeds_app. match goal with |- _ ++ deeds _ ?l = _ => replace (deeds (sub_all, GV_nobody_win) l) with (@nil (update * val)); [reflexivity|] end.
    symmetry. apply deeds_none. apply (finish_props unquote so) in GF. eapply Forall_impl; [|exact GF]. intros c K Q. cbn [snd] in Q. cbv beta in K. rewrite Q in K. cbn in K.
    repeat (destruct K as [K|K]; [discriminate|]). destruct K.
Qed.
Lemma nowin_inv e x raw x' : tag e = t_ "RYUUKYOKU" -> handle e x = Ok (raw, x') ->
  exists sc n rest, ctx_player_count x = Ok n /\ game_finish x None None sc [] e = Ok rest /\
    match lookup (t_ "sc") (attrib e) with None => sc = None | Some s => exists l, number_list s = Ok l /\ sc = Some l end /\
    (forall p v, deeds (SId p, v) raw = deeds (SId p, v) rest) /\
    deeds (sub_all, GV_nobody_win) raw = [(U_REPLACE, VBool true)].
Proof.
  intros T H. unfold CommandProofs.handle in H.
  replace (hfind (handlers unquote so) (tag e)) with (Some no_win_command) in H by (rewrite T; reflexivity).
  unfold no_win_command, default_event_type in H. peelb H. apply Ok_inj in H. injection H as -> ->. peelb E.
  match type of E with Ok _ = Ok ?v => apply Ok_inj in E; subst v end. cbn [fst].
  match goal with K : game_finish x _ _ ?sc _ e = Ok ?rest |- _ => rename K into GF end.
  assert (C : exists n, ctx_player_count x = Ok n).
  { unfold game_finish in GF. destruct (ctx_player_count x); [eauto|discriminate]. }
  destruct C as [n C]. do 3 eexists. split; [exact C|]. split; [exact GF|]. split; [|split].
  - destruct (lookup (t_ "sc") (attrib e)); [|match goal with K : Ok None = Ok _ |- _ => apply Ok_inj in K; subst; reflexivity end].
    destruct (number_list t) as [l|]; [|discriminate E1]. cbn [bindr] in E1. apply Ok_inj in E1. eauto.
  - intros p v. rewrite typed_deeds, deeds_app. reflexivity.
  - rewrite typed_deeds, deeds_app. match goal with |- _ ++ deeds _ ?l = _ => replace (deeds (sub_all, GV_nobody_win) l) with (@nil (update * val)); [reflexivity|] end.
    symmetry. apply deeds_none. apply (finish_props unquote so) in GF. eapply Forall_impl; [|exact GF]. intros c K Q. cbn [snd] in Q. cbv beta in K. rewrite Q in K. cbn in K.
    repeat (destruct K as [K|K]; [discriminate|]). destruct K.
Qed.
(** The scores at the end of a deal. *)
Lemma ends_score e x raw x' p : ends_deal e -> handle e x = Ok (raw, x') -> counted_in p x -> 0 <= p ->
  match lookup (t_ "sc") (attrib e) with
  | None => deeds (SId p, PV_score) raw = []
  | Some s => exists l, number_list s = Ok l /\ score_deeds (Some l) p (deeds (SId p, PV_score) raw)
  end.
Proof.
  intros [T|T] H C P.
  - destruct (agari_inv _ _ _ _ T H) as (wt & w & ft & f & st & sc & yt & ns & yaku & n & rest & _ & _ & _ & _ & At & Ns & _ & _ & _ & N & GF & D & _).
    unfold attr in At. destruct (lookup (t_ "sc") (attrib e)) as [s|]; [|discriminate]. apply Ok_inj in At. subst st.
    exists sc. split; [exact Ns|]. rewrite D by discriminate.
    destruct (finish_deeds _ _ _ _ _ _ _ _ p GF N) as [r [fin [R1 [R2 R3]]]]; [pose proof (counted_count _ _ _ C N); lia|].
    rewrite R3. destruct (final_deeds e n p fin R2) as [F _]. rewrite F, app_nil_r by (cbn; intros [K|[K|[K|[]]]]; discriminate).
    exact (proj1 (finish_player_deeds _ _ _ _ _ _ R1)).
  - destruct (nowin_inv _ _ _ _ T H) as (sc & n & rest & N & GF & L & D & _).
    assert (G : score_deeds sc p (deeds (SId p, PV_score) raw)).
    { rewrite D. destruct (finish_deeds _ _ _ _ _ _ _ _ p GF N) as [r [fin [R1 [R2 R3]]]]; [pose proof (counted_count _ _ _ C N); lia|].
      rewrite R3. destruct (final_deeds e n p fin R2) as [F _]. rewrite F, app_nil_r by (cbn; intros [K|[K|[K|[]]]]; discriminate).
      exact (proj1 (finish_player_deeds _ _ _ _ _ _ R1)). }
    destruct (lookup (t_ "sc") (attrib e)) as [s|]; [|subst sc; exact G]. destruct L as [l [L1 ->]]. eauto.
Qed.
Lemma reach_deeds e x raw x' p : tag e = t_ "REACH" -> handle e x = Ok (raw, x') ->
  exists wt w st, attr e (t_ "who") = Ok wt /\ py_int wt = Ok w /\ attr e (t_ "step") = Ok st /\
    deeds (SId p, PV_score) raw = if text_eqb st (t_ "2") && (w =? p) then [(U_REMOVE, VInt 1000)] else [].
Proof.
  intros T H. unfold CommandProofs.handle in H.
  replace (hfind (handlers unquote so) (tag e)) with (Some richii_command) in H by (rewrite T; reflexivity).
  unfold richii_command, default_event_type in H. peelb H. apply Ok_inj in H. injection H as -> ->. peelb E.
  match type of E with Ok _ = Ok ?v => apply Ok_inj in E; subst v end. cbn [fst]. do 3 eexists. split; [reflexivity|]. split; [eassumption|]. split; [reflexivity|].
  rewrite typed_deeds. destruct (text_eqb v2 (t_ "1")) eqn:S1.
  - apply text_eqb_iff in S1. subst v2. cbn [text_eqb t_ andb]. unfold deeds, about. cbn [filter c_sub c_prop cmd fst snd sub_eqb view_eqb]. rewrite andb_false_r. reflexivity.
  - destruct (text_eqb v2 (t_ "2")) eqn:S2; [|reflexivity]. unfold deeds, about. cbn [filter c_sub c_prop cmd fst snd sub_eqb view_eqb andb].
    destruct (v1 =? p); reflexivity.
Qed.
Lemma seat_nth {A} (l : list A) p a : 0 <= p -> nth_error l (Z.to_nat p) = Some a -> py_nth l p = Ok a.
Proof. intros P H. now apply py_nth_some. Qed.

Lemma score_invariant p es z : seat p -> score_after p es z -> has_seat p es -> forall cmds x,
  call_all tr strict 0 es empty_ctx = Ok (cmds, x) -> val_at x (SId p) PV_score = Some (VInt z).
Proof.
  intros P SA. assert (P0 : 0 <= p) by (unfold seat in P; lia).
  induction SA as [es e l s T Hl Hn|es e l s d T Hl Hs Hd|es e z SA IH [T [Hw Hs]]|es e z SA IH [K1 [K2 K3]]]; intros HS cmds x H;
    destruct (run_snoc _ _ _ _ H) as [c1 [x1 [i [c2 [H1 H2]]]]];
    (assert (HS1 : has_seat p es) by (intros e' I0; apply HS; apply in_or_app; now left));
    pose proof (counted_all _ P _ _ _ HS1 H1) as C;
    destruct (call_inv unquote so _ _ _ _ _ _ H2) as [raw [x2 [Hh [_ [_ [_ D]]]]]]; specialize (D (SId p, PV_score)); cbn [snd] in D; unfold val_at.
  - destruct (handle_deal _ _ _ _ _ _ T Hh) as (n & seed & oya & dd & dora & N & _ & _ & _ & _ & Pl & _).
    destruct (Pl p) as (hand & score & Dl & De); [pose proof (counted_count _ _ _ C N); lia|].
    rewrite De in D by discriminate. destruct Dl as (ten & scs & ht & rw & sc & A1 & A2 & _ & _ & _ & A6 & ->).
    rewrite (holds_attr _ _ _ Hl) in A1. apply Ok_inj in A1. subst ten. rewrite number_list_comma in A2 by (intros ->; destruct (Z.to_nat p); discriminate).
    apply Ok_inj in A2. subst scs. rewrite (seat_nth _ _ (NInt s) P0) in A6 by (rewrite nth_error_map, Hn; reflexivity). apply Ok_inj in A6. subst sc.
    cbn [init_deeds run_deeds execute_new_value c_update c_value bindr num_scale] in D. apply Ok_inj in D. rewrite D. unfold VInt. do 3 f_equal. lia.
  - pose proof (ends_score _ _ _ _ p T Hh C P0) as G. unfold holds in Hl. rewrite Hl in G. destruct G as [nl [L1 [a [b [A [B Ds]]]]]].
    rewrite number_list_comma in L1 by (intros ->; destruct (Z.to_nat p); discriminate). apply Ok_inj in L1. subst nl.
    apply py_nth_some in A, B; try exact P0. rewrite every_other_nth in A, B. rewrite tl_nth in B.
    replace (S (2 * Z.to_nat p)) with (2 * Z.to_nat p + 1)%nat in B by lia. rewrite nth_error_map in A, B. rewrite Hs in A. rewrite Hd in B. cbn [option_map] in A, B.
    injection A as <-. injection B as <-. rewrite Ds in D. cbn [run_deeds execute_new_value c_update c_value c_prop bindr num_scale or_none] in D.
    assert (Q : iget (x_vals x) (SId p, PV_score) = Some (VNum (num_add (NInt (s * 100)) (NInt (d * 100))))) by (apply Ok_inj in D; exact D).
    rewrite Q. cbn [num_add]. unfold VInt. do 3 f_equal. lia.
  - destruct (reach_deeds _ _ _ _ p T Hh) as (wt & w & st & A1 & A2 & A3 & Ds). rewrite (holds_attr _ _ _ Hw) in A1. apply Ok_inj in A1. subst wt.
    rewrite py_int_str in A2. apply Ok_inj in A2. subst w. rewrite (holds_attr _ _ _ Hs) in A3. apply Ok_inj in A3. subst st.
    rewrite Z.eqb_refl in Ds. cbn [text_eqb t_ andb] in Ds. rewrite Ds in D. specialize (IH HS1 _ _ H1). unfold val_at in IH. rewrite IH in D.
    assert (Q : iget (x_vals x) (SId p, PV_score) = Some (VNum (num_sub (NInt z) (NInt 1000)))) by (apply Ok_inj in D; exact D).
    rewrite Q. cbn [num_sub num_add num_neg]. unfold VInt. do 3 f_equal.
  - specialize (IH HS1 _ _ H1). unfold val_at in IH. rewrite <- IH.
    assert (Ds : deeds (SId p, PV_score) raw = []); [|rewrite Ds in D; cbn [run_deeds] in D; congruence].
    destruct (text_eqb (tag e) (t_ "REACH")) eqn:TR.
    { apply text_eqb_iff in TR. destruct (reach_deeds _ _ _ _ p TR Hh) as (wt & w & st & A1 & A2 & A3 & Ds). rewrite Ds.
      destruct (K3 TR) as [[w' [Hw N]]|[st' [Hst N]]].
      - rewrite (holds_attr _ _ _ Hw) in A1. apply Ok_inj in A1. subst wt. rewrite py_int_str in A2. apply Ok_inj in A2. subst w.
        apply Z.eqb_neq in N. rewrite N, andb_false_r. reflexivity.
      - rewrite (holds_attr _ _ _ Hst) in A3. apply Ok_inj in A3. subst st. rewrite text_eqb_neq by exact N. reflexivity. }
    assert (NR : tag e <> t_ "REACH") by (intro Q; rewrite Q, text_eqb_refl in TR; discriminate).
    destruct (text_eqb (tag e) (t_ "AGARI") || text_eqb (tag e) (t_ "RYUUKYOKU")) eqn:TE.
    { assert (ED : ends_deal e) by (apply orb_true_iff in TE; destruct TE as [TE|TE]; apply text_eqb_iff in TE; [left|right]; exact TE).
      pose proof (ends_score _ _ _ _ p ED Hh C P0) as G. specialize (K2 ED). unfold holds in K2.
      destruct (lookup (t_ "sc") (attrib e)) as [s|]; [exfalso; exact (K2 s eq_refl)|exact G]. }
    apply orb_false_iff in TE. destruct TE as [TA TB]. apply (untouched _ _ _ _ _ _ _ _ Hh). apply score_view; try assumption.
    + intro Q. rewrite Q, text_eqb_refl in TA. discriminate.
    + intro Q. rewrite Q, text_eqb_refl in TB. discriminate.
Qed.
End Scores.

(** The universal score of a seat is the one the events tell. *)
Theorem C42_score : forall unquote so strict p es z cmds, seat p -> has_seat p es -> score_after p es z ->
  to_commands (tenhou_command unquote so) strict es = Ok cmds ->
  holds_after cmds (Some p, PV_score) (Some (VInt z)).
Proof.
  intros unquote so strict p es z cmds P HS SA H. destruct (to_commands_run _ _ _ _ _ H) as [x [R M]].
  rewrite <- (score_invariant _ _ _ _ _ _ P SA HS _ _ R). now apply player_place.
Qed.

(** ** Final ranks *)
Definition lex_leb (a b : Z * Z) : bool := (fst a <? fst b) || ((fst a =? fst b) && (snd a <=? snd b)).
Definition as_key (a : Z * Z) : num * Z := (NInt (fst a), snd a).
Fixpoint lex_insert (a : Z * Z) (l : list (Z * Z)) : list (Z * Z) :=
  match l with [] => [a] | b :: r => if lex_leb a b then a :: l else b :: lex_insert a r end.
Definition lex_sort (l : list (Z * Z)) : list (Z * Z) := fold_right lex_insert [] l.
Lemma rank_leb_lex a b : rank_leb (as_key a) (as_key b) = lex_leb a b.
Proof.
  unfold rank_leb, lex_leb, as_key, num_ltb, num_eqb. cbn [fst snd num_m num_k]. change (p10 0) with 1. rewrite !Z.mul_1_r. reflexivity.
Qed.
Lemma sort_ranks_lex l : sort_ranks (map as_key l) = map as_key (lex_sort l).
Proof.
  unfold sort_ranks, lex_sort. induction l as [|a l IH]; [reflexivity|]. cbn [map fold_right]. rewrite IH. generalize (fold_right lex_insert [] l). clear.
  induction l as [|b l IH]; [reflexivity|]. cbn [map insert_rank lex_insert]. rewrite rank_leb_lex. destruct (lex_leb a b); [reflexivity|]. cbn [map]. now rewrite IH.
Qed.
Lemma lex_insert_perm a l : Permutation (lex_insert a l) (a :: l).
Proof.
  induction l as [|b l IH]; [apply Permutation_refl|]. cbn [lex_insert]. destruct (lex_leb a b); [apply Permutation_refl|].
  eapply Permutation_trans; [apply perm_skip, IH|apply perm_swap].
Qed.
Lemma lex_sort_perm l : Permutation (lex_sort l) l.
Proof.
  unfold lex_sort. induction l as [|a l IH]; [constructor|]. cbn [fold_right]. eapply Permutation_trans; [apply lex_insert_perm|]. now apply perm_skip.
Qed.
Lemma lex_leb_iff a b : lex_leb a b = true <-> fst a < fst b \/ (fst a = fst b /\ snd a <= snd b).
Proof. unfold lex_leb. rewrite orb_true_iff, andb_true_iff, Z.ltb_lt, Z.eqb_eq, Z.leb_le. reflexivity. Qed.
Lemma lex_leb_false a b : lex_leb a b = false -> lex_leb b a = true.
Proof.
  intro H. apply lex_leb_iff. apply not_true_iff_false in H. rewrite lex_leb_iff in H. lia.
Qed.
Lemma lex_insert_sorted a l : StronglySorted (fun x y => lex_leb x y = true) l -> StronglySorted (fun x y => lex_leb x y = true) (lex_insert a l).
Proof.
  induction 1 as [|b l S0 IH F]; [constructor; constructor|]. cbn [lex_insert]. destruct (lex_leb a b) eqn:E.
  - constructor; [constructor; assumption|]. constructor; [exact E|]. eapply Forall_impl; [|exact F]. intros c K. cbv beta in K.
    rewrite lex_leb_iff in *. lia.
  - constructor; [exact IH|]. eapply Permutation_Forall; [apply Permutation_sym, lex_insert_perm|]. constructor; [now apply lex_leb_false|exact F].
Qed.
Lemma lex_sort_sorted l : StronglySorted (fun x y => lex_leb x y = true) (lex_sort l).
Proof. unfold lex_sort. induction l; cbn [fold_right]; [constructor|]. now apply lex_insert_sorted. Qed.

Lemma enumerate_fst {A} (l : list A) : forall i, map fst (enumerate i l) = map (fun k => i + Z.of_nat k) (seq 0 (length l)).
Proof.
  induction l as [|a l IH]; intro i; [reflexivity|]. cbn [enumerate map length seq fst]. rewrite IH, <- seq_shift, map_map. f_equal; [cbn; lia|].
  apply map_ext. intro k. lia.
Qed.
Lemma enumerate_snd {A} (l : list A) : forall i, map snd (enumerate i l) = l.
Proof. induction l as [|a l IH]; intro i; [reflexivity|]. cbn [enumerate map snd]. now rewrite IH. Qed.
Lemma zrange_seq a n : zrange a (a + Z.of_nat n) = map (fun k => a + Z.of_nat k) (seq 0 n).
Proof. unfold zrange. f_equal. f_equal. lia. Qed.
Lemma zget_in {A} (m : list (Z * A)) k v : NoDup (map fst m) -> In (k, v) m -> zget m k = Ok v.
Proof.
  induction m as [|[k' v'] m IH]; intros N I0; [destruct I0|]. cbn [zget]. cbn [map fst] in N. inversion N as [|? ? N1 N2]; subst.
  destruct I0 as [Q|I0].
  - injection Q as -> ->. rewrite Z.eqb_refl. reflexivity.
  - destruct (k' =? k) eqn:E; [|now apply IH]. apply Z.eqb_eq in E. subst k'. exfalso. apply N1. apply in_map_iff. exists (k, v). auto.
Qed.

(** The ranks of a list of integer scores. *)
Lemma ranks_of (scores : list Z) (n : nat) : (n <= length scores)%nat ->
  exists rank : Z -> Z,
    (forall p, 0 <= p < Z.of_nat n -> zget (player_rank_map (Z.of_nat n) (map NInt scores)) p = Ok (rank p)) /\
    Permutation (map rank (zrange 0 (Z.of_nat n))) (zrange 1 (Z.of_nat n + 1)) /\
    forall p q, 0 <= p < Z.of_nat n -> 0 <= q < Z.of_nat n ->
      nth (Z.to_nat p) scores 0 > nth (Z.to_nat q) scores 0 \/ (nth (Z.to_nat p) scores 0 = nth (Z.to_nat q) scores 0 /\ p < q) -> rank p < rank q.
Proof.
  intro L. set (keys := map (fun p => (- nth (Z.to_nat p) scores 0, p)) (zrange 0 (Z.of_nat n))).
  assert (Ke : map (fun ps => (num_neg (snd ps), fst ps)) (enumerate 0 (firstn (Z.to_nat (Z.of_nat n)) (map NInt scores))) = map as_key keys).
  { rewrite Nat2Z.id. unfold keys. change (zrange 0 (Z.of_nat n)) with (zrange 0 (0 + Z.of_nat n)). rewrite zrange_seq, !map_map.
    assert (G : forall s i m, (m <= length s)%nat -> map (fun ps => (num_neg (snd ps), fst ps)) (enumerate i (firstn m (map NInt s))) =
       map (fun x => as_key (- nth x s 0, i + Z.of_nat x)) (seq 0 m)).
    { induction s as [|a s IH]; intros i m Hm; [destruct m; [reflexivity|cbn in Hm; lia]|]. destruct m as [|m]; [reflexivity|].
      cbn [map firstn enumerate seq fst snd num_neg nth]. f_equal; [unfold as_key; cbn [fst snd]; f_equal; lia|].
      rewrite IH by (cbn in Hm; lia). rewrite <- seq_shift, map_map. apply map_ext. intro k. unfold as_key. cbn [fst snd nth]. f_equal. lia. }
    rewrite (G scores 0 n L). apply map_ext. intro k. unfold as_key. cbn [fst snd]. do 3 f_equal. rewrite Z.add_0_l, Nat2Z.id. reflexivity. }
  set (m := map (fun rp => (snd (snd rp), fst rp + 1)) (enumerate 0 (map as_key (lex_sort keys)))).
  assert (Em : player_rank_map (Z.of_nat n) (map NInt scores) = m).
  { unfold player_rank_map. cbv zeta. rewrite Ke, sort_ranks_lex. reflexivity. }
  assert (Fst : map fst m = map snd (lex_sort keys)).
  { unfold m. rewrite map_map. cbn [fst]. rewrite <- (map_map snd snd), enumerate_snd, map_map. reflexivity. }
  assert (PF : Permutation (map fst m) (zrange 0 (Z.of_nat n))).
  { rewrite Fst. eapply Permutation_trans; [apply Permutation_map, lex_sort_perm|]. unfold keys. rewrite map_map. cbn [snd]. rewrite map_id. apply Permutation_refl. }
  assert (ND : NoDup (map fst m)) by (eapply Permutation_NoDup; [apply Permutation_sym; exact PF|apply zrange_nodup]).
  assert (Len : length (lex_sort keys) = n).
  { rewrite (Permutation_length (lex_sort_perm keys)). unfold keys. rewrite map_length. unfold zrange. rewrite map_length, seq_length. lia. }
  assert (Snd : map snd m = zrange 1 (Z.of_nat n + 1)).
  { unfold m. rewrite map_map. cbn [snd]. rewrite <- (map_map fst (fun i => i + 1)), enumerate_fst, map_map, map_length, Len.
    rewrite (Z.add_comm (Z.of_nat n)), zrange_seq. apply map_ext. intro k. lia. }
  exists (fun p => match zget m p with Ok r => r | _ => 0 end). rewrite Em.
  assert (Get : forall p, 0 <= p < Z.of_nat n -> exists r, In (p, r) m /\ zget m p = Ok r).
  { intros p P. assert (I0 : In p (map fst m)) by (apply (Permutation_in _ (Permutation_sym PF)), in_zrange; lia).
    apply in_map_iff in I0. destruct I0 as [[k r] [Q I0]]. cbn in Q. subst k. exists r. split; [exact I0|now apply zget_in]. }
  split; [|split].
  - intros p P. destruct (Get p P) as [r [_ ->]]. reflexivity.
  - rewrite <- Snd. assert (Q : map snd m = map (fun p => match zget m p with Ok r => r | _ => 0 end) (map fst m)).
    { rewrite map_map. apply map_ext_in. intros [k r] I0. cbn [fst snd]. rewrite (zget_in _ _ _ ND I0). reflexivity. }
    rewrite Q. apply Permutation_map, Permutation_sym, PF.
  - intros p q P0 Q0 B.
    assert (Pos : forall p r, In (p, r) m -> exists k, r = Z.of_nat k + 1 /\ nth_error (lex_sort keys) k = Some (- nth (Z.to_nat p) scores 0, p)).
    { intros p' r I0. unfold m in I0. apply in_map_iff in I0. destruct I0 as [[i [a j]] [Q I0]]. cbn [fst snd] in Q. injection Q as -> <-.
      assert (G : forall (l : list (num * Z)) i0 i x, In (i, x) (enumerate i0 l) -> exists k, i = i0 + Z.of_nat k /\ nth_error l k = Some x).
      { induction l as [|y l IH]; intros i0 i' x I1; [destruct I1|]. cbn [enumerate] in I1. destruct I1 as [Q|I1].
        - injection Q as -> ->. exists O. split; [cbn; lia|reflexivity].
        - destruct (IH _ _ _ I1) as [k [-> Hk]]. exists (S k). split; [lia|exact Hk]. }
      destruct (G _ _ _ _ I0) as [k [-> Hk]]. exists k. split; [lia|]. rewrite nth_error_map in Hk.
      destruct (nth_error (lex_sort keys) k) as [[b c]|] eqn:Hn; [|discriminate]. cbn in Hk. injection Hk as _ ->.
      assert (I1 : In (b, p') keys) by (apply (Permutation_in _ (lex_sort_perm keys)); eapply nth_error_In; exact Hn).
      unfold keys in I1. apply in_map_iff in I1. destruct I1 as [w [Q _]]. injection Q as <- ->. reflexivity. }
    destruct (Get p P0) as [rp [Ip ->]]. destruct (Get q Q0) as [rq [Iq ->]].
    destruct (Pos _ _ Ip) as [i [-> Hi]]. destruct (Pos _ _ Iq) as [j [-> Hj]].
    assert (G : forall l i j x y, StronglySorted (fun x y => lex_leb x y = true) l -> nth_error l i = Some x -> nth_error l j = Some y -> (j <= i)%nat -> lex_leb y x = true).
    { clear. induction l as [|a l IH]; intros i j x y S0 Hi Hj Hle; [destruct i; discriminate|]. inversion S0 as [|? ? S1 F]; subst.
      destruct j as [|j]; [injection Hj as ->; destruct i as [|i]; [injection Hi as ->; apply lex_leb_iff; lia|]|].
      - cbn in Hi. rewrite Forall_forall in F. apply F. eapply nth_error_In. exact Hi.
      - destruct i as [|i]; [lia|]. eapply (IH i j); eauto. lia. }
    destruct (Nat.le_gt_cases j i) as [K|K]; [|lia]. pose proof (G _ _ _ _ _ (lex_sort_sorted keys) Hi Hj K) as Lx. rewrite lex_leb_iff in Lx. cbn [fst snd] in Lx. lia.
Qed.

Lemma split_owari results : results <> [] -> Forall (fun r => ~ In 44 (snd r)) results ->
  split_on 44 (owari_text results) = flat_map (fun r => [str_int (fst r); snd r]) results.
Proof.
  intros N F. unfold owari_text. change (t_ ",") with [44]. apply split_join.
  - destruct results; [congruence|discriminate].
  - clear N. induction F as [|r l Hr F IH]; [constructor|]. cbn [flat_map app]. constructor; [apply str_int_no_comma|]. constructor; [exact Hr|exact IH].
Qed.
Lemma owari_scores : forall results finals, mapM py_number (flat_map (fun r => [str_int (fst r); snd r]) results) = Ok finals ->
  every_other finals = map NInt (map fst results).
Proof.
  induction results as [|[s t] l IH]; intros finals H; cbn [flat_map app mapM fst snd] in H; [apply Ok_inj in H; subst; reflexivity|].
  rewrite py_number_str in H. cbn [bindr] in H. peelb H. apply Ok_inj in H. subst finals. peelb E. apply Ok_inj in E. subst v.
  cbn [every_other map fst]. f_equal. apply IH. reflexivity.
Qed.
Theorem C43_rank : forall unquote so strict es e results n cmds, table_size es n -> final_results e results ->
  to_commands (tenhou_command unquote so) strict (es ++ [e]) = Ok cmds ->
  exists rank : Z -> Z,
    (forall p, 0 <= p < n -> holds_after cmds (Some p, PV_rank) (Some (VInt (rank p))) /\
       holds_after cmds (Some p, PV_final_score) (Some (VInt (100 * final_score_of results p)))) /\
    Permutation (map rank (zrange 0 n)) (zrange 1 (n + 1)) /\
    forall p q, 0 <= p < n -> 0 <= q < n -> places_before results p q -> rank p < rank q.
Proof.
  intros unquote so strict es e results n cmds TS [ED [Ho [Ne Nc]]] H. destruct (to_commands_run _ _ _ _ _ H) as [x [R M]].
  destruct (run_snoc _ _ _ _ _ _ _ R) as [c1 [x1 [i [c2 [H1 H2]]]]]. pose proof (table_count _ _ _ _ _ _ _ TS H1) as C.
  destruct (call_inv unquote so _ _ _ _ _ _ H2) as [raw [x2 [Hh [_ [_ [_ D]]]]]].
  assert (Sz : n = 3 \/ n = 4) by (destruct TS as (b0 & e0 & a0 & v0 & _ & _ & _ & _ & ->); destruct (flag v0 4); auto).
  assert (G : forall p, 0 <= p < n -> exists finals s rk, number_list (owari_text results) = Ok finals /\ py_nth (final_scores finals) p = Ok s /\
     zget (player_rank_map n (final_scores finals)) p = Ok rk /\ deeds (SId p, PV_final_score) raw = [(U_REPLACE, VNum s)] /\ deeds (SId p, PV_rank) raw = [(U_REPLACE, VInt rk)]).
  { intros p P.
    assert (Fin : exists f w sc y rest, game_finish x1 f w sc y e = Ok rest /\ forall v, v <> PV_hand -> deeds (SId p, v) raw = deeds (SId p, v) rest).
    { destruct ED as [T|T].
      - destruct (agari_inv _ _ _ _ _ _ T Hh) as (wt & w & ft & f & st & sc & yt & ns & yaku & m & rest & _ & _ & _ & _ & _ & _ & _ & _ & _ & _ & GF & Dd & _).
        do 5 eexists. split; [exact GF|]. intros v N. now apply Dd.
      - destruct (nowin_inv _ _ _ _ _ _ T Hh) as (sc & m & rest & _ & GF & _ & Dd & _). do 5 eexists. split; [exact GF|]. intros v N. apply Dd. }
    destruct Fin as (f & w & sc & y & rest & GF & Dd). destruct (finish_deeds _ _ _ _ _ _ _ _ p GF C P) as [r [fin [R1 [R2 R3]]]].
    destruct (final_deeds _ _ _ _ R2) as [_ [_ F3]]. destruct (F3 _ Ho) as (finals & s & pt & rk & L1 & L2 & L3 & L4 & L5 & L6 & L7).
    destruct (finish_player_deeds _ _ _ _ _ _ R1) as (_ & _ & _ & _ & _ & Z0).
    exists finals, s, rk. split; [exact L1|]. split; [exact L2|]. split; [exact L4|]. rewrite !Dd, !R3, L5, L7, !Z0 by (try discriminate; cbn; tauto). split; reflexivity. }
  set (scores := map (fun r => fst r * 100) results).
  assert (Fs : forall finals, number_list (owari_text results) = Ok finals -> final_scores finals = map NInt scores).
  { intros finals Hf. unfold number_list in Hf. rewrite (split_owari _ Ne Nc) in Hf. unfold final_scores. rewrite (owari_scores _ _ Hf). unfold scores. rewrite !map_map. reflexivity. }
  assert (Nth : forall p, nth (Z.to_nat p) scores 0 = final_score_of results p * 100).
  { intro p. unfold scores, final_score_of. rewrite <- (map_nth (fun r => fst r * 100) results (0, []) (Z.to_nat p)). reflexivity. }
  assert (Len : (Z.to_nat n <= length scores)%nat).
  { destruct (G (n - 1) ltac:(lia)) as (finals & s & rk & L1 & L2 & _). rewrite (Fs _ L1) in L2. apply py_nth_some in L2; [|lia].
    assert (K : (Z.to_nat (n - 1) < length (map NInt scores))%nat) by (apply nth_error_Some; congruence). rewrite map_length in K. lia. }
  destruct (ranks_of scores (Z.to_nat n) Len) as [rank [Rk [Pm Od]]]. rewrite Z2Nat.id in * by lia. exists rank. split; [|split; [exact Pm|]].
  - intros p P. destruct (G p P) as (finals & s & rk & L1 & L2 & L3 & L4 & L5). rewrite (Fs _ L1) in L2, L3. rewrite (Rk p P) in L3. apply Ok_inj in L3. subst rk.
    assert (St : seat p) by (unfold seat; lia).
    apply py_nth_some in L2; [|lia]. rewrite nth_error_map in L2. destruct (nth_error scores (Z.to_nat p)) as [s'|] eqn:Ns; [|discriminate]. cbn in L2. injection L2 as <-.
    apply (nth_error_nth _ _ 0) in Ns. rewrite Nth in Ns. subst s'.
    pose proof (player_place _ _ p PV_rank M St eq_refl) as P1. pose proof (player_place _ _ p PV_final_score M St eq_refl) as P2. unfold val_at in P1, P2.
    pose proof (D (SId p, PV_rank)) as D1. rewrite L5 in D1. pose proof (D (SId p, PV_final_score)) as D2. rewrite L4 in D2.
    cbn [run_deeds execute_new_value c_update c_value bindr snd] in D1, D2. apply Ok_inj in D1, D2. rewrite D1 in P1. rewrite D2 in P2.
    split; [exact P1|]. unfold VInt. rewrite (Z.mul_comm 100). exact P2.
  - intros p q P Q B. apply Od; [exact P|exact Q|]. rewrite !Nth. destruct B as [B|[B1 B2]]; [left|right]; lia.
Qed.
