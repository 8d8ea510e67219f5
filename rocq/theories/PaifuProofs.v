(** The rows of the row export, event by event. *)
From Verif Require Import Base Category Tile Parse Text Tenhou TenhouProofs Spec_Tile Spec_Meld MeldProofs Prop_Meld Event Const Reader Spec_Log StateProofs Prop_State Value Json Universe Translator TenhouCommands
  Transfer Spec_Transfer Spec_Universe UniverseProofs Prop_Executor CommandProofs Prop_Commands Spec_Play CommandState CommandPlay PlaySteps PlayProofs Prop_Score Paifu Spec_Paifu.
From Coq Require Import String List ZArith Lia Bool Permutation Sorted.
Import ListNotations.
Open Scope list_scope.
Open Scope Z_scope.

(** ** Texts *)
Lemma split_comma l : l <> [] -> split_on 44 (comma_list l) = map str_int l.
Proof.
  intro N. unfold comma_list. change (t_ ",") with [44]. rewrite split_join; [reflexivity|destruct l; [congruence|discriminate]|].
  apply Forall_forall. intros s I0. apply in_map_iff in I0 as (n & <- & _). apply str_int_no_comma.
Qed.
Lemma mapM_py_int l : mapM py_int (map str_int l) = Ok l.
Proof. induction l as [|x l IH]; [reflexivity|]. cbn [map mapM]. rewrite py_int_str. cbn [bindr]. now rewrite IH. Qed.
Lemma py_nth_map l p : 0 <= p < Z.of_nat (length l) -> py_nth (map str_int l) p = Ok (str_int (nth (Z.to_nat p) l 0)).
Proof.
  intros P. apply py_nth_some; [lia|]. rewrite nth_error_map. rewrite (nth_error_nth' l 0) by lia. reflexivity.
Qed.
Lemma name_ptext t : name_of t = ptext t. Proof. reflexivity. Qed.
Lemma tile_texts_valid l : Forall valid_tile l -> tile_texts l = Ok (names_of l).
Proof. intro V. unfold tile_texts. rewrite tile_strs_valid by exact V. reflexivity. Qed.
Lemma one_tile_valid t : valid_tile t -> one_tile t = Ok (name_of t).
Proof. intro V. unfold one_tile. apply tile_prints. exact V. Qed.

(** ** Sorting *)
Lemma insert_int_perm x l : Permutation (insert_int x l) (x :: l).
Proof.
  induction l as [|y l IH]; cbn [insert_int]; [reflexivity|]. destruct (x <? y); [reflexivity|].
  etransitivity; [apply perm_skip; exact IH|apply perm_swap].
Qed.
Lemma insert_int_sorted x l : Sorted Z.le l -> Sorted Z.le (insert_int x l).
Proof.
  induction 1 as [|y l S IH H]; cbn [insert_int]; [repeat constructor|]. destruct (x <? y) eqn:E.
  - apply Z.ltb_lt in E. constructor; [constructor; assumption|]. constructor. lia.
  - apply Z.ltb_ge in E. constructor; [exact IH|]. destruct l as [|z l]; cbn [insert_int]; [constructor; exact E|].
    inversion H; subst. destruct (x <? z); constructor; assumption.
Qed.
Lemma sorted_ints_ok l : Permutation (sorted_ints l) l /\ Sorted Z.le (sorted_ints l).
Proof.
  unfold sorted_ints. assert (G : forall l a, Sorted Z.le a ->
    Permutation (fold_left (fun a x => insert_int x a) l a) (a ++ l) /\ Sorted Z.le (fold_left (fun a x => insert_int x a) l a)).
  { clear. induction l as [|x l IH]; intros a S; cbn [fold_left]; [rewrite app_nil_r; split; [reflexivity|exact S]|].
    destruct (IH (insert_int x a) (insert_int_sorted x a S)) as [P Q]. split; [|exact Q].
    etransitivity; [exact P|]. etransitivity; [apply Permutation_app_tail, insert_int_perm|]. cbn [app]. apply Permutation_middle. }
  destruct (G l [] ltac:(constructor)) as [P Q]. split; [exact P|exact Q].
Qed.

(** ** Single events *)
Section Events.
Context (so : list Z -> list Z) (SO : forall l, Permutation (so l) l) (s : text).
Local Notation named := (map (with_game_str s)).

Lemma hand_row_ok e name p hand ten :
  t_ name = t_ "INIT" ++ str_int (p + 1) -> holds e (t_ "hai" ++ str_int p) (comma_list hand) -> hand <> [] -> Forall valid_tile hand ->
  holds e (t_ "ten") (comma_list ten) -> ten <> [] -> 0 <= p < Z.of_nat (length ten) ->
  exists r, hand_row e name p = Ok r /\ hand_shown s p hand (nth (Z.to_nat p) ten 0) (with_game_str s r).
Proof.
  intros Nm H Ne V T Tn P. unfold hand_row. rewrite (holds_attr _ _ _ H). cbn [bindr]. rewrite split_comma by exact Ne. rewrite mapM_py_int. cbn [bindr].
  destruct (sorted_ints_ok hand) as [Pm St]. rewrite tile_texts_valid by (eapply Permutation_Forall; [symmetry; exact Pm|exact V]). cbn [bindr].
  rewrite (holds_attr _ _ _ T). cbn [bindr]. rewrite split_comma by exact Tn. rewrite py_nth_map by exact P. cbn [bindr].
  eexists. split; [reflexivity|]. exists (sorted_ints hand). split; [exact Pm|]. split; [exact St|].
  unfold text_row, with_game_str, field_. cbn [map fst snd]. rewrite Nm. reflexivity.
Qed.

Lemma deal_tells d e : writes (Deal d) e -> complete (Deal d) e ->
  exists rows, init_rows e = Ok rows /\ tells s (Deal d) e (named rows).
Proof.
  intros (T & Sd & Hd) (Rn & Dv & Hv & Hn & ten & Tn & Tl).
  assert (Tne : ten <> []) by (intros ->; discriminate).
  assert (SN : d_round d ++ [d_dora d] <> []) by (intro K; apply app_eq_nil in K; destruct K; discriminate).
  unfold init_rows.
  destruct (hand_row_ok e "INIT1" 0 _ ten eq_refl (Hd 0 ltac:(lia)) (Hn 0 ltac:(lia)) (Hv 0 ltac:(lia)) Tn Tne ltac:(lia)) as (r0 & -> & S0). cbn [bindr].
  destruct (hand_row_ok e "INIT2" 1 _ ten eq_refl (Hd 1 ltac:(lia)) (Hn 1 ltac:(lia)) (Hv 1 ltac:(lia)) Tn Tne ltac:(lia)) as (r1 & -> & S1). cbn [bindr].
  destruct (hand_row_ok e "INIT3" 2 _ ten eq_refl (Hd 2 ltac:(lia)) (Hn 2 ltac:(lia)) (Hv 2 ltac:(lia)) Tn Tne ltac:(lia)) as (r2 & -> & S2). cbn [bindr].
  rewrite (holds_attr _ _ _ Sd). cbn [bindr]. rewrite split_comma by exact SN. rewrite map_app. cbn [map].
  rewrite PlaySteps.py_nth_last. cbn [bindr]. rewrite py_int_str. cbn [bindr]. rewrite one_tile_valid by exact Dv. cbn [bindr].
  replace (py_nth (map str_int (d_round d) ++ [str_int (d_dora d)]) 2) with (Ok (str_int (nth 2 (d_round d) 0))).
  2:{ symmetry. apply py_nth_some; [lia|]. rewrite nth_error_app1 by (rewrite map_length; change (Z.to_nat 2) with 2%nat; lia). rewrite nth_error_map.
      change (Z.to_nat 2) with 2%nat. rewrite (nth_error_nth' (d_round d) 0) by lia. reflexivity. }
  cbn [bindr]. cbv zeta.
  pose proof (Hd 3 ltac:(lia)) as H3. change (t_ "hai" ++ str_int 3) with (t_ "hai3") in H3. unfold holds in H3. rewrite H3.
  destruct (d_hands d 3) as [|x h3] eqn:E3.
  - change (comma_list []) with (@nil Z). eexists. split; [reflexivity|]. cbn [map].
    eapply (tells_deal s d e ten _ _ _ [] _ _ Tn S0 S1 S2); [congruence|auto|reflexivity|reflexivity].
  - destruct (hand_row_ok e "INIT4" 3 (x :: h3) ten eq_refl) as (r3 & E4 & S3);
      [change (t_ "hai" ++ str_int 3) with (t_ "hai3"); exact H3|discriminate|rewrite <- E3; apply Hv; lia|exact Tn|exact Tne|lia|].
    assert (NE : comma_list (x :: h3) <> []).
    { intro K. apply (f_equal (split_on 44)) in K. rewrite split_comma in K by discriminate. cbn [map split_on] in K. injection K as K _.
      destruct (Z.neg_nonneg_cases x) as [N|N]; [destruct (str_int_neg x N) as (ds & Q & _)|destruct (str_int_nonneg x N) as (Q & _)]; congruence. }
    destruct (comma_list (x :: h3)) as [|c cs] eqn:Ec; [congruence|]. rewrite E4. cbn [bindr]. eexists. split; [reflexivity|]. cbn [map].
    change [with_game_str s r0; with_game_str s r1; with_game_str s r2; with_game_str s r3; ?a; ?b] with
      ([with_game_str s r0; with_game_str s r1; with_game_str s r2] ++ [with_game_str s r3] ++ [a; b]).
    eapply (tells_deal s d e ten _ _ _ [with_game_str s r3] _ _ Tn S0 S1 S2); [|congruence|reflexivity|reflexivity].
    intros _. exists (with_game_str s r3). split; [reflexivity|]. rewrite E3. exact S3.
Qed.

Lemma taken_valid v t : 0 <= v < 65536 -> tile_field_ok v -> taken v t -> valid_tile t.
Proof.
  intros V. unfold tile_field_ok, taken. destruct (call_kind v); try easy.
  - intros L ->. unfold chi_tile, chi_position, valid_tile. set (f := field v 10 6) in *. assert (0 <= f) by (apply Z.mod_pos_bound; lia).
    assert (B : forall i, 0 <= field v (3 + 2 * i) 2 < 4) by (intro; apply Z.mod_pos_bound; lia). specialize (B (f mod 3)).
    pose proof (Z.mod_pos_bound f 3 ltac:(lia)). assert (0 <= f / 3 < 21) by (split; [apply Z.div_pos; lia|apply Z.div_lt_upper_bound; lia]).
    set (t := f / 3) in *. assert (0 <= t / 7 < 3) by (split; [apply Z.div_pos; lia|apply Z.div_lt_upper_bound; lia]).
    pose proof (Z.mod_pos_bound t 7 ltac:(lia)). lia.
  - intros L ->. unfold pon_tile, pon_position, valid_tile. set (f := field v 9 7) in *. assert (0 <= f) by (apply Z.mod_pos_bound; lia).
    pose proof (Z.mod_pos_bound f 3 ltac:(lia)). assert (0 <= f / 3 < 34) by (split; [apply Z.div_pos; lia|apply Z.div_lt_upper_bound; lia]).
    assert (0 <= field v 5 2 < 4) by (apply Z.mod_pos_bound; lia). destruct (f mod 3 <? field v 5 2) eqn:E; [apply Z.ltb_lt in E|apply Z.ltb_ge in E]; lia.
  - intros L [_ ->]. unfold valid_tile. assert (0 <= high_byte v) by (apply Z.mod_pos_bound; lia). lia.
Qed.

Lemma type_of_call v : 0 <= v < 65536 -> exists ty, unpack_with meld_type_desc v = Ok ty /\
  call_kind v = (if negb (fld ty "syuntsu" =? 0) then CFlush else if negb (fld ty "koutsu" =? 0) then CTriplet
      else if negb (fld ty "chakan" =? 0) then CAddedKan else if negb (fld ty "nuki" =? 0) then CKita else CKan).
Proof.
  intro V. pose proof (C25_meld_type v V) as M. unfold meld_type in M. destruct (unpack_with meld_type_desc v) as [ty|]; [|discriminate].
  cbn [bindr] in M. exists ty. split; [reflexivity|]. now apply Ok_inj in M.
Qed.

Lemma so_tiles P l : NoDup l -> (forall x, In x l <-> P x) -> tiles_of P (so l).
Proof.
  intros N H. split; [eapply Permutation_NoDup; [symmetry; apply SO|exact N]|]. intro t. rewrite <- H. split; apply Permutation_in; [apply SO|symmetry; apply SO].
Qed.

Lemma call_tells p v e : legal_action (Call p v) -> writes (Call p v) e -> complete (Call p v) e ->
  exists r, open_row so e = Ok r /\ tells s (Call p v) e [with_game_str s r].
Proof.
  intros L W C. pose proof W as (T & Hw & Hm). destruct (decode_call p v L) as (m & Dm & D).
  destruct D as (Kd & Se & Nse & Bo & Nbo & Fr). destruct L as (Ps & V & TF). cbn [complete] in C.
  unfold open_row. rewrite (holds_attr _ _ _ Hw). cbn [bindr]. rewrite (meld_from_eq p v e W), Dm. cbn [bindr].
  rewrite (holds_attr _ _ _ Hm). cbn [bindr]. rewrite py_int_str. cbn [bindr]. destruct (type_of_call v V) as (ty & -> & Ck). cbn [bindr]. cbv zeta.
  assert (V1 : Forall valid_tile (so (m_self m))) by (apply Forall_forall; intros x I0; apply C, Se; eapply Permutation_in; [apply SO|exact I0]).
  assert (V2 : Forall valid_tile (so (m_borrowed m))).
  { apply Forall_forall; intros x I0. apply (taken_valid v); [exact V|exact TF|]. apply Bo. eapply Permutation_in; [apply SO|exact I0]. }
  pose proof (so_tiles (laid_down v) (m_self m) Nse Se) as Ts. pose proof (so_tiles (taken v) (m_borrowed m) Nbo Bo) as Tb.
  rewrite !tile_texts_valid by assumption. rewrite (tile_strs_valid (so (m_self m)) V1). cbn [bindr]. rewrite Fr.
  assert (App : forall a b, names_of a ++ names_of b = names_of (a ++ b)) by (intros; unfold names_of; now rewrite map_app, concat_app).
  rewrite App. pose proof (tells_call s p v e) as G.
  assert (G' : is_kita v = false -> tells s (Call p v) e [text_row s [("event_type"%string, call_name v); ("player"%string, str_int p); ("player_show"%string, names_of (so (m_self m)));
     ("player_open"%string, names_of (so (m_borrowed m) ++ so (m_self m))); ("origin"%string, str_int ((p + source v) mod 4))]]).
  { intro K. apply G; assumption. } clear G.
  unfold is_kita, call_name in G'. rewrite Ck in G'.
  destruct (negb (fld ty "syuntsu" =? 0)) eqn:E1; [eexists; split; [reflexivity|exact (G' eq_refl)]|].
  destruct (negb (fld ty "koutsu" =? 0)) eqn:E2; [eexists; split; [reflexivity|exact (G' eq_refl)]|].
  destruct (negb (fld ty "chakan" =? 0)) eqn:E3; [eexists; split; [reflexivity|exact (G' eq_refl)]|].
  destruct (negb (fld ty "nuki" =? 0)) eqn:E4.
  - (* kita *) clear G'. assert (K : is_kita v = true) by (unfold is_kita; now rewrite Ck).
    assert (Self : so (m_self m) = [high_byte v]).
    { unfold tiles_of in Ts. destruct Ts as [N1 I1]. unfold laid_down in I1. rewrite Ck in I1.
      destruct (so (m_self m)) as [|a [|b l]].
      - exfalso. apply (proj2 (I1 (high_byte v)) eq_refl).
      - f_equal. apply I1. now left.
      - exfalso. inversion N1; subst. apply H1. left. transitivity (high_byte v); [apply I1; right; now left|symmetry; apply I1; now left]. }
    rewrite Self. cbn [map]. change (py_nth [ptext (high_byte v)] 0) with (Ok (ptext (high_byte v))). cbn [bindr].
    eexists. split; [reflexivity|]. exact (tells_kita s p v e K).
  - specialize (G' eq_refl). destruct (so (m_borrowed m)) as [|b bs] eqn:Eb.
    + assert (S0 : source v =? 0 = true).
      { apply Z.eqb_eq. destruct (Z.eq_dec (source v) 0); [assumption|]. exfalso. destruct Tb as [_ I1]. unfold taken in I1. rewrite Ck in I1. apply (proj2 (I1 (high_byte v))). auto. }
      rewrite S0 in G'. eexists. split; [reflexivity|exact G'].
    + assert (S0 : source v =? 0 = false).
      { apply Z.eqb_neq. intro Z0. destruct Tb as [_ I1]. unfold taken in I1. rewrite Ck in I1. apply (proj1 (I1 b)); [now left|assumption]. }
      rewrite S0 in G'. eexists. split; [reflexivity|exact G'].
Qed.

Lemma other_tells e : writes Other e -> complete Other e -> exists rows, other_rows e = Ok rows /\ tells s Other e (named rows).
Proof.
  intros (T1 & T2 & T3 & _) (C1 & C2 & C3). unfold other_rows.
  assert (Tag : forall t, has_tag e t = true <-> tag e = t_ t) by (intro; unfold has_tag; apply text_eqb_iff).
  destruct (is_richii e) eqn:R.
  - apply Tag in R. destruct (C1 R) as ((w & Hw) & [H|H]); rewrite (holds_attr _ _ _ Hw), (holds_attr _ _ _ H); cbn [bindr].
    + rewrite text_eqb_refl. cbn [bindr]. eexists. split; [reflexivity|]. cbn [map]. exact (tells_declares s e _ R H Hw).
    + change (text_eqb (t_ "2") (t_ "1")) with false. cbv iota. rewrite text_eqb_refl. cbn [bindr]. eexists. split; [reflexivity|]. cbn [map]. exact (tells_riichi s e _ R H Hw).
  - cbn [bindr]. assert (R' : tag e <> t_ "REACH") by (intro K; apply Tag in K; unfold is_richii in R; congruence).
    destruct (is_dora_indicator_event e) eqn:Dr; [apply Tag in Dr; contradiction|].
    destruct (is_somebody_win_game e) eqn:A.
    + apply Tag in A. destruct (C2 A) as ((w & Hw) & (f & Hf) & (l & Hl & Ln)).
      rewrite (holds_attr _ _ _ Hw), (holds_attr _ _ _ Hf), (holds_attr _ _ _ Hl). cbn [bindr].
      destruct l as [|a [|b l]]; [cbn in Ln; lia|cbn in Ln; lia|]. rewrite number_list_comma by discriminate. cbn [bindr map].
      replace (py_nth (NInt a :: NInt b :: map NInt l) 1) with (Ok (NInt b)) by (symmetry; apply py_nth_some; [lia|reflexivity]). cbn [bindr].
      eexists. split; [reflexivity|]. exact (tells_win s e _ _ A Hw Hf).
    + assert (A' : tag e <> t_ "AGARI") by (intro K; apply Tag in K; unfold is_somebody_win_game in A; congruence).
      destruct (is_nobody_win_game e) eqn:N.
      * apply Tag in N. destruct (lookup (t_ "type") (attrib e)) as [k|] eqn:Lk.
        -- destruct (C3 N k Lk) as [r Ir]. assert (Lr : lookup k DRAWN_TYPES = Some r).
           { cbn [draw_reasons In] in Ir. repeat (destruct Ir as [Ir|Ir]; [injection Ir as <- <-; reflexivity|]). destruct Ir. }
           rewrite Lr. cbn [bindr]. eexists. split; [reflexivity|]. exact (tells_abort s e k r N Lk Ir).
        -- cbn [bindr]. eexists. split; [reflexivity|]. exact (tells_draw_game s e N Lk).
      * assert (N' : tag e <> t_ "RYUUKYOKU") by (intro K; apply Tag in K; unfold is_nobody_win_game in N; congruence).
        eexists. split; [reflexivity|]. exact (tells_nothing s e R' A' N').
Qed.

Lemma event_tells a e : legal_action a -> writes a e -> complete a e ->
  exists rows, event_paifu so e = Ok rows /\ tells s a e (named rows).
Proof.
  intros L W C. unfold event_paifu.
  pose proof (init_tag a e L W) as It. unfold is_game_init in It. rewrite It.
  pose proof (open_tag a e L W) as Ot.
  destruct a as [d|p t|p t|p v|t|]; cbn [is_Deal].
  - apply deal_tells; assumption.
  - destruct L as [P V]. rewrite (change_draw p t e P V W). rewrite one_tile_valid by exact V. cbn [bindr]. eexists. split; [reflexivity|].
    exact (tells_draw s p t e).
  - destruct L as [P V]. destruct (change_discard p t e P V W) as [-> ->]. rewrite one_tile_valid by exact V. cbn [bindr]. eexists. split; [reflexivity|].
    exact (tells_discard s p t e).
  - assert (Nt : tile_change DRAW_INDICATOR e = None /\ tile_change DISCARD_INDICATOR e = None) by (destruct W as (T & _); unfold tile_change; rewrite T; split; reflexivity).
    destruct Nt as [-> ->]. unfold is_open_hand. rewrite Ot. cbn [is_Call]. destruct (call_tells p v e L W C) as (r & -> & G). cbn [bindr]. eexists. split; [reflexivity|exact G].
  - assert (Nt : tile_change DRAW_INDICATOR e = None /\ tile_change DISCARD_INDICATOR e = None) by (destruct W as (T & _); unfold tile_change; rewrite T; split; reflexivity).
    destruct Nt as [-> ->]. unfold is_open_hand. rewrite Ot. cbn [is_Call]. destruct W as [T H]. unfold other_rows, is_richii, is_dora_indicator_event, has_tag. rewrite T.
    change (text_eqb (t_ "DORA") (t_ "REACH")) with false. change (text_eqb (t_ "DORA") (t_ "DORA")) with true. cbn [bindr]. rewrite (holds_attr _ _ _ H). cbn [bindr].
    rewrite py_int_str. cbn [bindr]. pose proof (tile_prints t L) as Tp. destruct (tile_from_tenhou t) as [k|]; [|discriminate]. cbn [bindr] in *. apply Ok_inj in Tp.
    eexists. split; [reflexivity|]. apply (tells_dora s t e k). rewrite name_ptext. congruence.
  - pose proof W as (_ & _ & _ & Tt). destruct (tile_tag_full (tag e) Tt) as [A B]. unfold tile_change. rewrite A, B. cbn [option_map].
    unfold is_open_hand. rewrite Ot. cbn [is_Call]. apply other_tells; assumption.
Qed.
End Events.
