(** The commands of a converted log can be written to a CSV file and read back. *)
From Verif Require Import Base Category Tile Parse Text Tenhou Prop_Meld Event Const Reader StateProofs Value Json Universe Translator TenhouCommands
  Transfer Spec_Transfer Spec_Universe UniverseProofs Prop_Executor CommandProofs Prop_Commands Spec_Record JsonProofs Prop_Record Spec_Csv.
From Coq Require Import String List ZArith Lia Bool.
Import ListNotations.
Open Scope list_scope.
Open Scope Z_scope.

Definition sound (c : command) : Prop :=
  writable (c_prop c) (c_value c) /\ (text_property (c_prop c) -> c_update c = U_REPLACE \/ c_update c = U_ASSERT_EQUAL_OR_SET) /\
  (c_value c = VNone -> c_update c = U_RESET_DEFAULT).
Definition ascii (s : text) : bool := forallb (fun c => ((0 <=? c) && (c <? 55296)) || ((57344 <=? c) && (c <=? 1114111))) s.
Lemma ascii_unicode s : ascii s = true -> unicode s.
Proof.
  unfold ascii, unicode. rewrite forallb_forall, Forall_forall. intros H c I0. specialize (H c I0). rewrite orb_true_iff, !andb_true_iff, !Z.leb_le, Z.ltb_lt in H. lia.
Qed.
Lemma ascii_app a b : ascii (a ++ b) = ascii a && ascii b.
Proof. apply forallb_app. Qed.
Lemma digits_ascii s : forallb ch_digit s = true -> ascii s = true.
Proof.
  unfold ascii. rewrite !forallb_forall. intros H c I0. specialize (H c I0). unfold ch_digit in H. apply andb_true_iff in H. rewrite !Z.leb_le in H.
  apply orb_true_iff. left. apply andb_true_iff. rewrite Z.leb_le, Z.ltb_lt. lia.
Qed.
Lemma int_ascii z : ascii (str_int z) = true.
Proof.
  destruct (Z.neg_nonneg_cases z) as [H|H].
  - destruct (str_int_neg z H) as (ds & -> & _ & B & _). cbn. exact (digits_ascii _ B).
  - apply digits_ascii. apply (str_int_nonneg z H).
Qed.
Lemma tile_ascii t : ascii (tile_str t) = true.
Proof. unfold tile_str. rewrite ascii_app, int_ascii. destruct (tcolor t); reflexivity. Qed.
Lemma tile_strs_unicode l : forall ts, tile_strs l = Ok ts -> Forall unicode ts.
Proof.
  unfold tile_strs. induction l as [|x l IH]; intros ts H; cbn [mapM] in H; [apply Ok_inj in H; subst; constructor|]. peelb H. apply Ok_inj in H. subst ts.
  peelb E. apply Ok_inj in E. subst. constructor; [apply ascii_unicode, tile_ascii|auto].
Qed.
Lemma texts_unicode l : Forall unicode l -> unicode_value (texts l).
Proof. intro F. unfold texts. constructor. apply Forall_map. eapply Forall_impl; [|exact F]. intros s H. constructor. exact H. Qed.
Lemma tile_list_unicode l v : tile_str_list l = Ok v -> unicode_value v.
Proof. intro H. apply tile_str_list_texts in H. destruct H as [ts [H ->]]. apply texts_unicode. eapply tile_strs_unicode. exact H. Qed.
Lemma tile_list_some l v u : tile_str_list l = Ok v -> v = VNone -> u = U_RESET_DEFAULT.
Proof. intros H ->. apply tile_str_list_texts in H. destruct H as [ts [_ H]]. discriminate. Qed.

Lemma sound_json p u s v ev : existsb (view_eqb p) [RV_play_level; RV_seed; GV_extra_reason; PV_name; PV_level; PV_extra_level] = false ->
  (v = VNone -> u = U_RESET_DEFAULT) -> unicode_value v -> sound (cmd p u s v ev).
Proof. intros N Z U. split; [split; [exact U|]|split; [|exact Z]]; intro T; apply text_property_b in T; cbn [c_prop cmd] in T; congruence. Qed.
Lemma sound_str p u s t ev : u = U_REPLACE \/ u = U_ASSERT_EQUAL_OR_SET -> unicode t -> one_line_break t -> sound (cmd p u s (VStr t) ev).
Proof.
  intros Hu U B. split; [split; [constructor; exact U|]|split; [|discriminate]]; intro T; [|exact Hu]. split; [intros [l X]; discriminate|]. intros s0 X. cbn [c_value cmd] in X. congruence.
Qed.
Lemma sound_num p s n ev : sound (cmd p U_REPLACE s (VNum n) ev).
Proof. split; [split; [constructor|]|split; [|discriminate]]; intro T; [|left; reflexivity]. split; [intros [l X]; discriminate|discriminate]. Qed.
Ltac uv := lazymatch goal with |- unicode_value (texts _) => fail | _ => repeat first [assumption | constructor] end.
Ltac sound_one := match goal with
  | |- sound (cmd _ _ _ _ _) => first [apply sound_num | apply sound_json; [reflexivity|first [discriminate | intros _; reflexivity | eapply tile_list_some; eassumption]|first [eapply tile_list_unicode; eassumption | uv]]]
  end.
Ltac sound_list := repeat match goal with
  | |- Forall _ (_ ++ _) => apply Forall_app; split
  | |- Forall _ (_ :: _) => constructor
  | |- Forall _ [] => constructor
  end; try sound_one.
Lemma hand_update_sound u p l x r : hand_update u p l x = Ok r -> Forall sound (fst r).
Proof.
  unfold hand_update. intro H. peelb H. apply Ok_inj in H. subst r. cbn [fst]. apply Forall_app. split; [destruct u; sound_list|]. sound_list.
Qed.
Section Sound.
Context (unquote : text -> text) (set_order : list Z -> list Z).
Definition sound_handler (h : handler) : Prop := forall e x r, clean_event unquote e -> h e x = Ok r -> Forall sound (fst r).
Lemma typed_sound t (h : handler) : sound_handler h -> sound_handler (default_event_type t h).
Proof.
  intros G e x r C H. unfold default_event_type in H. peelb H. apply Ok_inj in H. subst r. cbn [fst]. apply Forall_map. eapply Forall_impl; [|exact (G _ _ _ C E)].
  intros c K. unfold with_event. destruct (c_event c); exact K.
Qed.
Lemma lookup_clean e n v : clean_event unquote e -> lookup n (attrib e) = Some v -> unicode v /\ one_line_break v /\ unicode (unquote v) /\ one_line_break (unquote v).
Proof.
  unfold clean_event. intros C H. induction C as [|[k w] l K F IH]; cbn [lookup] in H; [discriminate|].
  destruct (text_eqb _ _); [injection H as ->; exact K|apply IH; exact H].
Qed.
Lemma attr_clean e n v : clean_event unquote e -> attr e n = Ok v -> unicode v /\ one_line_break v.
Proof.
  intros C H. unfold attr in H. destruct (lookup n (attrib e)) as [w|] eqn:E; [|discriminate]. apply Ok_inj in H. subst w.
  destruct (lookup_clean e n v C E) as (A & B & _). auto.
Qed.
Lemma draw_sound : sound_handler draw_command.
Proof.
  apply typed_sound. intros e x r C H. destruct (tile_change DRAW_INDICATOR e) as [[p t]|].
  - eapply hand_update_sound. exact H.
  - apply Ok_inj in H. subst. constructor.
Qed.
Lemma discard_sound : sound_handler discard_command.
Proof.
  apply typed_sound. intros e x r C H. destruct (tile_change DISCARD_INDICATOR e) as [[p t]|].
  - peelb H. apply Ok_inj in H. subst r. pose proof (hand_update_sound _ _ _ _ _ E1) as B. cbn [fst]. sound_list. exact B.
  - apply Ok_inj in H. subst. constructor.
Qed.
Lemma oya_sound x i l : set_oya_command_yield x i = Ok l -> Forall sound l.
Proof. unfold set_oya_command_yield. intro H. peelb H. apply Ok_inj in H. subst l. apply Forall_map. apply Forall_forall. intros q _. sound_list. Qed.
Lemma init_player_sound e p x r : init_player e p x = Ok r -> Forall sound (fst r).
Proof. unfold init_player. intro H. peelb H. apply Ok_inj in H. subst r. pose proof (hand_update_sound _ _ _ _ _ E3) as B. cbn [fst]. sound_list. exact B. Qed.
Lemma init_players_sound e ps : forall x r, init_players e ps x = Ok r -> Forall sound (fst r).
Proof.
  induction ps as [|p ps IH]; intros x r H; cbn [init_players] in H.
  - apply Ok_inj in H. subst. constructor.
  - peelb H. apply Ok_inj in H. subst r. cbn [fst]. apply Forall_app. split; [eapply init_player_sound; exact E|eapply IH; exact E0].
Qed.
Lemma init_sound : sound_handler game_init_command.
Proof.
  apply typed_sound. intros e x r C H. peelb H.
  match type of H with (match ?l with _ => _ end) = _ => destruct l as [|prevailing [|game_index [|]]]; try discriminate H end. peelb H. apply Ok_inj in H. subst r.
  match goal with K : init_players _ _ _ = Ok _ |- _ => pose proof (init_players_sound _ _ _ _ K) as B end.
  match goal with K : set_oya_command_yield _ _ = Ok _ |- _ => apply oya_sound in K end.
  cbn [fst]. sound_list; assumption.
Qed.
Lemma open_sound : sound_handler (open_hand set_order).
Proof.
  apply typed_sound. intros e x r C H. peelb H. apply Ok_inj in H. subst r. pose proof (hand_update_sound _ _ _ _ _ E4) as B. cbn [fst].
  pose proof (tile_list_unicode _ _ E3) as U3. sound_list; [|exact B]. match goal with |- context [m_class ?m] => destruct (m_class m) end; sound_list.
Qed.
Lemma tiles_unicode n aka : Forall unicode (initial_tiles n aka).
Proof.
  unfold initial_tiles. destruct (n =? 3), aka; apply Forall_forall; intros s I0; apply ascii_unicode; revert s I0; apply forallb_forall; vm_compute; reflexivity.
Qed.
Lemma py_nth_in {A} (l : list A) i v : py_nth l i = Ok v -> In v l.
Proof. unfold py_nth. intro H. repeat match type of H with (if ?b then _ else _) = _ => destruct b | (match ?m with _ => _ end) = _ => destruct m eqn:? end; try discriminate; apply Ok_inj in H; subst; eapply nth_error_In; eassumption. Qed.
Lemma in_good (l : list text) s : forallb (fun s => ascii s && negb (existsb (fun c => (c =? 13) || (c =? 0)) s)) l = true -> In s l -> unicode s /\ one_line_break s.
Proof.
  intros F I0. rewrite forallb_forall in F. specialize (F s I0). apply andb_true_iff in F. destruct F as [A B]. split; [apply ascii_unicode; exact A|].
  apply negb_true_iff in B. split; intro K; assert (X : existsb (fun c => (c =? 13) || (c =? 0)) s = true) by (apply existsb_exists; eexists; split; [exact K|reflexivity]); congruence.
Qed.
Lemma go_sound : sound_handler game_type_command.
Proof.
  apply typed_sound. intros e x r C H. peelb H. cbv zeta in H. apply Ok_inj in H. subst r. cbn [fst].
  assert (G : unicode [v3] /\ one_line_break [v3]).
  { apply py_nth_in in E3. apply (in_good (map (fun c => [c]) (if with_tips v1 then LEVELS_TIPS else LEVELS))).
    - destruct (with_tips v1); reflexivity.
    - apply in_map_iff. eauto. }
  sound_list.
  - apply sound_str; [auto|apply G|apply G].
  - apply sound_json; [reflexivity|discriminate|]. apply texts_unicode, tiles_unicode.
Qed.
Lemma taikyoku_sound : sound_handler set_oya_command.
Proof. apply typed_sound. intros e x r C H. peelb H. apply Ok_inj in H. subst r. eapply oya_sound. exact E1. Qed.
Lemma mapM_concat_sound {A} (f : A -> res (list command)) l ls : mapM f l = Ok ls -> (forall a r, f a = Ok r -> Forall sound r) -> Forall sound (concat ls).
Proof.
  intros H F. revert ls H. induction l as [|a l IH]; intros ls H; cbn [mapM] in H; [apply Ok_inj in H; subst; constructor|].
  peelb H. apply Ok_inj in H. subst ls. cbn [concat]. apply Forall_app. split; [eapply F; exact E|apply IH; reflexivity].
Qed.
Lemma un_sound : sound_handler (set_player_command unquote).
Proof.
  apply typed_sound. intros e x r C H. peelb H. cbv zeta in H. peelb H. apply Ok_inj in H. subst r. cbn [fst].
  apply (mapM_concat_sound _ _ _ E1). intros p l' H. unfold set_player in H.
  destruct (lookup _ _) as [nm|] eqn:L; [|apply Ok_inj in H; subst; constructor]. destruct (not_blank nm); [|apply Ok_inj in H; subst; constructor].
  destruct (lookup_clean _ _ _ C L) as (_ & _ & U & B).
  peelb H. apply Ok_inj in H. subst l'. sound_list; [| |destruct (has_attr e (t_ "rate")); sound_list].
  - apply sound_str; auto.
  - destruct (has_attr e (t_ "dan")); [|apply Ok_inj in E5; subst; constructor].
    match type of E5 with (match ?n with _ => _ end) = _ => destruct n; [|discriminate E5] end. peelb E5. apply Ok_inj in E5. subst.
    match goal with K : py_nth RANKS _ = Ok _ |- _ => apply py_nth_in in K; apply (in_good RANKS) in K; [|reflexivity]; destruct K end.
    constructor; [|constructor]. apply sound_str; auto.
Qed.
Lemma dora_sound : sound_handler dora_command.
Proof. apply typed_sound. intros e x r C H. peelb H. apply Ok_inj in H. subst r. cbn [fst]. sound_list. Qed.
Lemma reach_sound : sound_handler richii_command.
Proof.
  apply typed_sound. intros e x r C H. peelb H. apply Ok_inj in H. subst r. cbn [fst]. destruct (text_eqb _ _); [sound_list|]. destruct (text_eqb _ _); sound_list.
Qed.
Lemma finish_sound x f p sc y e l : Forall unicode y -> game_finish x f p sc y e = Ok l -> Forall sound l.
Proof.
  unfold game_finish. intros Y H. peelb H. apply Ok_inj in H. subst l. apply Forall_app. split.
  - apply (mapM_concat_sound _ _ _ E0). intros q r H. unfold finish_player in H. peelb H. cbv zeta in H. apply Ok_inj in H. subst r.
    sound_list; [|apply sound_json; [reflexivity|discriminate|]; apply texts_unicode; match goal with |- context [if ?b then _ else _] => destruct b end; [exact Y|constructor]].
    destruct sc; [|apply Ok_inj in E2; subst; constructor]. peelb E2. apply Ok_inj in E2. subst. sound_list.
  - unfold finals_commands in E1. destruct (lookup _ _); [|apply Ok_inj in E1; subst; constructor].
    peelb E1. cbv zeta in E1. peelb E1. apply Ok_inj in E1. subst. apply (mapM_concat_sound _ _ _ E3).
    intros q r H. peelb H. cbv zeta in H. apply Ok_inj in H. subst r. sound_list.
Qed.
Lemma text_remove_in x : forall l r, text_remove l x = Ok r -> Forall unicode l -> Forall unicode r.
Proof.
  induction l as [|y l IH]; intros r H F; cbn [text_remove] in H; [discriminate|]. inversion F; subst. destruct (text_eqb y x).
  - apply Ok_inj in H. subst. assumption.
  - peelb H. apply Ok_inj in H. subst r. constructor; auto.
Qed.
Lemma agari_sound : sound_handler agari_command.
Proof.
  apply typed_sound. intros e x r C H. destruct (logged_win e) as [[]|]; [|discriminate H]. cbn [bindr] in H. peelb H. apply Ok_inj in H. subst r. cbn [fst].
  apply tile_strs_unicode in E7.
  assert (Y : Forall unicode v11).
  { clear -E11. revert v11 E11. induction v10 as [|n l IH]; intros ys K; cbn [mapM] in K; [apply Ok_inj in K; subst; constructor|].
    peelb K. apply Ok_inj in K. subst ys. constructor; [|apply IH; reflexivity]. destruct n; [|discriminate]. apply py_nth_in in E. apply (in_good SCORE_PATTERN); [reflexivity|exact E]. }
  apply (finish_sound _ _ _ _ _ _ _ Y) in E12.
  sound_list; [|assumption]. apply sound_json; [reflexivity|discriminate|]. apply texts_unicode. destruct (v0 =? v2).
  - apply Ok_inj in E8. subst. assumption.
  - peelb E8. eapply text_remove_in; [exact E8|assumption].
Qed.
Lemma shuffle_sound : sound_handler shuffle_command.
Proof.
  apply typed_sound. intros e x r C H. peelb H. apply Ok_inj in H. subst r. cbn [fst]. destruct (attr_clean _ _ _ C E). constructor; [|constructor]. apply sound_str; auto.
Qed.
Lemma bye_sound : sound_handler disconnected_command.
Proof. apply typed_sound. intros e x r C H. peelb H. apply Ok_inj in H. subst r. cbn [fst]. sound_list. Qed.
Lemma lookup_in n (l : list (text * text)) v : lookup n l = Some v -> In v (map snd l).
Proof. induction l as [|[k w] l IH]; cbn [lookup map In]; [discriminate|]. destruct (text_eqb _ _); [intro H; injection H as ->; auto|auto]. Qed.
Lemma nowin_sound : sound_handler no_win_command.
Proof.
  apply typed_sound. intros e x r C H. peelb H. apply Ok_inj in H. subst r. cbn [fst].
  match goal with K : game_finish _ _ _ _ _ _ = Ok _ |- _ => apply finish_sound in K; [|constructor] end. sound_list; [|assumption].
  assert (G : unicode v /\ one_line_break v).
  { destruct (lookup (t_ "type") (attrib e)) as [ty|].
    - destruct (lookup ty DRAWN_TYPES) as [rs|] eqn:L; [|discriminate]. apply Ok_inj in E. subst rs. apply lookup_in in L. apply (in_good (map snd DRAWN_TYPES)); [reflexivity|exact L].
    - apply Ok_inj in E. subst v. apply (in_good [t_ "EXHAUSTED"]); [reflexivity|left; reflexivity]. }
  apply sound_str; [auto|apply G|apply G].
Qed.
Lemma handle_sound : sound_handler (handle unquote set_order).
Proof.
  intros e x r C H. unfold handle in H. destruct (hfind (handlers unquote set_order) (tag e)) as [h|] eqn:F.
  - apply hfind_in in F. cbn [handlers In] in F.
    repeat (destruct F as [F|F]; [injection F as _ <-|]); [| | | | | | | | | | |destruct F]; revert e x r C H;
      [exact init_sound|exact open_sound|exact go_sound|exact taikyoku_sound|exact un_sound|exact dora_sound|exact reach_sound
      |exact agari_sound|exact shuffle_sound|exact bye_sound|exact nowin_sound].
  - unfold default_handle in H. destruct (draw_command e x) as [v|] eqn:D; cbn [bindr] in H; [|discriminate].
    pose proof (draw_sound _ _ _ C D) as B. destruct (fst v) eqn:Q.
    + destruct (discard_command e (snd v)) as [w|] eqn:D2; cbn [bindr] in H; [|discriminate]. apply Ok_inj in H. subst w. eapply discard_sound; eassumption.
    + apply Ok_inj in H. subst v. rewrite Q. exact B.
Qed.
(** The values kept by the interpreter. *)
Definition sound_state (s : istate) : Prop := Forall (fun kv => writable (snd (fst kv)) (snd kv)) s.
Lemma iget_writable s k v : sound_state s -> iget s k = Some v -> writable (snd k) v.
Proof.
  induction 1 as [|[k' w] s K F IH]; cbn [iget]; [discriminate|]. destruct (sub_eqb (fst k') (fst k) && view_eqb (snd k') (snd k)) eqn:E; [|exact IH].
  intro H. injection H as ->. apply andb_true_iff in E. destruct E as [_ E]. unfold view_eqb in E. destruct (view_eq_dec (snd k') (snd k)) as [Q|]; [|discriminate]. rewrite <- Q. exact K.
Qed.
Lemma iput_sound s k v : sound_state s -> writable (snd k) v -> sound_state (iput s k v).
Proof.
  intros F W. induction F as [|[k' w] s K F IH]; cbn [iput]; [constructor; [exact W|constructor]|].
  destruct (sub_eqb (fst k') (fst k) && view_eqb (snd k') (snd k)) eqn:E; constructor; auto. cbn [fst snd]. apply andb_true_iff in E. destruct E as [_ E].
  unfold view_eqb in E. destruct (view_eq_dec (snd k') (snd k)) as [Q|]; [|discriminate]. rewrite Q. exact W.
Qed.
Lemma remove_in x : forall l r, list_remove l x = Ok r -> Forall unicode_value l -> Forall unicode_value r.
Proof.
  induction l as [|y l IH]; intros r H F; cbn [list_remove] in H; [discriminate|]. inversion F; subst. destruct (val_eqb y x).
  - apply Ok_inj in H. subst. assumption.
  - peelb H. apply Ok_inj in H. subst r. constructor; auto.
Qed.
Lemma remove_all_in : forall vs l r, list_remove_all l vs = Ok r -> Forall unicode_value l -> Forall unicode_value r.
Proof.
  induction vs as [|x vs IH]; intros l r H F; cbn [list_remove_all] in H; [apply Ok_inj in H; subst; exact F|]. peelb H. eapply IH; [exact H|]. eapply remove_in; eassumption.
Qed.
Lemma update_unicode p u a b w : prop_call [a; b] p (M_update u) = Ok w -> u = U_ADD \/ u = U_REMOVE -> unicode_value a -> unicode_value b -> unicode_value w.
Proof.
  intros H Hu A B.
  assert (RM : forall w, remove_all a b = Ok w -> unicode_value w).
  { clear w H. intros w H. unfold remove_all in H. destruct a as [| | | |l]; try discriminate. peelb H. apply Ok_inj in H. subst w. inversion A; subst. constructor. eapply remove_all_in; eassumption. }
  assert (RG : forall w, remove_general a b = Ok w -> unicode_value w).
  { clear w H. intros w H. unfold remove_general in H. destruct (as_num a), (as_num b); try discriminate. apply Ok_inj in H. subst w. constructor. }
  assert (AG : forall w, add_general a b = Ok w -> unicode_value w).
  { clear w H. intros w H. unfold add_general in H. destruct a as [|ab|an|s|l], b as [|bb|bn|t|m]; cbn [as_num] in H; try discriminate;
      apply Ok_inj in H; subst w; constructor; inversion A; inversion B; subst; apply Forall_app; split; assumption. }
  destruct Hu as [->| ->].
  - apply AG. rewrite <- H. destruct p; reflexivity.
  - destruct p; first [apply RM; exact H|apply RG; exact H].
Qed.
Lemma interpret_sound s c s' w : sound_state s -> sound c -> interpret s c = Ok (s', w) -> sound_state s' /\ writable (c_prop c) w.
Proof.
  intros F (W & T & _) H. unfold interpret in H. cbv zeta in H. peelb H. apply Ok_inj in H. injection H as -> ->.
  assert (K : writable (c_prop c) v).
  { unfold execute_new_value in E. destruct (c_update c) eqn:U; try discriminate.
    - apply Ok_inj in E. subst v. exact W.
    - split; [|intro TP; destruct (T TP); discriminate]. eapply (update_unicode (c_prop c) U_ADD); [exact E|auto| |apply W].
      destruct (iget s (c_sub c, c_prop c)) eqn:G; cbn [or_none]; [|constructor]. apply (iget_writable _ _ _ F G).
    - split; [|intro TP; destruct (T TP); discriminate]. eapply (update_unicode (c_prop c) U_REMOVE); [exact E|auto| |apply W].
      destruct (iget s (c_sub c, c_prop c)) eqn:G; cbn [or_none]; [|constructor]. apply (iget_writable _ _ _ F G).
    - split; [|intro TP; destruct (T TP); discriminate]. destruct (c_prop c); vm_compute in E; try discriminate; apply Ok_inj in E; subst v; repeat constructor.
    - apply Ok_inj in E. subst v. exact W. }
  split; [|exact K]. apply iput_sound; [exact F|exact K].
Qed.
Lemma states_sound cmds : forall s s', sound_state s -> states_ok s cmds s' -> Forall sound cmds -> sound_state s' /\ Forall (fun c => writable (c_prop c) (c_state c)) cmds.
Proof.
  induction cmds as [|c cmds IH]; intros s s' F H K; inversion H; subst; [split; [exact F|constructor]|]. inversion K; subst.
  match goal with Q : interpret s c = Ok _ |- _ => destruct (interpret_sound _ _ _ _ F ltac:(eassumption) Q) as [A B] end.
  match goal with Q : states_ok _ cmds _ |- _ => destruct (IH _ _ A Q ltac:(assumption)) as [A2 B2] end. split; [exact A2|constructor; assumption].
Qed.
Lemma call_sound strict e i x cmds x' : clean_event unquote e -> call (tenhou_command unquote set_order) strict e i x = Ok (cmds, x') -> Forall sound cmds.
Proof.
  rewrite call_eq. intros C H. peelb H. pose proof (handle_sound _ _ _ C E) as B. destruct v as [l x1]. cbn [fst snd] in *.
  unfold finish in H. cbn [fst snd] in H. destruct l as [|c0 l0].
  - destruct strict; [discriminate|]. apply Ok_inj in H. injection H as -> ->. constructor.
  - unfold postprocess in H. peelb H. destruct v as [s' cs]. cbn [fst snd] in H. apply Ok_inj in H. injection H as -> ->.
    apply Forall_map. pose proof (with_states_forall sound ltac:(intros c v K; exact K) _ _ _ _ E0 B) as K. eapply Forall_impl; [|exact K]. intros c Q. exact Q.
Qed.
Lemma call_all_sound strict : forall es i x cmds x', Forall (clean_event unquote) es -> call_all (tenhou_command unquote set_order) strict i es x = Ok (cmds, x') -> Forall sound cmds.
Proof.
  induction es as [|e es IH]; intros i x cmds x' C H; cbn [call_all] in H.
  - apply Ok_inj in H. injection H as -> ->. constructor.
  - inversion C; subst. peelb H. destruct v as [l y], v0 as [m z]. cbn [fst snd] in *. apply Ok_inj in H. injection H as -> ->. apply Forall_app. split; [eapply call_sound; eassumption|eapply IH; eassumption].
Qed.
Theorem converted_filed strict events cmds : Forall (clean_event unquote) events -> Z.of_nat (length events) <= 2 ^ 63 ->
  to_commands (tenhou_command unquote set_order) strict events = Ok cmds -> Forall seats_only cmds -> Forall filed cmds.
Proof.
  intros C L H Se. pose proof (C48_times _ _ _ _ _ H) as [Tm _]. unfold to_commands in H. peelb H. destruct v as [l x]. apply Ok_inj in H. cbn [fst] in H. subst l.
  destruct (call_all_facts _ _ _ _ _ _ _ _ E) as [A B]. pose proof (call_all_sound _ _ _ _ _ _ C E) as G.
  destruct (states_sound _ _ _ (Forall_nil _) A G) as [_ K]. rewrite Forall_forall in *. intros c I0. split; [apply (G c I0)|]. split; [apply (K c I0)|]. split.
  - destruct (B c I0) as [S0 _]. destruct (scope_of (c_prop c)); [left; exact S0| |left; exact S0]. destruct S0 as [i S0]. right. exists i. split; [exact (Se c I0 i S0)|exact S0].
  - destruct (Tm c I0) as (t & T & R & _). exists t. split; [exact T|]. lia.
Qed.
End Sound.
