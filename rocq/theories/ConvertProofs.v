(** The translation of a proper log goes through: no handler fails, no command fails. *)
From Verif Require Import Base Category Tile Parse Text Tenhou TenhouProofs Spec_Tile Spec_Meld MeldProofs Prop_Meld Event Const Reader State Spec_Log StateProofs Prop_State Value Universe Translator TenhouCommands
  Transfer Spec_Transfer Spec_Universe UniverseProofs Prop_Executor CommandProofs Prop_Commands Spec_Play CommandState CommandPlay PlaySteps PlayProofs Prop_Play Prop_Hand Spec_Score FinishProofs Prop_Score
  Prop_Meld Spec_Header Prop_Header Prop_Reader Spec_Read Prop_Read Spec_Convert.
From Coq Require Import String List ZArith Lia Bool Permutation.
Import ListNotations.
Open Scope list_scope.
Open Scope Z_scope.

(** ** Commands that go through *)
Definition goes (s : istate) (l : list command) : Prop := exists r, with_states s l = Ok r.
Definition always (l : list command) : Prop := forall s, goes s l.

Lemma goes_by_deeds : forall l s, (forall k, exists o, run_deeds (snd k) (iget s k) (deeds k l) = Ok o) -> goes s l.
Proof.
  induction l as [|c l IH]; intros s H; [eexists; reflexivity|].
  pose proof (H (c_sub c, c_prop c)) as H0. rewrite deeds_cons in H0. unfold deeds at 1 in H0. cbn [filter fst snd] in H0. unfold about in H0. cbn [fst snd] in H0.
  assert (R1 : sub_eqb (c_sub c) (c_sub c) && view_eqb (c_prop c) (c_prop c) = true) by (apply (proj2 (ikey_eqb_iff (c_sub c, c_prop c) (c_sub c, c_prop c))); reflexivity).
  rewrite R1 in H0. cbn [map app run_deeds] in H0. destruct H0 as [o H0].
  destruct (execute_new_value (mkCmd (c_prop c) (c_update c) sub_all (c_value c) None VNone None) (or_none (iget s (c_sub c, c_prop c)))) as [v|] eqn:E; [|discriminate]. cbn [bindr] in H0.
  assert (E' : execute_new_value c (or_none (iget s (c_sub c, c_prop c))) = Ok v) by exact E.
  destruct (IH (iput s (c_sub c, c_prop c) v)) as [r R].
  - intros k. destruct (H k) as [o' H']. rewrite deeds_cons in H'. unfold deeds at 1 in H'. cbn [filter] in H'. rewrite iget_iput. unfold about in H'. cbn [fst snd] in *.
    destruct (sub_eqb (c_sub c) (fst k) && view_eqb (c_prop c) (snd k)) eqn:Q; cbn [map app] in H'.
    + assert (K : (c_sub c, c_prop c) = k) by (apply ikey_eqb_iff; exact Q). subst k. cbn [snd run_deeds] in *. rewrite E in H'. cbn [bindr] in H'. eauto.
    + eauto.
  - eexists. cbn [with_states]. unfold interpret. rewrite E'. cbn [bindr fst snd]. rewrite R. cbn [bindr]. reflexivity.
Qed.
Lemma with_states_app : forall a b s, with_states s (a ++ b) = do x <- with_states s a; do y <- with_states (fst x) b; Ok (fst y, snd x ++ snd y).
Proof.
  induction a as [|c a IH]; intros b s; cbn [app with_states bindr fst snd].
  - destruct (with_states s b) as [[s' l]|]; reflexivity.
  - destruct (interpret s c) as [i|]; cbn [bindr]; [|reflexivity]. rewrite IH. destruct (with_states (fst i) a) as [x|]; cbn [bindr fst snd]; [|reflexivity].
    destruct (with_states (fst x) b) as [y|]; reflexivity.
Qed.
Lemma goes_app s a b : goes s a -> always b -> goes s (a ++ b).
Proof. intros [x X] B. destruct (B (fst x)) as [y Y]. unfold goes. rewrite with_states_app, X. cbn [bindr]. rewrite Y. cbn [bindr]. eauto. Qed.
Lemma always_nil : always []. Proof. intro s. eexists. reflexivity. Qed.
Lemma always_app a b : always a -> always b -> always (a ++ b).
Proof. intros A B s. apply goes_app; auto. Qed.
Lemma always_concat ls : Forall always ls -> always (concat ls).
Proof. induction 1; [apply always_nil|]. cbn [concat]. now apply always_app. Qed.
(** Commands that set their property whatever it was. *)
Definition sets (c : command) : Prop :=
  c_update c = U_REPLACE \/ c_update c = U_ASSERT_EQUAL_OR_SET \/
  (c_update c = U_RESET_DEFAULT /\ exists v, prop_call [] (c_prop c) M_default_value = Ok v).
Lemma sets_always l : Forall sets l -> always l.
Proof.
  induction 1 as [|c l S0 F IH]; [apply always_nil|]. intro s.
  assert (E : exists v, execute_new_value c (or_none (iget s (c_sub c, c_prop c))) = Ok v).
  { unfold execute_new_value. destruct S0 as [->|[->|[-> [v V]]]]; eauto. }
  destruct E as [v E]. destruct (IH (iput s (c_sub c, c_prop c) v)) as [r R]. eexists. cbn [with_states]. unfold interpret. rewrite E. cbn [bindr fst snd]. rewrite R. reflexivity.
Qed.
Lemma typed_states t : forall l s r, with_states s l = Ok r -> exists r', with_states s (map (fun c => with_event c t) l) = Ok r'.
Proof.
  induction l as [|c l IH]; intros s r H; cbn [with_states map] in *; [eauto|]. peelb H.
  assert (E' : interpret s (with_event c t) = interpret s c) by (unfold with_event; destruct (c_event c); reflexivity).
  rewrite E', E. cbn [bindr]. destruct (IH _ _ E0) as [r' ->]. cbn [bindr]. eauto.
Qed.
Lemma goes_typed s t l : goes s l -> goes s (map (fun c => with_event c t) l).
Proof. intros [r H]. exact (typed_states t l s r H). Qed.

(** ** Numbers and indices *)
Lemma numbers_read k s : at_least k s -> exists l, number_list s = Ok l /\ k <= Z.of_nat (length l) /\ l <> [].
Proof.
  intros (l & N & K & F & ->). unfold number_list. change (t_ ",") with [44]. rewrite split_join; [|exact N|eapply Forall_impl; [|exact F]; apply number_no_comma].
  assert (G : exists ns, mapM py_number l = Ok ns /\ length ns = length l).
  { clear N K. induction F as [|x l X F IH]; cbn [mapM]; [exists []; auto|]. destruct (number_text_reads _ X) as [n ->]. destruct IH as [ns [-> L]]. cbn [bindr length]. eexists. split; [reflexivity|]. cbn. congruence. }
  destruct G as [ns [E L]]. exists ns. split; [exact E|]. split; [lia|]. intros ->. destruct l; [congruence|discriminate].
Qed.
Lemma py_nth_ok {A} (l : list A) i : 0 <= i < Z.of_nat (length l) -> exists a, py_nth l i = Ok a.
Proof.
  intro H. destruct (nth_error l (Z.to_nat i)) as [a|] eqn:E; [|apply nth_error_None in E; lia]. exists a. apply py_nth_some; [lia|exact E].
Qed.
Lemma every_length {A} : forall (l : list A) k, 2 * k <= Z.of_nat (length l) -> k <= Z.of_nat (length (every_other l)) /\ k <= Z.of_nat (length (every_other (tl l))).
Proof.
  intros l k H. destruct (Z_le_dec k 0) as [K|K]; [lia|]. split.
  - destruct (nth_error (every_other l) (Z.to_nat (k - 1))) as [a|] eqn:E.
    + assert (L : (Z.to_nat (k - 1) < length (every_other l))%nat) by (apply nth_error_Some; congruence). lia.
    + rewrite every_other_nth in E. apply nth_error_None in E. lia.
  - destruct (nth_error (every_other (tl l)) (Z.to_nat (k - 1))) as [a|] eqn:E.
    + assert (L : (Z.to_nat (k - 1) < length (every_other (tl l)))%nat) by (apply nth_error_Some; congruence). lia.
    + rewrite every_other_nth, tl_nth in E. apply nth_error_None in E. lia.
Qed.
Lemma mapM_all {A B} (f : A -> res B) (P : B -> Prop) l : (forall a, In a l -> exists b, f a = Ok b /\ P b) -> exists bs, mapM f l = Ok bs /\ Forall P bs.
Proof.
  induction l as [|a l IH]; intro H; cbn [mapM]; [exists []; auto|]. destruct (H a (or_introl eq_refl)) as [b [-> B0]].
  destruct IH as [bs [-> F]]; [intros x I0; apply H; now right|]. cbn [bindr]. eexists. split; [reflexivity|]. now constructor.
Qed.
Lemma insert_rank_perm a l : Permutation (insert_rank a l) (a :: l).
Proof.
  induction l as [|b l IH]; [apply Permutation_refl|]. cbn [insert_rank]. destruct (rank_leb a b); [apply Permutation_refl|].
  eapply Permutation_trans; [apply perm_skip, IH|apply perm_swap].
Qed.
Lemma sort_ranks_perm l : Permutation (sort_ranks l) l.
Proof.
  unfold sort_ranks. induction l as [|a l IH]; [constructor|]. cbn [fold_right]. eapply Permutation_trans; [apply insert_rank_perm|]. now apply perm_skip.
Qed.
Lemma zget_some {A} (m : list (Z * A)) k : In k (map fst m) -> exists v, zget m k = Ok v.
Proof.
  induction m as [|[k' v'] m IH]; intro I0; [destruct I0|]. cbn [zget]. destruct (k' =? k) eqn:E; [eauto|].
  apply IH. destruct I0 as [I0|I0]; [cbn in I0; subst; rewrite Z.eqb_refl in E; discriminate|exact I0].
Qed.
Lemma ranked n scores p : 0 <= p < n -> n <= Z.of_nat (length scores) -> exists r, zget (player_rank_map n scores) p = Ok r.
Proof.
  intros P L. apply zget_some. unfold player_rank_map. cbv zeta. rewrite map_map. cbn [fst].
  rewrite <- (map_map snd snd), enumerate_snd.
  eapply Permutation_in; [apply Permutation_sym, Permutation_map, sort_ranks_perm|]. rewrite map_map. cbn [snd].
  rewrite enumerate_fst. apply in_map_iff. exists (Z.to_nat p). split; [lia|]. apply in_seq. rewrite firstn_length. lia.
Qed.

(** ** The end of a deal *)
Lemma score_pair_always p a b r : always r -> always (cmd PV_score U_ASSERT_EQUAL_OR_SET (SId p) (VNum a) None :: cmd PV_score U_ADD (SId p) (VNum b) None :: r).
Proof.
  intros R s. destruct (R (iput (iput s (SId p, PV_score) (VNum a)) (SId p, PV_score) (VNum (num_add a b)))) as [x X].
  eexists. cbn [with_states]. unfold interpret at 1. cbn [cmd c_sub c_prop]. unfold execute_new_value at 1. cbn [cmd c_update c_value bindr fst snd].
  unfold interpret. cbn [cmd c_sub c_prop]. rewrite iget_iput. cbn [fst snd]. replace (sub_eqb (SId p) (SId p)) with true by (symmetry; apply Z.eqb_refl).
  change (view_eqb PV_score PV_score) with true. cbn [andb or_none].
  change (execute_new_value (cmd PV_score U_ADD (SId p) (VNum b) None) (VNum a)) with (@Ok val (VNum (num_add a b))). cbn [bindr fst snd]. rewrite X. reflexivity.
Qed.
Ltac sets_all := repeat match goal with
  | |- Forall _ (_ ++ _) => apply Forall_app; split
  | |- Forall _ (_ :: _) => constructor
  | |- Forall _ [] => constructor
  end; try (left; reflexivity); try (right; left; reflexivity); try (right; right; split; [reflexivity|eexists; reflexivity]).

Lemma finish_player_ok n sc f w y p : 0 <= p < n -> (forall l, sc = Some l -> 2 * n <= Z.of_nat (length l)) ->
  exists l, finish_player sc f w y p = Ok l /\ always l.
Proof.
  intros P S0. unfold finish_player. destruct sc as [l|].
  - destruct (every_length l n (S0 l eq_refl)) as [A B].
    destruct (py_nth_ok (every_other l) p ltac:(lia)) as [a ->]. destruct (py_nth_ok (every_other (tl l)) p ltac:(lia)) as [b ->]. cbn [bindr].
    eexists. split; [reflexivity|]. cbn [app]. apply score_pair_always. apply sets_always. sets_all.
  - cbn [bindr]. eexists. split; [reflexivity|]. apply sets_always. cbn [app]. sets_all.
Qed.
Lemma finals_ok e n : 0 <= n -> (forall s, holds e (t_ "owari") s -> at_least (2 * n) s) -> exists l, finals_commands e n = Ok l /\ always l.
Proof.
  intros N H. unfold finals_commands. destruct (lookup (t_ "owari") (attrib e)) as [o|] eqn:E; [|eexists; split; [reflexivity|apply always_nil]].
  destruct (numbers_read _ _ (H o E)) as [fl [-> [L _]]]. cbn [bindr]. cbv zeta. destruct (every_length fl n L) as [A B].
  assert (LS : n <= Z.of_nat (length (final_scores fl))) by (unfold final_scores; rewrite map_length; exact A).
  match goal with |- context [mapM ?f _] => destruct (mapM_all f always (zrange 0 n)) as [ls [-> F]] end.
  - intros p I0. apply in_zrange in I0. destruct (py_nth_ok (final_scores fl) p ltac:(lia)) as [a ->]. destruct (py_nth_ok (every_other (tl fl)) p ltac:(lia)) as [b ->].
    destruct (ranked n (final_scores fl) p I0 LS) as [r ->]. cbn [bindr]. eexists. split; [reflexivity|]. apply sets_always. sets_all.
  - cbn [bindr]. eexists. split; [reflexivity|]. now apply always_concat.
Qed.
Lemma game_finish_ok x f w sc y e n : ctx_player_count x = Ok n -> 0 <= n -> (forall l, sc = Some l -> 2 * n <= Z.of_nat (length l)) ->
  (forall s, holds e (t_ "owari") s -> at_least (2 * n) s) -> exists l, game_finish x f w sc y e = Ok l /\ always l.
Proof.
  intros C N S0 O. unfold game_finish. rewrite C. cbn [bindr].
  destruct (mapM_all (finish_player sc f w y) always (zrange 0 n)) as [ps [-> F]].
  - intros p I0. apply in_zrange in I0. apply (finish_player_ok n); assumption.
  - cbn [bindr]. destruct (finals_ok e n N O) as [fs [-> G]]. cbn [bindr]. eexists. split; [reflexivity|]. apply always_app; [now apply always_concat|exact G].
Qed.

Section Handlers.
Context (unquote : text -> text) (so : list Z -> list Z) (SO : forall l, Permutation (so l) l).
Local Notation tr := (tenhou_command unquote so).
Local Notation handle := (handle unquote so).

(** The handler of the event succeeds, and so do its commands. *)
Definition handled (e : event) (x : ctx) : Prop :=
  exists raw x1, handle e x = Ok (raw, x1) /\ goes (x_vals x) raw /\ (known e -> raw <> []).
Lemma handled_call strict e i x : handled e x -> (strict = true -> known e) -> exists r, call tr strict e i x = Ok r.
Proof.
  intros [raw [x1 [H [[r R] N]]]] K. rewrite call_eq, H. cbn [bindr]. destruct (handle_good unquote so _ _ _ H) as [[A _] _]. cbn [fst snd] in A.
  unfold finish. cbn [fst snd]. destruct raw as [|c l].
  - destruct strict; [exfalso; apply N; [apply K; reflexivity|reflexivity]|eauto].
  - unfold postprocess. rewrite A, R. cbn [bindr]. eauto.
Qed.
Lemma handled_typed name h t (g : handler) e x l x1 : tag e = name -> hfind (handlers unquote so) name = Some h -> h = default_event_type t g ->
  g e x = Ok (l, x1) -> goes (x_vals x) l -> (known e -> l <> []) -> handled e x.
Proof.
  intros T F -> G L N. exists (map (fun c => with_event c t) l), x1. unfold CommandProofs.handle. rewrite T, F. unfold default_event_type. rewrite G. cbn [bindr fst snd].
  split; [reflexivity|]. split; [now apply goes_typed|]. intros K E. apply N in K. destruct l; [congruence|discriminate].
Qed.
Lemma get_attr e name s : holds e name s -> attr e name = Ok s.
Proof. apply holds_attr. Qed.

Lemma go_handled n w e x : tag e = t_ "GO" -> complete n w e -> handled e x.
Proof.
  intros T (C & _). destruct (C T) as (v & R & Hv & _). destruct (C28_flags v R) as [g [G [F1 [F2 [F3 [F4 [F5 [F6 [F7 [F8 _]]]]]]]]]].
  pose proof (field_bounds v 5 1 ltac:(lia)) as B5. pose proof (field_bounds v 7 1 ltac:(lia)) as B7. change (2 ^ 1) with 2 in *.
  destruct (level_at (2 * field v 5 1 + field v 7 1) (flag v 9) ltac:(lia)) as [c0 [L1 L2]].
  assert (I0 : exists c, new_subcat [play_wind_count g + 1; 4] = Ok c) by (unfold play_wind_count; destruct (gt_flag _ _); eexists; reflexivity). destruct I0 as [c I0].
  eapply (handled_typed (t_ "GO")); [exact T|reflexivity|reflexivity| | |].
  - cbv beta. rewrite (get_attr _ _ _ Hv). cbn [bindr]. rewrite py_int_str. cbn [bindr]. rewrite G. cbn [bindr]. rewrite I0. cbn [bindr]. rewrite F8, F5, L1. cbn [bindr]. reflexivity.
  - apply sets_always. sets_all.
  - discriminate.
Qed.
Lemma shuffle_handled n w e x : tag e = t_ "SHUFFLE" -> complete n w e -> handled e x.
Proof.
  intros T (_ & C & _). destruct (C T) as (s & Hs). eapply (handled_typed (t_ "SHUFFLE")); [exact T|reflexivity|reflexivity| | |].
  - cbv beta. rewrite (get_attr _ _ _ Hs). reflexivity.
  - apply sets_always. sets_all.
  - discriminate.
Qed.
Lemma oya_ok x n o : ctx_player_count x = Ok n -> 0 < n -> exists l, set_oya_command_yield x o = Ok l /\ always l /\ l <> [].
Proof.
  intros C N. unfold set_oya_command_yield. rewrite C. cbn [bindr]. eexists. split; [reflexivity|]. split.
  - apply sets_always. apply Forall_map. apply Forall_forall. intros q _. left. reflexivity.
  - intro E. apply map_eq_nil in E. assert (I0 : In 0 (zrange 0 n)) by (apply in_zrange; lia). rewrite E in I0. destruct I0.
Qed.
Lemma taikyoku_handled n w e x : tag e = t_ "TAIKYOKU" -> complete n w e -> ctx_player_count x = Ok n -> 0 < n -> handled e x.
Proof.
  intros T (_ & _ & C & _) PC N. destruct (C T) as (o & Ho). destruct (oya_ok x n o PC N) as [l [L [A Ne]]].
  eapply (handled_typed (t_ "TAIKYOKU")); [exact T|reflexivity|reflexivity| | |].
  - cbv beta. rewrite (get_attr _ _ _ Ho). cbn [bindr]. rewrite py_int_str. cbn [bindr]. rewrite L. reflexivity.
  - apply A.
  - intros _. exact Ne.
Qed.
Lemma bye_handled n w e x : tag e = t_ "BYE" -> complete n w e -> handled e x.
Proof.
  intros T (_ & _ & _ & _ & _ & _ & C & _). destruct (C T) as (p & Hp). eapply (handled_typed (t_ "BYE")); [exact T|reflexivity|reflexivity| | |].
  - cbv beta. rewrite (get_attr _ _ _ Hp). cbn [bindr]. rewrite py_int_str. reflexivity.
  - apply sets_always. sets_all.
  - discriminate.
Qed.
Lemma reach_handled n w e x : tag e = t_ "REACH" -> complete n w e -> (forall p, 0 <= p < n -> exists a, val_at x (SId p) PV_score = Some (VNum a)) -> handled e x.
Proof.
  intros T (_ & _ & _ & _ & _ & C & _) Sc. destruct (C T) as (p & P & Hp & (s & Hs)). eapply (handled_typed (t_ "REACH")); [exact T|reflexivity|reflexivity| | |].
  - cbv beta. rewrite (get_attr _ _ _ Hp). cbn [bindr]. rewrite py_int_str. cbn [bindr]. rewrite (get_attr _ _ _ Hs). reflexivity.
  - destruct (text_eqb s (t_ "1")); [apply sets_always; sets_all|]. destruct (text_eqb s (t_ "2")); [|apply always_nil].
    destruct (Sc p P) as [a A]. unfold val_at in A. eexists. cbn [with_states]. unfold interpret. cbn [cmd c_sub c_prop]. rewrite A. cbn [or_none].
    change (execute_new_value (cmd PV_score U_REMOVE (SId p) (VInt 1000) None) (VNum a)) with (@Ok val (VNum (num_sub a (NInt 1000)))). reflexivity.
  - intros K. destruct (text_eqb s (t_ "1")) eqn:E1; [discriminate|]. destruct (text_eqb s (t_ "2")) eqn:E2; [discriminate|]. exfalso. unfold known in K.
    rewrite T in K. destruct K as [(l & c & r & E & A & B)|[K|[[K _]|[_ K]]]].
    + vm_compute in E. injection E as <- <- <-. lia.
    + cbn in K. repeat (destruct K as [K|K]; [discriminate K|]). destruct K.
    + discriminate K.
    + unfold holds in *. destruct K as [K|K]; rewrite K in Hs; injection Hs as <-; rewrite text_eqb_refl in *; discriminate.
Qed.
(** ** Players *)
Lemma default_list name e : match lookup name (attrib e) with Some v => get_list_attr name e = v | None => get_list_attr name e = t_ "-127,-127,-127,-127" end.
Proof. unfold get_list_attr. destruct (lookup name (attrib e)); reflexivity. Qed.
Lemma set_player_ok e dan rate sex p : 0 <= p < 4 -> 4 <= Z.of_nat (length dan) -> 4 <= Z.of_nat (length rate) -> 4 <= Z.of_nat (length sex) ->
  (has_attr e (t_ "dan") = true -> exists l, dan = map NInt l /\ Forall (fun i => 0 <= i <= 20) l) ->
  exists l, set_player unquote e dan rate sex p = Ok l /\ always l /\ (announced p e -> l <> []).
Proof.
  intros P D R S0 G. unfold set_player. 
  destruct (lookup (t_ "n" ++ str_int p) (attrib e)) as [name|] eqn:E.
  2: { eexists. split; [reflexivity|]. split; [apply always_nil|]. intros [s (_ & H & _)]. unfold holds in H. congruence. }
  destruct (not_blank name) eqn:B.
  2: { eexists. split; [reflexivity|]. split; [apply always_nil|]. intros [s (_ & H & c & Ic & Nc)] _. unfold holds in H. assert (s = name) by congruence. subst s.
       apply not_true_iff_false in B. apply B. apply not_blank_iff. eauto. }
  destruct (py_nth_ok dan p ltac:(lia)) as [lv Lv]. rewrite Lv. destruct (py_nth_ok rate p ltac:(lia)) as [r ->]. destruct (py_nth_ok sex p ltac:(lia)) as [sx ->]. cbn [bindr].
  assert (LV : exists l, (if has_attr e (t_ "dan") then
                  match lv with
                  | NInt i => do s <- py_nth RANKS i; Ok [cmd PV_level U_REPLACE (SId p) (VStr s) None]
                  | NDec _ _ => Err TypeError
                  end
                else Ok []) = Ok l /\ Forall sets l).
  { destruct (has_attr e (t_ "dan")); [|exists []; auto]. destruct (G eq_refl) as [l [-> F]]. apply py_nth_some in Lv; [|lia]. rewrite nth_error_map in Lv.
    destruct (nth_error l (Z.to_nat p)) as [i|] eqn:Ei; [|discriminate]. injection Lv as <-. rewrite Forall_forall in F. apply nth_error_In in Ei. specialize (F i Ei). cbv beta in F.
    destruct (py_nth_ok RANKS i ltac:(change (Z.of_nat (length RANKS)) with 21; lia)) as [t ->]. cbn [bindr]. eexists. split; [reflexivity|]. sets_all. }
  destruct LV as [l [-> F]]. cbn [bindr]. eexists. split; [reflexivity|]. split; [|discriminate]. apply sets_always. cbn [app]. sets_all; [exact F|]. destruct (has_attr e (t_ "rate")); sets_all.
Qed.
Lemma un_handled n w e x : tag e = t_ "UN" -> complete n w e -> handled e x.
Proof.
  intros T (_ & _ & _ & C & _). destruct (C T) as (Cd & Cr & Cs). clear C.
  assert (D0 : at_least 4 (t_ "-127,-127,-127,-127")).
  { exists (map str_int [-127; -127; -127; -127]). split; [discriminate|]. split; [cbn; lia|]. split; [|reflexivity]. apply Forall_map. apply Forall_forall. intros z _. left. eauto. }
  assert (Dan : exists dan, number_list (get_list_attr (t_ "dan") e) = Ok dan /\ 4 <= Z.of_nat (length dan) /\ (has_attr e (t_ "dan") = true -> exists l, dan = map NInt l /\ Forall (fun i => 0 <= i <= 20) l)).
  { pose proof (default_list (t_ "dan") e) as Q. unfold has_attr. destruct (lookup (t_ "dan") (attrib e)) as [d|] eqn:E; rewrite Q.
    - destruct (Cd d E) as [l [L [F ->]]]. exists (map NInt l). rewrite number_list_comma by (intros ->; cbn in L; lia). split; [reflexivity|]. rewrite map_length. eauto.
    - destruct (numbers_read _ _ D0) as [l [L1 [L2 _]]]. exists l. split; [exact L1|]. split; [exact L2|discriminate]. }
  assert (Rate : exists rate, number_list (get_list_attr (t_ "rate") e) = Ok rate /\ 4 <= Z.of_nat (length rate)).
  { pose proof (default_list (t_ "rate") e) as Q. destruct (lookup (t_ "rate") (attrib e)) as [d|] eqn:E; rewrite Q.
    - destruct (numbers_read _ _ (Cr d E)) as [l [L1 [L2 _]]]. eauto.
    - destruct (numbers_read _ _ D0) as [l [L1 [L2 _]]]. eauto. }
  assert (Sex : 4 <= Z.of_nat (length (split_on 44 (get_list_attr (t_ "sx") e)))).
  { pose proof (default_list (t_ "sx") e) as Q. destruct (lookup (t_ "sx") (attrib e)) as [d|] eqn:E; rewrite Q.
    - destruct (Cs d E) as [l [L [F ->]]]. change (t_ ",") with [44]. rewrite split_join; [exact L|intros ->; cbn in L; lia|exact F].
    - vm_compute. discriminate. }
  destruct Dan as [dan [E1 [L1 G]]], Rate as [rate [E2 L2]].
  assert (M : exists ls, mapM (set_player unquote e dan rate (split_on 44 (get_list_attr (t_ "sx") e))) [0; 1; 2; 3] = Ok ls /\ Forall always ls /\
     ((exists p, seat p /\ announced p e) -> concat ls <> [])).
  { destruct (set_player_ok e dan rate (split_on 44 (get_list_attr (t_ "sx") e)) 0 ltac:(lia) L1 L2 Sex G) as [l0 [H0 [A0 N0]]].
    destruct (set_player_ok e dan rate (split_on 44 (get_list_attr (t_ "sx") e)) 1 ltac:(lia) L1 L2 Sex G) as [l1 [H1 [A1 N1]]].
    destruct (set_player_ok e dan rate (split_on 44 (get_list_attr (t_ "sx") e)) 2 ltac:(lia) L1 L2 Sex G) as [l2 [H2 [A2 N2]]].
    destruct (set_player_ok e dan rate (split_on 44 (get_list_attr (t_ "sx") e)) 3 ltac:(lia) L1 L2 Sex G) as [l3 [H3 [A3 N3]]].
    exists [l0; l1; l2; l3]. cbn [mapM]. rewrite H0, H1, H2, H3. cbn [bindr]. split; [reflexivity|]. split; [repeat (constructor; [assumption|]); constructor|].
    intros [p [P An]] K. cbn [concat] in K. rewrite app_nil_r in K. apply app_eq_nil in K. destruct K as [K0 K]. apply app_eq_nil in K. destruct K as [K1 K]. apply app_eq_nil in K. destruct K as [K2 K3].
    destruct (seat_cases p P) as [->|[->|[->| ->]]]; [apply (N0 An K0)|apply (N1 An K1)|apply (N2 An K2)|apply (N3 An K3)]. }
  destruct M as [ls [M [F N]]]. eapply (handled_typed (t_ "UN")); [exact T|reflexivity|reflexivity| | |].
  - cbv beta. rewrite E1. cbn [bindr]. rewrite E2. cbn [bindr]. cbv zeta. rewrite M. reflexivity.
  - now apply always_concat.
  - intros K. apply N. unfold known in K. rewrite T in K. destruct K as [(l & c & r & E & A & B)|[K|[[_ K]|[K _]]]].
    + vm_compute in E. injection E as <- <- <-. lia.
    + cbn in K. repeat (destruct K as [K|K]; [discriminate K|]). destruct K.
    + exact K.
    + discriminate K.
Qed.
(** ** The end of a deal *)
Lemma text_remove_ok x : forall l, In x l -> exists r, text_remove l x = Ok r.
Proof.
  induction l as [|y l IH]; intros []; cbn [text_remove].
  - subst y. rewrite text_eqb_refl. eauto.
  - destruct (text_eqb y x); [eauto|]. destruct (IH H) as [r ->]. cbn [bindr]. eauto.
Qed.
Lemma tile_strs_one t : valid_tile t -> tile_strs [t] = Ok [ptext t].
Proof. intro V. apply (tile_strs_valid [t]). constructor; [exact V|constructor]. Qed.
Lemma agari_handled n w e x : tag e = t_ "AGARI" -> complete n w e -> ctx_player_count x = Ok n -> 0 <= n -> handled e x.
Proof.
  intros T (_ & _ & _ & _ & _ & _ & _ & C & _ & Ow) PC N.
  destruct (C T) as (p & from & hai & sc & yaku & Hp & Hf & Ne & V & Hh & Alt & Hs & Ls & Hy & (ys & Yn & Yf & ->) & ten & Ht & Lt). clear C.
  assert (Lg : logged_win e = Ok tt).
  { unfold logged_win. rewrite (get_attr _ _ _ Hp). cbn [bindr]. rewrite (get_attr _ _ _ Hf). cbn [bindr]. rewrite (get_attr _ _ _ Ht). cbn [bindr].
    destruct (numbers_read _ _ Lt) as [tl' [Et [Lt' _]]]. rewrite Et. cbn [bindr]. destruct (py_nth_ok tl' 1 ltac:(lia)) as [z ->]. reflexivity. }
  destruct (numbers_read _ _ Ls) as [scl [Es [Ll _]]].
  assert (Ex : exists h, (if p =? from then Ok (map ptext hai)
                       else do m <- attr e (t_ "machi"); do ml <- int_list m; do ms <- tile_strs ml;
                            do m0 <- py_nth ms 0; text_remove (map ptext hai) m0) = Ok h).
  { destruct (p =? from) eqn:Q; [eauto|]. destruct Alt as [->|[m [Im Hm]]]; [rewrite Z.eqb_refl in Q; discriminate|].
    rewrite (get_attr _ _ _ Hm). cbn [bindr]. change (str_int m) with (comma_list [m]). rewrite int_list_comma by discriminate. cbn [bindr].
    rewrite Forall_forall in V. rewrite tile_strs_one by (apply V; exact Im). cbn [bindr]. change (py_nth [ptext m] 0) with (@Ok text (ptext m)). cbn [bindr].
    apply text_remove_ok. apply in_map. exact Im. }
  destruct Ex as [expected Ex].
  assert (Yt : (match lookup (t_ "yaku") (attrib e) with
                   | Some y => Ok y
                   | None => match lookup (t_ "yakuman") (attrib e) with Some y => Ok y | None => Err AttributeError end
                   end) = Ok (comma_list ys)).
  { unfold holds in Hy. destruct Hy as [-> |[-> ->]]; reflexivity. }
  destruct (mapM_all (fun t => match t with NInt i => py_nth SCORE_PATTERN i | NDec _ _ => Err TypeError end) (fun _ => True) (map NInt ys)) as [yk [Ey _]].
  { intros a I0. apply in_map_iff in I0. destruct I0 as [i [<- I0]]. rewrite Forall_forall in Yf. specialize (Yf i I0). cbv beta in Yf.
    destruct (py_nth_ok SCORE_PATTERN i ltac:(change (Z.of_nat (length SCORE_PATTERN)) with 55; lia)) as [t ->]. eauto. }
  destruct (game_finish_ok x (Some from) (Some p) (Some scl) yk e n PC N) as [l [L A]].
  { intros l Q. injection Q as <-. exact Ll. }
  { intros s Hs'. apply Ow; [left; exact T|exact Hs']. }
  eapply (handled_typed (t_ "AGARI")); [exact T|reflexivity|reflexivity| | |].
  - cbv beta. rewrite Lg. cbn [bindr]. rewrite (get_attr _ _ _ Hp). cbn [bindr]. rewrite py_int_str. cbn [bindr]. rewrite (get_attr _ _ _ Hf). cbn [bindr]. rewrite py_int_str. cbn [bindr].
    rewrite (get_attr _ _ _ Hs). cbn [bindr]. rewrite Es. cbn [bindr]. rewrite (get_attr _ _ _ Hh). cbn [bindr]. rewrite int_list_comma by exact Ne. cbn [bindr].
    rewrite tile_strs_valid by exact V. cbn [bindr]. rewrite Ex. cbn [bindr]. rewrite Yt. cbn [bindr]. rewrite number_list_comma by exact Yn. cbn [bindr]. rewrite Ey. cbn [bindr]. rewrite L. reflexivity.
  - apply goes_app; [apply sets_always; sets_all|exact A].
  - discriminate.
Qed.
Lemma draw_reason s : In s draw_names -> exists r, lookup s DRAWN_TYPES = Some r.
Proof. unfold draw_names. cbn [map]. intro H. repeat (destruct H as [<-|H]; [eexists; reflexivity|]). destruct H. Qed.
Lemma ryuukyoku_handled n w e x : tag e = t_ "RYUUKYOKU" -> complete n w e -> ctx_player_count x = Ok n -> 0 <= n -> handled e x.
Proof.
  intros T (_ & _ & _ & _ & _ & _ & _ & _ & C & Ow) PC N. destruct (C T) as (Ct & Cs). clear C.
  assert (Re : exists r, (match lookup (t_ "type") (attrib e) with
                | Some t => match lookup t DRAWN_TYPES with Some r => Ok r | None => Err KeyError end
                | None => Ok (t_ "EXHAUSTED")
                end) = Ok r).
  { destruct (lookup (t_ "type") (attrib e)) as [t|] eqn:E; [|eauto]. destruct (draw_reason t (Ct t E)) as [r ->]. eauto. }
  assert (Sc : exists sc, (match lookup (t_ "sc") (attrib e) with Some s => do l <- number_list s; Ok (Some l) | None => Ok None end) = Ok sc /\
     forall l, sc = Some l -> 2 * n <= Z.of_nat (length l)).
  { destruct (lookup (t_ "sc") (attrib e)) as [s|] eqn:E; [|exists None; split; [reflexivity|discriminate]].
    destruct (numbers_read _ _ (Cs s E)) as [l [-> [L _]]]. cbn [bindr]. eexists. split; [reflexivity|]. intros l' Q. injection Q as <-. exact L. }
  destruct Re as [r Re], Sc as [sc [Es Ls]].
  destruct (game_finish_ok x None None sc [] e n PC N Ls) as [l [L A]].
  { intros s Hs'. apply Ow; [right; exact T|exact Hs']. }
  eapply (handled_typed (t_ "RYUUKYOKU")); [exact T|reflexivity|reflexivity| | |].
  - cbv beta. rewrite Re. cbn [bindr]. rewrite Es. cbn [bindr]. rewrite L. reflexivity.
  - apply goes_app; [apply sets_always; sets_all|exact A].
  - discriminate.
Qed.

(** ** The deal *)
Lemma init_player_ok n e p x s hand : 0 <= p < n -> holds e (t_ "ten") s -> at_least n s -> holds e (t_ "hai" ++ str_int p) (comma_list hand) -> hand <> [] -> Forall valid_tile hand ->
  exists r, init_player e p x = Ok r /\ Forall sets (fst r).
Proof.
  intros P Ht L Hh Ne V. unfold init_player. cbv zeta. rewrite (get_attr _ _ _ Ht). cbn [bindr]. destruct (numbers_read _ _ L) as [sc [-> [Ln _]]]. cbn [bindr].
  rewrite (get_attr _ _ _ Hh). cbn [bindr]. rewrite int_list_comma by exact Ne. cbn [bindr]. unfold hand_update. cbn [bindr]. rewrite tile_str_list_valid by exact V. cbn [bindr].
  destruct (py_nth_ok sc p ltac:(lia)) as [a ->]. cbn [bindr]. eexists. split; [reflexivity|]. cbn [fst snd app]. sets_all.
Qed.
Lemma init_players_ok n e s hands : holds e (t_ "ten") s -> at_least n s ->
  (forall p, 0 <= p < n -> holds e (t_ "hai" ++ str_int p) (comma_list (hands p)) /\ hands p <> [] /\ Forall valid_tile (hands p)) ->
  forall ps x, (forall p, In p ps -> 0 <= p < n) -> exists r, init_players e ps x = Ok r /\ Forall sets (fst r).
Proof.
  intros Ht L H. induction ps as [|p ps IH]; intros x Ps; cbn [init_players]; [eexists; split; [reflexivity|constructor]|].
  destruct (H p (Ps p (or_introl eq_refl))) as (H1 & H2 & H3). destruct (init_player_ok n e p x s (hands p) (Ps p (or_introl eq_refl)) Ht L H1 H2 H3) as [a [-> F]]. cbn [bindr].
  destruct (IH (snd a)) as [b [-> G]]; [intros q I0; apply Ps; now right|]. cbn [bindr]. eexists. split; [reflexivity|]. cbn [fst]. apply Forall_app. auto.
Qed.
Lemma rounds w c r : (w = 1 \/ w = 2) -> new_subcat [w + 1; 4] = Ok c -> 0 <= r < 4 * (w + 1) -> exists a b, sub_category c r = Ok [a; b].
Proof.
  intros W E R. assert (G : forallb (fun r => match sub_category c r with Ok [_; _] => true | _ => false end) (zrange 0 (4 * (w + 1))) = true).
  { destruct W as [-> | ->]; apply Ok_inj in E; subst c; vm_compute; reflexivity. }
  rewrite forallb_forall in G. specialize (G r ltac:(apply in_zrange; exact R)). destruct (sub_category c r) as [[|a [|b [|]]]|]; try discriminate. eauto.
Qed.
Lemma init_handled n w d e x c : writes (Deal d) e -> complete n w e -> at_table n (Deal d) -> (forall p, 0 <= p < n -> fair p (in_hand p [] []) (Deal d) e) ->
  0 < n <= 4 -> (w = 1 \/ w = 2) -> ctx_player_count x = Ok n -> x_indexer x = Some c -> new_subcat [w + 1; 4] = Ok c -> handled e x.
Proof.
  intros (T & Ws & Wh) (_ & _ & _ & _ & C & _) [Vd Nh] Fa N W PC IX NC. destruct (C T) as ((r & honba & sticks & more & R & Hs) & (o & Ho) & (s & Ht & Lt)). clear C.
  assert (Q : comma_list (d_round d ++ [d_dora d]) = comma_list (r :: honba :: sticks :: more)) by (unfold holds in *; congruence).
  assert (Q' : map NInt (d_round d ++ [d_dora d]) = map NInt (r :: honba :: sticks :: more)).
  { assert (A : number_list (comma_list (d_round d ++ [d_dora d])) = number_list (comma_list (r :: honba :: sticks :: more))) by now rewrite Q.
    rewrite !number_list_comma in A; [|discriminate|intro K; apply app_eq_nil in K; destruct K; discriminate]. now apply Ok_inj in A. }
  destruct (rounds w c r W NC R) as [a [b SC]].
  destruct (oya_ok x n o PC ltac:(lia)) as [oyas [Oy [Oa _]]].
  destruct (init_players_ok n e s (d_hands d) Ht Lt) with (ps := zrange 0 n) (x := x) as [ps [Ip Fp]].
  { intros p P. split; [apply Wh; lia|]. split; [apply Nh; exact P|]. exact (proj2 (Fa p P)). }
  { intros p I0. now apply in_zrange in I0. }
  eapply (handled_typed (t_ "INIT")); [exact T|reflexivity|reflexivity| | |].
  - cbv beta. rewrite (get_attr _ _ _ Ws). cbn [bindr]. rewrite number_list_comma by (intro K; apply app_eq_nil in K; destruct K; discriminate). cbn [bindr]. rewrite IX. cbn [bindr].
    assert (P1 : py_nth (map NInt (d_round d ++ [d_dora d])) 1 = Ok (NInt honba)) by (rewrite Q'; apply py_nth_some; [lia|reflexivity]).
    assert (P2 : py_nth (map NInt (d_round d ++ [d_dora d])) 2 = Ok (NInt sticks)) by (rewrite Q'; apply py_nth_some; [lia|reflexivity]).
    assert (P0 : py_nth (map NInt (d_round d ++ [d_dora d])) 0 = Ok (NInt r)) by (rewrite Q'; apply py_nth_some; [lia|reflexivity]).
    assert (PL : py_nth (map NInt (d_round d ++ [d_dora d])) (-1) = Ok (NInt (d_dora d))) by (rewrite map_app; apply (py_nth_last (map NInt (d_round d)) (NInt (d_dora d)))).
    rewrite P1, P2, PL, P0. cbn [bindr num_int as_int]. change (num_int (NInt r)) with (@Ok Z r). cbn [bindr]. rewrite SC. cbn [bindr].
    rewrite (get_attr _ _ _ Ho). cbn [bindr]. rewrite py_int_str. cbn [bindr]. rewrite Oy. cbn [bindr]. change (num_int (NInt (d_dora d))) with (@Ok Z (d_dora d)). cbn [bindr].
    rewrite tile_str_list_valid by (constructor; [exact Vd|constructor]). cbn [bindr]. rewrite PC. cbn [bindr]. rewrite Ip. reflexivity.
  - apply goes_app; [apply sets_always; sets_all|]. apply always_app; [exact Oa|]. apply always_app; [apply sets_always; sets_all|]. now apply sets_always.
  - discriminate.
Qed.

(** ** Play *)
Lemma list_remove_ok s : forall l, In (VStr s) l -> exists r, list_remove l (VStr s) = Ok r.
Proof.
  induction l as [|y l IH]; intros []; cbn [list_remove].
  - subst y. cbn [val_eqb]. rewrite text_eqb_refl. eauto.
  - destruct (val_eqb y (VStr s)); [eauto|]. destruct (IH H) as [r ->]. cbn [bindr]. eauto.
Qed.
Lemma list_remove_all_ok : forall ts l r, Permutation l (map VStr ts ++ r) -> exists r', list_remove_all l (map VStr ts) = Ok r'.
Proof.
  induction ts as [|s ts IH]; intros l r P; cbn [list_remove_all map app] in *; [eauto|].
  destruct (list_remove_ok s l) as [l' E]; [eapply Permutation_in; [apply Permutation_sym; exact P|now left]|]. rewrite E. cbn [bindr].
  apply (IH l' r). apply list_remove_perm in E. eapply Permutation_cons_inv. etransitivity; [apply Permutation_sym; exact E|exact P].
Qed.
(** Tiles of the hand can be taken from its texts. *)
Lemma hand_remove H l T : NoDup H -> Permutation l (map printed H) -> NoDup T -> (forall t, In t T -> In t H) ->
  exists r, remove_all (VList l) (VList (map printed T)) = Ok r.
Proof.
  intros Nd Pl NT Sub. unfold remove_all. cbn [iter_val bindr].
  assert (PH : Permutation H (T ++ set_minus H T)).
  { apply NoDup_Permutation; [exact Nd| |].
    - apply NoDup_app_intro; [exact NT|apply nodup_set_minus; exact Nd|]. intros t I1 I2. apply in_set_minus in I2. tauto.
    - intro t. rewrite in_app_iff, in_set_minus. destruct (in_dec Z.eq_dec t T); [split; [tauto|intros _; apply Sub; assumption]|tauto]. }
  replace (map printed T) with (map VStr (map ptext T)) by (rewrite map_map; reflexivity).
  destruct (list_remove_all_ok (map ptext T) l (map printed (set_minus H T))) as [r ->]; [|cbn [bindr]; eauto].
  etransitivity; [exact Pl|]. rewrite map_map. change (fun x => VStr (ptext x)) with printed. rewrite <- map_app. apply Permutation_map. exact PH.
Qed.
Lemma taken_valid q v t : legal_action (Call q v) -> taken v t -> valid_tile t.
Proof.
  intros (_ & _ & T) H. unfold valid_tile.
  assert (CH : call_kind v = CFlush -> forall i, 0 <= i < 3 -> 0 <= chi_tile v i < 136).
  { intros K i Hi. unfold tile_field_ok in T. rewrite K in T. unfold chi_tile. pose proof (field_bounds v 10 6 ltac:(lia)) as B1. pose proof (field_bounds v (3 + 2 * i) 2 ltac:(lia)) as B2.
    change (2 ^ 2) with 4 in B2. cbv zeta. set (u := field v 10 6 / 3) in *.
    assert (0 <= u < 21) by (unfold u; split; [apply Z.div_pos; lia|apply Z.div_lt_upper_bound; lia]).
    assert (0 <= u / 7 <= 2) by (split; [apply Z.div_pos; lia|apply Z.lt_succ_r, Z.div_lt_upper_bound; lia]).
    pose proof (Z.mod_pos_bound u 7 ltac:(lia)). lia. }
  assert (PO : call_kind v = CTriplet -> forall i, 0 <= i < 3 -> 0 <= pon_tile v i < 136).
  { intros K i Hi. unfold tile_field_ok in T. rewrite K in T. unfold pon_tile. pose proof (field_bounds v 9 7 ltac:(lia)) as B1. pose proof (field_bounds v 5 2 ltac:(lia)) as B2.
    assert (0 <= field v 9 7 / 3 < 34) by (split; [apply Z.div_pos; lia|apply Z.div_lt_upper_bound; lia]). destruct (i <? field v 5 2); lia. }
  assert (Pos : forall z, 0 <= z mod 3 < 3) by (intro z; apply Z.mod_pos_bound; lia).
  pose proof (field_bounds v 8 8 ltac:(lia)) as HB. change (2 ^ 8) with 256 in HB. fold (high_byte v) in HB.
  unfold taken, tile_field_ok in *. destruct (call_kind v) eqn:K.
  - subst t. apply CH; auto. unfold chi_position. apply Pos.
  - subst t. apply PO; auto. unfold pon_position. apply Pos.
  - destruct H.
  - destruct H as [_ ->]. lia.
  - destruct H.
  - destruct H.
Qed.

(** What is known of a seat in play. *)
Record in_play (p : Z) (acts : list action) (x : ctx) : Prop := mkInPlay {
  ip_right : exists t, rget (x_right x) p = Some t;
  ip_lists : forall v, In v [PV_discard_tiles; PV_discard_from_hand; PV_fixed_meld; PV_meld_public_tiles; PV_bonus_tiles] -> exists l, val_at x (SId p) v = Some (VList l);
  ip_round : exists a, val_at x (SId p) PV_round = Some (VNum a);
  ip_hand : exists H l, NoDup H /\ Forall valid_tile H /\ (forall t, In t H <-> in_hand p [] acts t) /\ val_at x (SId p) PV_hand = Some (VList l) /\ Permutation l (map printed H) }.

Lemma draw_handled acts p t e x : seat p -> valid_tile t -> writes (Draw p t) e -> in_play p acts x -> handled e x.
Proof.
  intros P V W [_ _ _ (H & l & _ & _ & _ & Hl & _)]. eexists. eexists. split; [apply (handle_draw unquote so p t e x P V W)|]. split; [|discriminate].
  unfold val_at in Hl. eexists. cbn [with_states]. unfold interpret. cbn [with_event cmd c_event c_sub c_prop]. rewrite Hl. cbn [or_none]. reflexivity.
Qed.
Ltac one_key := let ks := fresh "ks" in let kv := fresh "kv" in let Q := fresh "Q" in
  intros [ks kv]; unfold deeds, about; cbn [filter cmd c_sub c_prop fst snd];
  match goal with |- context [sub_eqb ?q ks] => destruct (sub_eqb q ks) eqn:Q; [|cbn [andb map run_deeds]; eexists; reflexivity];
    assert (ks = q) by (destruct ks; cbn in Q; [discriminate|apply Z.eqb_eq in Q; congruence]); subst ks; clear Q end.
Lemma discard_handled acts p t e x : seat p -> valid_tile t -> writes (Discard p t) e -> in_play p acts x -> in_hand p [] acts t -> handled e x.
Proof.
  intros P V W [(dt & Rt) Ls (a & Rd) (H & l & Nd & Vh & Ih & Hl & Pl)] It.
  destruct (change_discard p t e P V W) as [C1 C2].
  assert (Q : handle e x = Ok (map (fun c => with_event c E_discard)
    [cmd PV_round U_ADD (SId p) (VInt 1) None; cmd PV_discard_from_hand U_ADD (SId p) (VList [VBool (negb (opt_Z_eqb t dt))]) None;
     cmd PV_hand U_REMOVE (SId p) (VList [printed t]) None; cmd PV_discard_tiles U_ADD (SId p) (VList [printed t]) None], set_right x p None)).
  { unfold CommandProofs.handle.
    destruct (tag_unnamed unquote so (Discard p t) e p t (discard_letter p)) as [-> _]; [unfold discard_letter, seat in *; lia|unfold valid_tile in V; lia|exact W|].
    unfold default_handle, draw_command, discard_command, default_event_type. rewrite C2. cbn [bindr fst snd map]. rewrite C1.
    rewrite tile_str_list_valid by (constructor; [exact V|constructor]). cbn [bindr]. rewrite Rt. cbn [bindr]. unfold hand_update. cbn [bindr].
    rewrite tile_str_list_valid by (constructor; [exact V|constructor]). reflexivity. }
  eexists. eexists. split; [exact Q|]. split; [|discriminate]. apply goes_typed. apply goes_by_deeds. one_key.
  destruct (hand_remove H l [t] Nd Pl) as [r Er]; [constructor; [intros []|constructor]|intros u [<-|[]]; now apply Ih|].
  destruct (Ls PV_discard_tiles ltac:(cbn; tauto)) as [l1 E1]. destruct (Ls PV_discard_from_hand ltac:(cbn; tauto)) as [l2 E2]. unfold val_at in *.
  destruct kv; cbn [andb]; try (eexists; reflexivity); cbn; rewrite ?Hl, ?E1, ?E2, ?Rd; cbn [or_none];
    try (cbn; eexists; reflexivity).
  cbn [map] in Er. rewrite Er. cbn [bindr]. eexists. reflexivity.
Qed.
Lemma call_handled acts p v e x : legal_action (Call p v) -> writes (Call p v) e -> in_play p acts x -> (forall t, laid_down v t -> in_hand p [] acts t) -> handled e x.
Proof.
  intros L W [_ Ls _ (H & l & Nd & Vh & Ih & Hl & Pl)] It. pose proof W as (T & Wh & _).
  destruct (decode_call p v L) as [m [E D]]. pose proof D as (_ & Ds & Dn & Db & Dbn & _).
  assert (V1 : Forall valid_tile (so (m_self m))).
  { eapply Permutation_Forall; [apply Permutation_sym, SO|]. apply Forall_forall. intros t I0. rewrite Forall_forall in Vh. apply Vh, Ih, It, Ds, I0. }
  assert (V2 : Forall valid_tile (so (set_union (m_self m) (m_borrowed m)))).
  { eapply Permutation_Forall; [apply Permutation_sym, SO|]. apply Forall_forall. intros t I0. apply in_set_union in I0. destruct I0 as [I0|I0].
    - rewrite Forall_forall in Vh. apply Vh, Ih, It, Ds, I0.
    - apply (taken_valid p v t L). apply Db, I0. }
  destruct (hand_remove H l (so (m_self m)) Nd Pl) as [r Er].
  { eapply Permutation_NoDup; [apply Permutation_sym, SO|exact Dn]. }
  { intros t I0. apply Ih, It, Ds. eapply Permutation_in; [apply SO|exact I0]. }
  destruct (Ls PV_meld_public_tiles ltac:(cbn; tauto)) as [l1 E1]. destruct (Ls PV_bonus_tiles ltac:(cbn; tauto)) as [l2 E2]. destruct (Ls PV_fixed_meld ltac:(cbn; tauto)) as [l3 E3].
  unfold val_at in *.
  eapply (handled_typed (t_ "N")); [exact T|reflexivity|reflexivity| | |].
  - cbv beta. rewrite (meld_from_eq p v e W), E. cbn [bindr]. rewrite (get_attr _ _ _ Wh). cbn [bindr]. rewrite py_int_str. cbn [bindr].
    rewrite (tile_str_list_valid _ V1), (tile_str_list_valid _ V2). cbn [bindr]. unfold hand_update. rewrite (tile_str_list_valid _ V1). cbn [bindr fst snd app]. reflexivity.
  - apply goes_by_deeds. destruct (m_class m); one_key; destruct kv; cbn [andb]; try (eexists; reflexivity); cbn; rewrite ?Hl, ?E1, ?E2, ?E3; cbn [or_none];
    try (cbn; eexists; reflexivity); rewrite Er; cbn [bindr]; eexists; reflexivity.
  - intros _. discriminate.
Qed.
Lemma dora_handled t e x l : legal_action (NewDora t) -> writes (NewDora t) e -> val_at x sub_all GV_dora_indicators = Some (VList l) -> handled e x.
Proof.
  intros L [T Wh] D. unfold val_at in D. eapply (handled_typed (t_ "DORA")); [exact T|reflexivity|reflexivity| | |].
  - cbv beta. rewrite (get_attr _ _ _ Wh). cbn [bindr]. change (str_int t) with (comma_list [t]). rewrite int_list_comma by discriminate. cbn [bindr].
    rewrite tile_str_list_valid by (constructor; [exact L|constructor]). cbn [bindr]. reflexivity.
  - eexists. cbn [with_states]. unfold interpret. cbn [cmd c_sub c_prop]. rewrite D. cbn [or_none]. reflexivity.
  - intros _. discriminate.
Qed.
Lemma unknown_handled e x : hfind (handlers unquote so) (tag e) = None -> ~ Spec_Log.tile_tag (tag e) -> handled e x.
Proof.
  intros F N. exists [], x. unfold CommandProofs.handle. rewrite F. destruct (tile_tag_full _ N) as [A B]. split; [apply default_none; assumption|].
  split; [eexists; reflexivity|]. intros K _. cbn in F.
  repeat match type of F with (if ?b then _ else _) = _ => destruct b eqn:?; [discriminate|] end.
  destruct K as [K|[K|[[K _]|[K _]]]]; [contradiction| | |].
  all: cbn [In] in K; repeat (destruct K as [K|K]); try contradiction; try (rewrite <- K in *; discriminate); rewrite K in *; discriminate.
Qed.

(** ** What a prefix of a proper log has told *)
Record told (n w : Z) (es : list event) (x : ctx) : Prop := mkTold {
  to_count : has_tag (t_ "GO") es -> ctx_player_count x = Ok n;
  to_rounds : has_tag (t_ "GO") es -> exists c, x_indexer x = Some c /\ new_subcat [w + 1; 4] = Ok c }.
Lemma has_tag_snoc t es e : has_tag t (es ++ [e]) <-> has_tag t es \/ tag e = t.
Proof.
  unfold has_tag. split.
  - intros [f [I0 T]]. apply in_app_iff in I0. destruct I0 as [I0|[<-|[]]]; [left; eauto|now right].
  - intros [[f [I0 T]]|T]; [exists f; split; [apply in_app_iff; now left|exact T]|exists e; split; [apply in_app_iff; right; now left|exact T]].
Qed.
Lemma told_run strict n w : forall es cmds x, Forall (complete n w) es -> call_all tr strict 0 es empty_ctx = Ok (cmds, x) -> told n w es x.
Proof.
  induction es as [|e es IH] using rev_ind; intros cmds x F H; [constructor; intros [f [[] _]]|].
  apply Forall_app in F. destruct F as [F Fe]. inversion Fe as [|? ? Ce _]; subst. destruct (run_snoc _ _ _ _ _ _ _ H) as (c1 & x0 & i & c2 & H1 & H2).
  destruct (IH _ _ F H1) as [C R]. destruct (text_eqb (tag e) (t_ "GO")) eqn:Q.
  - apply text_eqb_iff in Q. destruct Ce as [Go _]. destruct (Go Q) as (v & _ & Hv & -> & ->).
    destruct (go_values _ _ _ _ _ _ _ _ _ Q H2 Hv) as (lv & _ & _ & _ & _ & _ & _ & Pc & _ & c & Cc & Ix). constructor; intros _.
    + unfold ctx_player_count, val_at in *. rewrite Pc. reflexivity.
    + eauto.
  - assert (N : tag e <> t_ "GO") by (intro K; rewrite K, text_eqb_refl in Q; discriminate). constructor; intro K; apply has_tag_snoc in K; (destruct K as [K|K]; [|contradiction]).
    + specialize (C K). unfold ctx_player_count in *. pose proof (count_untouched _ _ _ _ _ _ _ _ N H2) as U. unfold val_at in U. rewrite U. exact C.
    + rewrite (indexer_kept _ _ _ _ _ _ _ _ N H2). exact (R K).
Qed.
Lemma seats n w p es : Forall (complete n w) es -> 0 <= p < n -> has_seat p es.
Proof.
  intros F P e I0 T. rewrite Forall_forall in F. destruct (F e I0) as [G _]. destruct (G T) as (v & _ & Hv & -> & _). exists v. split; [exact Hv|].
  destruct (flag v 4); [right; lia|now left].
Qed.

(** A seat that was dealt tiles. *)
Definition scored (p : Z) (acts : list action) (x : ctx) : Prop :=
  counted_in p x /\ (~ no_deal acts -> (exists t, rget (x_right x) p = Some t) /\ exists a, val_at x (SId p) PV_score = Some (VNum a)).
Lemma no_deal_snoc acts a : ~ is_deal a -> ~ no_deal (acts ++ [a]) -> ~ no_deal acts.
Proof. intros N H K. apply H. apply Forall_app. split; [exact K|]. constructor; [exact N|constructor]. Qed.
Lemma other_score strict e i x x' cmds p : tag e <> t_ "INIT" -> call tr strict e i x = Ok (cmds, x') -> counted_in p x -> 0 <= p ->
  (exists a, val_at x (SId p) PV_score = Some (VNum a)) -> exists a, val_at x' (SId p) PV_score = Some (VNum a).
Proof.
  intros NI Hc C P [a A]. destruct (call_inv unquote so _ _ _ _ _ _ Hc) as [raw [x1 [Hh [_ [_ [_ D]]]]]]. specialize (D (SId p, PV_score)). cbn [snd] in D. unfold val_at in *. rewrite A in D.
  destruct (text_eqb (tag e) (t_ "REACH")) eqn:Q1.
  { apply text_eqb_iff in Q1. destruct (reach_deeds _ _ _ _ _ _ p Q1 Hh) as (wt & w & st & _ & _ & _ & E). rewrite E in D.
    destruct (text_eqb st (t_ "2") && (w =? p)); cbn in D; apply Ok_inj in D; rewrite D; eauto. }
  destruct (text_eqb (tag e) (t_ "AGARI") || text_eqb (tag e) (t_ "RYUUKYOKU")) eqn:Q2.
  { assert (En : ends_deal e) by (apply orb_true_iff in Q2; destruct Q2 as [Q2|Q2]; apply text_eqb_iff in Q2; [left|right]; exact Q2).
    pose proof (ends_score _ _ _ _ _ _ p En Hh C P) as K. destruct (lookup (t_ "sc") (attrib e)) as [s|].
    - destruct K as (l & _ & b & c & _ & _ & E). rewrite E in D. cbn in D. apply Ok_inj in D. rewrite D. eauto.
    - rewrite K in D. cbn in D. apply Ok_inj in D. rewrite D. eauto. }
  apply orb_false_iff in Q2. destruct Q2 as [Q2 Q3].
  rewrite (untouched _ _ _ _ _ _ _ PV_score Hh) in D.
  - cbn in D. apply Ok_inj in D. rewrite D. eauto.
  - apply score_view; [exact NI|intro K; rewrite K in Q2; discriminate|intro K; rewrite K in Q3; discriminate|intro K; rewrite K in Q1; discriminate].
Qed.
Lemma scored_step strict acts a e i x x' cmds p : seat p -> legal_action a -> writes a e ->
  (tag e = t_ "GO" -> exists v, holds e (t_ "type") (str_int v) /\ (flag v 4 = false \/ p < 3)) ->
  scored p acts x -> call tr strict e i x = Ok (cmds, x') -> scored p (acts ++ [a]) x'.
Proof.
  intros P L W GO [C S0] H. destruct (play_step _ _ _ _ _ _ _ _ _ _ P L W C GO H) as [A C']. split; [exact C'|]. intro ND.
  assert (Cases : (exists d, a = Deal d) \/ ~ is_deal a) by (destruct a; [left; eauto|right; intros []..]). destruct Cases as [[d ->]|Na].
  - cbn [act_step] in A. destruct A as (R & _ & hand & score & _ & Dl & K). split; [eauto|]. specialize (K PV_score ltac:(discriminate)).
    destruct Dl as (ten & scs & ht & rw & sc & _ & _ & _ & _ & _ & _ & ->). unfold step_of in K. cbn in K. apply Ok_inj in K. rewrite K. eauto.
  - destruct (S0 (no_deal_snoc _ _ Na ND)) as [[t R] Sc]. split.
    + destruct a as [d|q u|q u|q c|u|]; cbn [act_step] in A; try (exfalso; apply Na; exact I).
      * destruct A as [A _]. rewrite A. destruct (q =? p); eauto.
      * destruct A as (dt & _ & A & _). rewrite A. destruct (q =? p); eauto.
      * destruct A as (m & own & al & _ & _ & _ & A & _). rewrite A. destruct (q =? p); eauto.
      * destruct A as [-> _]. eauto.
      * destruct A as [-> _]. eauto.
    + eapply other_score; try eassumption; [|unfold seat in P; lia].
      destruct a as [d|q u|q u|q c|u|]; cbn [writes] in W; try (exfalso; apply Na; exact I).
      * rewrite W. unfold draw_letter. intro K. apply (f_equal (hd 0)) in K. change (hd 0 (t_ "INIT")) with 73 in K. cbn [hd] in K. destruct L as [L _]. unfold seat in L. lia.
      * rewrite W. unfold discard_letter. intro K. apply (f_equal (hd 0)) in K. change (hd 0 (t_ "INIT")) with 73 in K. cbn [hd] in K. destruct L as [L _]. unfold seat in L. lia.
      * destruct W as [-> _]. discriminate.
      * destruct W as [-> _]. discriminate.
      * tauto.
Qed.
(** What is known of the seats after the deal. *)
Lemma dealt_facts strict n w acts es cmds x p : (n = 3 \/ n = 4) -> log acts es -> Forall (complete n w) es -> Forall (at_table n) acts -> fair_play p acts es -> 0 <= p < n ->
  call_all tr strict 0 es empty_ctx = Ok (cmds, x) -> ~ no_deal acts ->
  in_play p acts x /\ (exists a, val_at x (SId p) PV_score = Some (VNum a)) /\ exists l, val_at x sub_all GV_dora_indicators = Some (VList l).
Proof.
  intros N Lg F At Fa P R ND. assert (Ps : seat p) by (unfold seat; lia). pose proof (seats n w p es F P) as HS.
  assert (Sc : scored p acts x).
  { revert R. apply (log_ind unquote so strict (scored p)); [split; [intros v Q; discriminate|intro K; exfalso; apply K; constructor]|exact Lg|].
    intros acts' a es' e more Ea Ee Ef L W i x0 x' cs T Hc. eapply scored_step; try eassumption. intro Gt. apply HS; [eapply nth_error_In; exact Ee|exact Gt]. }
  assert (G : in_step p acts x).
  { revert R. apply (log_ind unquote so strict (in_step p)); [|exact Lg|].
    - constructor; [intros v Q; discriminate|]. exists []. split; [constructor|]. split; [constructor|]. split; [|left; repeat split; constructor].
      intro t. split; [intros []|]. intros [[b [a [c [E _]]]]|[[] _]]. destruct b; discriminate.
    - intros acts' a es' e more Ea Ee Ef L W i x0 x' cs T Hc. eapply hand_step_in; try eassumption.
      + intro Gt. apply HS; [eapply nth_error_In; exact Ee|exact Gt].
      + intros d ->. rewrite Ea in At. apply Forall_app in At. destruct At as [_ At]. inversion At as [|? ? At1 _]; subst. destruct At1 as [_ At1]. apply At1. exact P.
      + exact (Fa acts' a more e Ea Ee). }
  pose proof (tracked_run unquote so SO strict p _ _ _ _ Ps Lg HS R) as [_ _ Si].
  assert (LD : exists before d after, acts = before ++ Deal d :: after /\ no_deal after).
  { clear - ND. induction acts as [|a acts IH] using rev_ind; [exfalso; apply ND; constructor|].
    assert (Cases : (exists d, a = Deal d) \/ ~ is_deal a) by (destruct a; [left; eauto|right; intros []..]). destruct Cases as [[d ->]|Na].
    - exists acts, d, []. split; [reflexivity|constructor].
    - destruct (IH (no_deal_snoc _ _ Na ND)) as (b & d & c & -> & K). exists b, d, (c ++ [a]). split; [rewrite <- app_assoc; reflexivity|].
      apply Forall_app. split; [exact K|]. constructor; [exact Na|constructor]. }
  destruct LD as (before & d & after & Ea & Nd). destruct (Si _ _ _ Ea Nd) as [[fs [_ V1]] [V2 [V3 [[ms [_ V4]] [[ls [_ V5]] [[ks [_ V6]] [wd [_ V7]]]]]]]].
  destruct Sc as [_ Sc]. destruct (Sc ND) as [Rt Scr]. split; [|split; [exact Scr|eauto]]. constructor.
  - exact Rt.
  - intros v I0. cbn [In] in I0. destruct I0 as [<-|[<-|[<-|[<-|[<-|[]]]]]]; eauto.
  - unfold VInt in V3. eauto.
  - destruct G as [_ [H0 [NH [V [I1 [[_ [K _]]|[l [A B]]]]]]]]; [contradiction|]. exists H0, l. auto.
Qed.

(** ** The whole log *)
Lemma proper_snoc n w acts a es e : proper n w (acts ++ [a]) (es ++ [e]) -> length acts = length es ->
  proper n w acts es /\ legal_action a /\ writes a e /\ complete n w e /\ at_table n a /\ (forall p, 0 <= p < n -> fair p (in_hand p [] acts) a e) /\
  (In (tag e) [t_ "TAIKYOKU"; t_ "INIT"; t_ "AGARI"; t_ "RYUUKYOKU"] -> has_tag (t_ "GO") es) /\
  (In (tag e) [t_ "N"; t_ "DORA"; t_ "REACH"] \/ Spec_Log.tile_tag (tag e) -> has_tag (t_ "INIT") es).
Proof.
  intros (N & [L W] & C & A & O & Fa) Len. apply Forall_app in L, C, A. destruct L as [L La], C as [C Ce], A as [A Aa].
  inversion La; inversion Ce; inversion Aa; subst. destruct (forall2_snoc_inv _ _ _ _ W) as (acts' & a' & E & W' & We). apply app_inj_tail in E. destruct E as [<- <-].
  destruct (O es e [] eq_refl) as [O1 O2].
  split; [|split; [assumption|]; split; [assumption|]; split; [assumption|]; split; [assumption|]; split; [|split; assumption]].
  - split; [exact N|]. split; [split; assumption|]. split; [assumption|]. split; [assumption|]. split.
    + intros b f c E. apply (O b f (c ++ [e])). rewrite E, <- app_assoc. reflexivity.
    + intros p P b f c g E K. apply (Fa p P b f (c ++ [a])); [rewrite E, <- app_assoc; reflexivity|]. rewrite nth_error_app1; [exact K|].
      apply nth_error_Some. congruence.
  - intros p P. apply (Fa p P acts a []); [reflexivity|]. rewrite Len, nth_error_app2, Nat.sub_diag by lia. reflexivity.
Qed.
Lemma init_dealt acts es : log acts es -> has_tag (t_ "INIT") es -> ~ no_deal acts.
Proof.
  intros [L W] [e [I0 T]] ND. revert L ND. induction W as [|a f acts es Wa W IH]; intros L ND; [destruct I0|]. inversion L; subst. inversion ND; subst.
  destruct I0 as [->|I0]; [|auto]. destruct a as [d|q u|q u|q c|u|]; cbn [writes] in Wa.
  - match goal with K : ~ is_deal _ |- _ => apply K; exact I end.
  - rewrite T in Wa. pose proof (f_equal (hd 0) Wa) as K. change (hd 0 (t_ "INIT")) with 73 in K. cbn [hd] in K. unfold draw_letter in K. match goal with K : legal_action _ |- _ => destruct K as [[? ?] _] end. lia.
  - rewrite T in Wa. pose proof (f_equal (hd 0) Wa) as K. change (hd 0 (t_ "INIT")) with 73 in K. cbn [hd] in K. unfold discard_letter in K. match goal with K : legal_action _ |- _ => destruct K as [[? ?] _] end. lia.
  - destruct Wa as [K _]. rewrite T in K. discriminate.
  - destruct Wa as [K _]. rewrite T in K. discriminate.
  - tauto.
Qed.
Lemma tile_tag_of l t : 84 <= l <= 87 \/ 68 <= l <= 71 -> valid_tile t -> Spec_Log.tile_tag (l :: str_int t).
Proof.
  intros L [V _]. destruct (str_int_nonneg t V) as (A & B & _). destruct (str_int t) as [|c r]; [congruence|]. exists l, c, r. split; [reflexivity|]. split; [exact L|].
  cbn in B. apply andb_true_iff in B. destruct B as [B _]. unfold ch_digit in B. lia.
Qed.
Lemma step_handled strict n w acts a es e cmds x : proper n w (acts ++ [a]) (es ++ [e]) -> length acts = length es ->
  call_all tr strict 0 es empty_ctx = Ok (cmds, x) -> handled e x.
Proof.
  intros Pr Len R. destruct (proper_snoc _ _ _ _ _ _ Pr Len) as ((N & Lg & C & A & O & Fa) & La & Wa & Ce & Aa & Fe & O1 & O2).
  destruct (told_run strict n w es cmds x C R) as [Cn Ci].
  assert (Dt : has_tag (t_ "INIT") es -> forall p, 0 <= p < n -> in_play p acts x /\ (exists a, val_at x (SId p) PV_score = Some (VNum a)) /\ exists l, val_at x sub_all GV_dora_indicators = Some (VList l)).
  { intros Hi p P. eapply dealt_facts; try eassumption; [exact (Fa p P)|exact (init_dealt _ _ Lg Hi)]. }
  destruct a as [d|q t|q t|q v|t|].
  - pose proof Wa as [T _]. assert (G : has_tag (t_ "GO") es) by (apply O1; rewrite T; cbn; tauto). destruct (Ci G) as (c & Ic & Nc).
    pose proof Ce as (_ & _ & _ & _ & Ci' & _).
    eapply init_handled; try eassumption; [lia| |exact (Cn G)].
    destruct G as (g & Ig & Tg). rewrite Forall_forall in C. destruct (C g Ig) as [Cg _]. destruct (Cg Tg) as (v & _ & _ & _ & ->). destruct (flag v 3); tauto.
  - destruct La as [Sq V]. eapply draw_handled; try eassumption. apply Dt; [|cbn in Aa; unfold seat in Sq; lia]. apply O2. right. rewrite Wa. apply tile_tag_of; [unfold draw_letter, seat in *; lia|exact V].
  - destruct La as [Sq V]. assert (Q : 0 <= q < n) by (cbn in Aa; unfold seat in Sq; lia). eapply discard_handled; try eassumption.
    + apply Dt; [|exact Q]. apply O2. right. rewrite Wa. apply tile_tag_of; [unfold discard_letter, seat in *; lia|exact V].
    + exact (Fe q Q eq_refl).
  - pose proof La as [Sq _]. assert (Q : 0 <= q < n) by (cbn in Aa; unfold seat in Sq; lia). eapply call_handled; try eassumption.
    + apply Dt; [|exact Q]. apply O2. left. destruct Wa as [-> _]. cbn. tauto.
    + exact (Fe q Q eq_refl).
  - destruct (Dt ltac:(apply O2; left; destruct Wa as [-> _]; cbn; tauto) 0 ltac:(lia)) as (_ & _ & l & E). eapply dora_handled; eassumption.
  - destruct Wa as (N1 & N2 & N3 & NT). destruct (hfind (handlers unquote so) (tag e)) as [h|] eqn:F; [|apply unknown_handled; assumption].
    apply hfind_in in F. cbn [handlers In] in F.
    assert (Cn' : In (tag e) [t_ "TAIKYOKU"; t_ "INIT"; t_ "AGARI"; t_ "RYUUKYOKU"] -> ctx_player_count x = Ok n) by (intro K; apply Cn, O1, K).
    destruct F as [F|[F|[F|[F|[F|[F|[F|[F|[F|[F|[F|[]]]]]]]]]]]]; assert (T : tag e = fst (tag e, h)) by reflexivity; rewrite <- F in T; cbn [fst] in T; clear F.
    + contradiction.
    + contradiction.
    + eapply go_handled; eassumption.
    + eapply taikyoku_handled; [eassumption|eassumption|apply Cn'; rewrite T; cbn; tauto|lia].
    + eapply un_handled; eassumption.
    + contradiction.
    + eapply reach_handled; [eassumption|eassumption|]. intros p P. apply Dt; [apply O2; left; rewrite T; cbn; tauto|exact P].
    + eapply agari_handled; [eassumption|eassumption|apply Cn'; rewrite T; cbn; tauto|lia].
    + eapply shuffle_handled; eassumption.
    + eapply bye_handled; eassumption.
    + eapply ryuukyoku_handled; [eassumption|eassumption|apply Cn'; rewrite T; cbn; tauto|lia].
Qed.
Lemma proper_runs strict n w : forall es acts, proper n w acts es -> (strict = true -> Forall known es) ->
  exists r, call_all tr strict 0 es empty_ctx = Ok r.
Proof.
  induction es as [|e es IH] using rev_ind; intros acts Pr K; [eexists; reflexivity|].
  assert (Q : exists acts' a, acts = acts' ++ [a] /\ length acts' = length es).
  { destruct Pr as (_ & [_ W] & _). destruct (forall2_snoc_inv _ _ _ _ W) as (acts' & a & -> & W' & _). exists acts', a. split; [reflexivity|]. exact (forall2_len _ _ _ W'). }
  destruct Q as (acts' & a & -> & Len). destruct (proper_snoc _ _ _ _ _ _ Pr Len) as (Pr' & _).
  destruct (IH acts' Pr') as [[cmds x] R]; [intro S0; specialize (K S0); apply Forall_app in K; tauto|].
  pose proof (step_handled strict n w acts' a es e cmds x Pr Len R) as Hd. rewrite call_all_app, R. cbn [bindr fst snd call_all].
  destruct (handled_call strict e (0 + Z.of_nat (length es)) x Hd) as [r Er]; [intro S0; specialize (K S0); apply Forall_app in K; destruct K as [_ K]; inversion K; assumption|].
  rewrite Er. cbn [bindr]. eexists. reflexivity.
Qed.
End Handlers.
