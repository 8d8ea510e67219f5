(** C67-C70 on the concrete deal of Prop_State.v: all hypotheses hold, and two claims about
    the cells fail. *)
From Verif Require Import Base Category Tile Parse Text Tenhou TenhouProofs Spec_Tile Spec_Meld MeldProofs Prop_Meld Event Const Stage Reader Spec_Log State StateProofs Prop_State Value Json
  Spec_Play Spec_Score CommandPlay Prop_Hand Paifu Spec_Paifu PaifuProofs Prop_Paifu.
From Coq Require Import String List ZArith Lia Bool Permutation Sorted.
Import ListNotations.
Open Scope list_scope.
Open Scope Z_scope.

Definition ex_last : event := ex_event (t_ "AGARI") (attrib ex_win ++ [(t_ "owari", t_ "170,-33.0,330,43.0,250,-5.0,250,-5.0")]).
Definition ex_es : list event := ex_log ++ [ex_last].
Definition ex_as : list action := tl ex_acts ++ [Other].
Lemma ex_deal_log : log (Deal ex_deal :: ex_as) ex_es.
Proof.
  destruct ex_is_log as [L W]. split.
  - change (Deal ex_deal :: ex_as) with (ex_acts ++ [Other]). apply Forall_app. split; [exact L|]. constructor; [exact I|constructor].
  - change (Deal ex_deal :: ex_as) with (ex_acts ++ [Other]). apply Forall2_app; [exact W|constructor; [|constructor]].
    split; [discriminate|]; split; [discriminate|]; split; [discriminate|]; intros (l & c & r & E & A & B); vm_compute in E; injection E as <- <- <-; lia.
Qed.
Lemma ex_deal_complete : Forall2 complete (Deal ex_deal :: ex_as) ex_es.
Proof.
  unfold ex_as, ex_es. cbn [tl ex_acts ex_log app]. constructor; [|constructor; [exact I|constructor; [exact I|constructor; [|constructor; [exact I|constructor; [|constructor; [|constructor; [exact I|constructor; [|constructor]]]]]]]]].
  - split; [cbn; lia|]. split; [unfold valid_tile; cbn; lia|]. split; [|split].
    + intros p P. destruct (seat_cases p P) as [->|[->|[->| ->]]]; repeat (constructor; [unfold valid_tile; lia|]); constructor.
    + intros p P. assert (Q : p = 0 \/ p = 1 \/ p = 2) by lia. destruct Q as [->|[->| ->]]; discriminate.
    + exists [250; 250; 250; 250]. split; reflexivity.
  - intros t (i & Hi & Ni & ->). assert (Q : i = 0 \/ i = 1 \/ i = 2) by lia. destruct Q as [->|[->| ->]]; vm_compute; intuition discriminate.
  - split; [|split]; intro T; [|discriminate T|discriminate T]. split; [exists 2; reflexivity|left; reflexivity].
  - intros t Lt. change (t = added_tile ex_added) in Lt. subst t. vm_compute. intuition discriminate.
  - split; [|split]; intro T; [discriminate T| |discriminate T]. split; [exists 1; reflexivity|]. split; [exists 0; reflexivity|]. exists [30; 2000; 0]. split; [reflexivity|cbn; lia].
Qed.
Definition ex_type : res game_type := new_game_type 169.
(** The rows of the deal. *)
Example C67_case : exists gt g rows, new_game_type 169 = Ok gt /\ new_game ex_es = Ok g /\ game_paifu (fun l => l) gt g = Ok rows /\
  length rows = 14%nat /\ deal_rows (t_ "E-1-0") (Deal ex_deal :: ex_as) ex_es rows.
Proof.
  eexists _, _, _. split; [vm_compute; reflexivity|]. split; [vm_compute; reflexivity|]. split; [vm_compute; reflexivity|]. split; [reflexivity|].
  destruct (C67_rows (fun l => l) (match new_game_type 169 with Ok g => g | Err _ => mkGT 0 [] 0 end) ex_es (match new_game ex_es with Ok g => g | Err _ => mkGame [] [] [] [] 0 end)
    ex_deal ex_as 0 0 [0; 2; 5] (fun l => Permutation_refl l)) as (rows & R & D);
    [vm_compute; reflexivity|exact ex_deal_log|exact ex_deal_complete|reflexivity|vm_compute; intuition discriminate|].
  change (deal_name 0 0) with (t_ "E-1-0") in D. vm_compute in R. apply Ok_inj in R. rewrite R in D. exact D.
Qed.
Lemma ex_hand_same n t : in_hand 1 [] (firstn n (Deal ex_deal :: ex_as)) t <-> in_hand 1 [] (firstn (S n) ex_play) t.
Proof.
  change (firstn (S n) ex_play) with (Other :: firstn n (Deal ex_deal :: ex_as)). symmetry. apply flat_step. unfold touches. cbn [puts takes In]. tauto.
Qed.
Lemma ex_deal_fair : fair_play 1 (Deal ex_deal :: ex_as) ex_es.
Proof.
  intros before a after e E Ee.
  assert (B : before = firstn (length before) (Deal ex_deal :: ex_as)) by (rewrite E, firstn_app, Nat.sub_diag, firstn_O, firstn_all, app_nil_r; reflexivity).
  assert (Ea : nth_error (Deal ex_deal :: ex_as) (length before) = Some a) by (rewrite E, nth_error_app2, Nat.sub_diag by lia; reflexivity).
  assert (Fp : forall e', nth_error ex_game (S (length before)) = Some e' -> fair 1 (in_hand 1 [] before) a e').
  { intros e' E'.
    assert (Q : forall t, in_hand 1 [] (firstn (S (length before)) ex_play) t <-> in_hand 1 [] before t) by (intro t; rewrite <- ex_hand_same, <- B; reflexivity).
    eapply fair_iff; [exact Q|].
    apply (ex_game_fair (firstn (S (length before)) ex_play) a after e').
    - change ex_play with (Other :: Deal ex_deal :: ex_as). rewrite E. cbn [firstn app]. f_equal. rewrite firstn_app, Nat.sub_diag, firstn_O, firstn_all, app_nil_r. reflexivity.
    - rewrite firstn_length. replace (Nat.min (S (length before)) (length ex_play)) with (S (length before)); [exact E'|].
      assert (K : (length before < length (Deal ex_deal :: ex_as))%nat) by (apply nth_error_Some; congruence). change (length ex_play) with (S (length (Deal ex_deal :: ex_as))). lia. }
  destruct (Nat.lt_ge_cases (length before) 8) as [K|K].
  - apply Fp. rewrite <- Ee. revert K. generalize (length before) as n. intros n K. do 8 (destruct n as [|n]; [reflexivity|]). lia.
  - assert (L : length before = 8%nat).
    { assert (Q : (length before < length ex_es)%nat) by (apply nth_error_Some; congruence). cbn in Q. lia. }
    rewrite L in *. injection Ee as <-. injection Ea as <-. pose proof (Fp ex_win eq_refl) as F. exact F.
Qed.
(** After the fifth event seat 1 has seen its ten dealt tiles and shown two for the pon and
    one discard; seven remain. *)
Example C68_case : exists gt g rows rows1 rows2 hand, new_game_type 169 = Ok gt /\ new_game ex_es = Ok g /\ game_paifu (fun l => l) gt g = Ok rows /\ rows = rows1 ++ rows2 /\
  tiles_of (in_hand 1 [] (firstn 5 (Deal ex_deal :: ex_as))) hand /\ Permutation (seen 1 rows1) (shown_by 1 rows1 ++ map name_of hand) /\
  (length (seen 1 rows1), length (shown_by 1 rows1)) = (13, 3)%nat.
Proof.
  destruct (C68_hand (fun l => l) (match new_game_type 169 with Ok g => g | Err _ => mkGT 0 [] 0 end) ex_es (match new_game ex_es with Ok g => g | Err _ => mkGame [] [] [] [] 0 end)
    ex_deal ex_as 0 0 [0; 2; 5] (match game_paifu (fun l => l) (match new_game_type 169 with Ok g => g | Err _ => mkGT 0 [] 0 end) (match new_game ex_es with Ok g => g | Err _ => mkGame [] [] [] [] 0 end) with Ok r => r | Err _ => [] end)
    1 5 (fun l => Permutation_refl l)) as (rows1 & rows2 & hand & R & D & T & P);
    [vm_compute; reflexivity|exact ex_deal_log|exact ex_deal_complete|repeat (constructor; [intros []|]); constructor|reflexivity|vm_compute; intuition discriminate|unfold seat; lia|exact ex_deal_fair|vm_compute; reflexivity|].
  eexists _, _, _, rows1, rows2, hand. split; [vm_compute; reflexivity|]. split; [vm_compute; reflexivity|]. split; [vm_compute; reflexivity|]. split; [vm_compute in R; exact R|]. split; [exact T|]. split; [exact P|].
  (* the rows of the first five events are the first ten *)
  destruct D as (groups & -> & F). cbn [firstn ex_as tl ex_acts app ex_es ex_log combine] in F.
  assert (L : length (concat groups) = 10%nat).
  { repeat match goal with F : Forall2 _ (_ :: _) _ |- _ => inversion F; subst; clear F | F : Forall2 _ [] _ |- _ => inversion F; subst; clear F end. cbn [fst snd] in *.
    repeat match goal with T : tells _ (Draw _ _) _ _ |- _ => inversion T; subst; clear T | T : tells _ (Discard _ _) _ _ |- _ => inversion T; subst; clear T
      | T : tells _ (Call _ _) _ _ |- _ => inversion T; subst; clear T | T : tells _ (Deal _) _ _ |- _ => inversion T; subst; clear T end;
    match goal with H : d_hands ex_deal 3 <> [] -> _ |- _ => destruct (H ltac:(discriminate)) as (r & -> & _) end; reflexivity. }
  assert (Fst : concat groups = firstn 10 (concat groups ++ rows2)) by (rewrite firstn_app, <- L, firstn_all, Nat.sub_diag, firstn_O, app_nil_r; reflexivity).
  rewrite Fst, <- R. vm_compute. reflexivity.
Qed.
(** A record of this one deal, with final results. *)
Definition ex_record : list event :=
  [ex_event (t_ "GO") [(t_ "type", t_ "169")];
   ex_event (t_ "UN") [(t_ "n0", t_ "a"); (t_ "n1", t_ "b"); (t_ "n2", t_ "c"); (t_ "n3", t_ "d"); (t_ "dan", t_ "1,2,3,4"); (t_ "rate", t_ "1500,1500,1500,1500"); (t_ "sx", t_ "M,F,M,F")]] ++ ex_es.
Example C69_case : exists r rows, new_record ex_record = Ok r /\ record_paifu (fun l => l) r = Ok rows /\
  holds ex_last (t_ "owari") (owari_text [(170, t_ "-33.0"); (330, t_ "43.0"); (250, t_ "-5.0"); (250, t_ "-5.0")]) /\
  length rows = 18%nat /\ nth 15 rows [] = [(t_ "event_type", PText (t_ "FIN2")); (t_ "player", PText (t_ "1")); (t_ "score", PText (t_ "33000"))].
Proof. eexists _, _. split; [vm_compute; reflexivity|]. split; [vm_compute; reflexivity|]. split; [reflexivity|]. split; vm_compute; reflexivity. Qed.

(** The row of a dora indicator turned during the deal holds tiles, not texts. *)
Theorem C70_full_refuted : ~ C70_full.
Proof.
  intro H.
  specialize (H (fun l => l) (match new_game_type 169 with Ok g => g | Err _ => mkGT 0 [] 0 end) ex_es (match new_game ex_es with Ok g => g | Err _ => mkGame [] [] [] [] 0 end)
    ex_deal ex_as 0 0 [0; 2; 5] (match game_paifu (fun l => l) (match new_game_type 169 with Ok g => g | Err _ => mkGT 0 [] 0 end) (match new_game ex_es with Ok g => g | Err _ => mkGame [] [] [] [] 0 end) with Ok r => r | Err _ => [] end)
    (fun l => Permutation_refl l) ltac:(vm_compute; reflexivity) ex_deal_log ex_deal_complete eq_refl ltac:(vm_compute; intuition discriminate) ltac:(vm_compute; reflexivity)).
  rewrite Forall_forall in H.
  specialize (H (nth 12 (match game_paifu (fun l => l) (match new_game_type 169 with Ok g => g | Err _ => mkGT 0 [] 0 end) (match new_game ex_es with Ok g => g | Err _ => mkGame [] [] [] [] 0 end) with Ok r => r | Err _ => [] end) [])
    ltac:(apply nth_In; vm_compute; lia) (t_ "player_see") (PTile (Plain 6 Cz)) ltac:(vm_compute; tauto)).
  destruct H as [s H]. discriminate H.
Qed.
(** The row of a pon has an event type with a blank at its end. *)
Theorem C70_blank_refuted : exists gt g rows r, new_game_type 169 = Ok gt /\ new_game ex_es = Ok g /\ game_paifu (fun l => l) gt g = Ok rows /\ In r rows /\
  value r (t_ "event_type") = Some (PText (t_ "PENG" ++ [32])).
Proof.
  eexists _, _, _, _. split; [vm_compute; reflexivity|]. split; [vm_compute; reflexivity|]. split; [vm_compute; reflexivity|]. split; [do 8 right; left; reflexivity|]. vm_compute. reflexivity.
Qed.
Print Assumptions C67_rows.
Print Assumptions C68_hand.
Print Assumptions C69_final.
Print Assumptions C70_cells_partial.
Print Assumptions C70_full_refuted.
Print Assumptions C70_blank_refuted.
