(** C97: a log with an event that does not tell enough for the table is refused. *)
From Verif Require Import Base Category Tile Parse Text Tenhou TenhouProofs Spec_Tile Spec_Meld MeldProofs Prop_Meld Event Const Reader State Spec_Log StateProofs Prop_State Value Universe Translator TenhouCommands
  Transfer Spec_Transfer Spec_Universe UniverseProofs Prop_Executor CommandProofs Prop_Commands Spec_Play CommandState CommandPlay PlaySteps PlayProofs Prop_Play Prop_Hand Spec_Score FinishProofs Prop_Score
  Prop_Meld Spec_Header Prop_Header Prop_Reader Spec_Read Prop_Read Spec_Convert ConvertProofs Prop_Convert Spec_Refused.
From Coq Require Import String List ZArith Lia Bool Permutation.
Import ListNotations.
Open Scope list_scope.
Open Scope Z_scope.

Lemma nth_len {A} (l : list A) p a : 0 <= p -> py_nth l p = Ok a -> p < Z.of_nat (length l).
Proof.
  intros P E. apply (py_nth_some l p a P) in E. assert (K : (Z.to_nat p < length l)%nat) by (apply nth_error_Some; congruence). lia.
Qed.
Lemma mapM_length {A B} (f : A -> res B) l r : mapM f l = Ok r -> length r = length l.
Proof. intro E. apply mapM_each in E. induction E; cbn [length]; congruence. Qed.
Lemma short_split k s : short k s -> Z.of_nat (length (split_on 44 s)) < k.
Proof. intros (l & N & L & F & ->). change (t_ ",") with [44]. rewrite split_join by assumption. exact L. Qed.
Lemma short_numbers k s l : short k s -> number_list s = Ok l -> Z.of_nat (length l) < k.
Proof. intros H E. unfold number_list in E. rewrite (mapM_length _ _ _ E). now apply short_split. Qed.
Lemma pairs_enough {A} (l : list A) k a : 0 <= k -> py_nth (every_other (tl l)) k = Ok a -> 2 * (k + 1) <= Z.of_nat (length l).
Proof.
  intros K E. apply (py_nth_some _ _ _ K) in E. rewrite every_other_nth in E.
  assert (L : (2 * Z.to_nat k < length (tl l))%nat) by (apply nth_error_Some; congruence). destruct l as [|x l]; cbn [tl length] in *; lia.
Qed.
Lemma each_in {A B} (f : A -> res B) l r a : mapM f l = Ok r -> In a l -> exists b, f a = Ok b.
Proof. intro E. apply mapM_each in E. induction E as [|x y l m R F IH]; intros []; [subst; eauto|auto]. Qed.

Lemma finish_enough x f w sc y e rest n : ctx_player_count x = Ok n -> 0 < n -> game_finish x f w sc y e = Ok rest ->
  (forall l, sc = Some l -> 2 * n <= Z.of_nat (length l)) /\
  (forall o l, lookup (t_ "owari") (attrib e) = Some o -> number_list o = Ok l -> 2 * n <= Z.of_nat (length l)) /\
  (forall o, lookup (t_ "owari") (attrib e) = Some o -> exists l, number_list o = Ok l).
Proof.
  intros C N E. unfold game_finish in E. rewrite C in E. cbn [bindr] in E. peelb E. assert (I0 : In (n - 1) (zrange 0 n)) by (apply in_zrange; lia).
  assert (F : forall o, lookup (t_ "owari") (attrib e) = Some o -> exists l, number_list o = Ok l /\ 2 * n <= Z.of_nat (length l)).
  { intros o Q. unfold finals_commands in E1. rewrite Q in E1. destruct (number_list o) as [l|] eqn:L; [|discriminate]. cbn [bindr] in E1. exists l. split; [reflexivity|].
    cbv zeta in E1. match type of E1 with bindr ?m _ = _ => destruct m as [ls|] eqn:M; [|discriminate] end. destruct (each_in _ _ _ _ M I0) as (b & B). peelb B.
    replace (2 * n) with (2 * (n - 1 + 1)) by lia. eapply pairs_enough; [lia|eassumption]. }
  split; [|split].
  - intros l ->. destruct (each_in _ _ _ _ E0 I0) as (b & B). unfold finish_player in B.
    match type of B with bindr ?m _ = _ => destruct m as [vv|] eqn:M; [|discriminate] end. peelb M.
    replace (2 * n) with (2 * (n - 1 + 1)) by lia. eapply pairs_enough; [lia|eassumption].
  - intros o l Q L. destruct (F o Q) as (l' & L' & K). rewrite L in L'. apply Ok_inj in L'. now subst.
  - intros o Q. destruct (F o Q) as (l' & L' & _). eauto.
Qed.

Lemma lookup_key s : forall l r, lookup s l = Some r -> In s (map fst l).
Proof.
  induction l as [|[k v] l IH]; intros r L; cbn [lookup] in L; [discriminate|]. destruct (text_eqb k s) eqn:Q; [left; now apply text_eqb_iff|]. right. eapply IH. exact L.
Qed.

Section Refused.
Context (unquote : text -> text) (so : list Z -> list Z).
Local Notation tr := (tenhou_command unquote so).
Local Notation handle := (CommandProofs.handle unquote so).

Lemma table_count strict n before c x : table_of n before -> call_all tr strict 0 before empty_ctx = Ok (c, x) -> ctx_player_count x = Ok n /\ (n = 3 \/ n = 4).
Proof.
  intros (b1 & go & b2 & v & -> & T & NG & Hv & ->) R. split; [|destruct (flag v 4); auto].
  assert (V : val_at x sub_all RV_player_count = Some (VInt (if flag v 4 then 3 else 4))).
  { revert c x R NG. induction b2 as [|f b2 IH] using rev_ind; intros c x R NG.
    - destruct (run_snoc _ _ _ _ _ _ _ R) as (c1 & x0 & j & c2 & H1 & H2). exact (go_count _ _ _ _ _ _ _ _ _ T H2 Hv).
    - change (b1 ++ go :: b2 ++ [f]) with (b1 ++ (go :: b2) ++ [f]) in R. rewrite app_assoc in R.
      destruct (run_snoc _ _ _ _ _ _ _ R) as (c1 & x0 & j & c2 & H1 & H2).
      rewrite (count_untouched _ _ _ _ _ _ _ _ (fun Q => NG (proj2 (has_tag_snoc _ _ _) (or_intror Q))) H2).
      eapply IH; [exact H1|]. intro Q. apply NG. apply has_tag_snoc. now left. }
  unfold ctx_player_count, val_at in *. rewrite V. reflexivity.
Qed.
End Refused.

(** The deal, the win, the draw or the player that an event should tell of, for the table that the
    last settings tell. *)
Theorem C97_lacking : forall unquote so strict n before e after cmds, table_of n before -> lacking n e ->
  to_commands (tenhou_command unquote so) strict (before ++ e :: after) <> Ok cmds.
Proof.
  intros unquote so strict n before e after cmds TB LK. apply refused. intros c x i R [c2 x2] H.
  destruct (table_count unquote so _ _ _ _ _ TB R) as [C N].
  destruct (call_inv unquote so _ _ _ _ _ _ H) as [raw [x1 [Hh _]]].
  assert (At : forall m s, attr e m = Ok s -> holds e m s).
  { intros m s A. unfold attr in A. unfold holds. destruct (lookup m (attrib e)); [|discriminate]. apply Ok_inj in A. now subst. }
  assert (Same : forall m s s', holds e m s -> holds e m s' -> s = s') by (unfold holds; intros; congruence).
  assert (Deal : tag e = t_ "INIT" -> (exists seed s, holds e (t_ "seed") s /\ number_list s = Ok seed /\ 3 <= Z.of_nat (length seed)) /\
    forall p, 0 <= p < n -> exists ten scs ht, holds e (t_ "ten") ten /\ number_list ten = Ok scs /\ p < Z.of_nat (length scs) /\ holds e (t_ "hai" ++ str_int p) ht).
  { intro T. split.
    - unfold CommandProofs.handle in Hh. replace (hfind (handlers unquote so) (tag e)) with (Some game_init_command) in Hh by (rewrite T; reflexivity).
      unfold game_init_command, default_event_type in Hh. peelb Hh. peelb E.
      match goal with K : number_list _ = Ok ?l, Q : py_nth ?l 2 = Ok _ |- _ => exists l; eexists; split; [eapply At; eassumption|]; split; [exact K|]; apply nth_len in Q; [lia|lia] end.
    - destruct (handle_deal unquote so _ _ _ _ T Hh) as (m & seed & oya & d & dora & C' & _ & _ & _ & _ & D & _). rewrite C in C'. apply Ok_inj in C'. subst m.
      intros p P. destruct (D p P) as (hand & score & (ten & scs & ht & rw & sc & A1 & A2 & A3 & _ & _ & A4 & _) & _). exists ten, scs, ht.
      split; [now apply At|]. split; [exact A2|]. split; [eapply nth_len; [lia|exact A4]|now apply At]. }
  assert (End : tag e = t_ "AGARI" \/ tag e = t_ "RYUUKYOKU" -> exists f w sc y rest, game_finish x f w sc y e = Ok rest /\
    forall s, holds e (t_ "sc") s -> exists l, number_list s = Ok l /\ sc = Some l).
  { intros [T|T].
    - destruct (agari_inv unquote so _ _ _ _ T Hh) as (wt & w & ft & f & st & sc & yt & ns & yaku & m & rest & _ & _ & _ & _ & B1 & B2 & _ & _ & _ & _ & G & _).
      do 5 eexists. split; [exact G|]. intros s S0. rewrite (Same _ _ _ S0 (At _ _ B1)). eauto.
    - destruct (nowin_inv unquote so _ _ _ _ T Hh) as (sc & m & rest & _ & G & B & _). do 5 eexists. split; [exact G|]. intros s S0. unfold holds in S0. rewrite S0 in B.
      destruct B as (l & B1 & B2). eauto. }
  assert (N0 : 0 < n) by lia.
  assert (Win : tag e = t_ "AGARI" -> (exists ten l a, holds e (t_ "ten") ten /\ number_list ten = Ok l /\ py_nth l 1 = Ok a) /\
    exists wt p ft q, holds e (t_ "who") wt /\ py_int wt = Ok p /\ holds e (t_ "fromWho") ft /\ py_int ft = Ok q /\
    exists hai hl hand, holds e (t_ "hai") hai /\ int_list hai = Ok hl /\ tile_strs hl = Ok hand /\
    (p <> q -> exists m ml ms m0 r, holds e (t_ "machi") m /\ int_list m = Ok ml /\ tile_strs ml = Ok ms /\ py_nth ms 0 = Ok m0 /\ text_remove hand m0 = Ok r)).
  { intro T. unfold CommandProofs.handle in Hh. replace (hfind (handlers unquote so) (tag e)) with (Some agari_command) in Hh by (rewrite T; reflexivity).
    unfold agari_command, default_event_type in Hh. peelb Hh. peelb E. split.
    - match goal with K : logged_win e = Ok _ |- _ => unfold logged_win in K; peelb K end. do 3 eexists. split; [eapply At; eassumption|]. split; eassumption.
    - match goal with K : py_int _ = Ok ?p, Q : py_int _ = Ok ?q, M : (if ?p =? ?q then _ else _) = Ok _ |- _ =>
        do 4 eexists; split; [eapply At; eassumption|]; split; [exact K|]; split; [eapply At; eassumption|]; split; [exact Q|];
        do 3 eexists; split; [eapply At; eassumption|]; split; [eassumption|]; split; [eassumption|]; intro PQ; replace (p =? q) with false in M by (symmetry; apply Z.eqb_neq; exact PQ); peelb M end.
      do 5 eexists. split; [eapply At; eassumption|]. split; [eassumption|]. split; [eassumption|]. split; eassumption. }
  destruct LK as [T NS|s T S0 Sh|p T P NS|s T S0 Sh|s T S0 Sh|s T S0 Sh|T NY NM|s T S0 Sh|p q T Hw Hf PQ NS|p q hai m T Hw Hf PQ Nh Vh Hh' Vm Hm Dif|l j T Nl Hy Ij J|s T S0 NS|p name s P T An In0 S0 Sh].
  - destruct (proj2 (Deal T) 0 ltac:(lia)) as (ten & scs & ht & A & _). apply NS. now exists ten.
  - destruct (proj2 (Deal T) (n - 1) ltac:(lia)) as (ten & scs & ht & A & B & L & _). rewrite (Same _ _ _ S0 A) in Sh. pose proof (short_numbers _ _ _ Sh B). lia.
  - destruct (proj2 (Deal T) p P) as (ten & scs & ht & _ & _ & _ & A). apply NS. now exists ht.
  - destruct (proj1 (Deal T)) as (seed & s' & A & B & L). rewrite (Same _ _ _ S0 A) in Sh. pose proof (short_numbers _ _ _ Sh B). lia.
  - destruct (End T) as (f & w & sc & y & rest & G & Q). destruct (Q s S0) as (l & L & Es). destruct (finish_enough _ _ _ _ _ _ _ _ C N0 G) as (F & _).
    specialize (F l Es). pose proof (short_numbers _ _ _ Sh L). lia.
  - destruct (End T) as (f & w & sc & y & rest & G & Q). destruct (finish_enough _ _ _ _ _ _ _ _ C N0 G) as (_ & F & F').
    destruct (F' s S0) as (l & L). specialize (F s l S0 L). pose proof (short_numbers _ _ _ Sh L). lia.
  - destruct (agari_inv unquote so _ _ _ _ T Hh) as (wt & w & ft & f & st & sc & yt & ns & yaku & m & rest & _ & _ & _ & _ & _ & _ & Y & _).
    unfold yaku_text in Y. destruct (lookup (t_ "yaku") (attrib e)) as [y|] eqn:L1; [apply NY; now exists y|]. apply NM. now exists yt.
  - destruct (proj1 (Win T)) as (ten & l & a & A & B & L). rewrite (Same _ _ _ S0 A) in Sh. pose proof (short_numbers _ _ _ Sh B). apply nth_len in L; lia.
  - destruct (proj2 (Win T)) as (wt & p' & ft & q' & A1 & A2 & A3 & A4 & hai & hl & hand & _ & _ & _ & B).
    rewrite <- (Same _ _ _ Hw A1), py_int_str in A2. rewrite <- (Same _ _ _ Hf A3), py_int_str in A4. apply Ok_inj in A2, A4. subst p' q'.
    destruct (B PQ) as (m & ml & ms & m0 & r & M & _). apply NS. now exists m.
  - destruct (proj2 (Win T)) as (wt & p' & ft & q' & A1 & A2 & A3 & A4 & hai' & hl & hand & B1 & B2 & B3 & B).
    rewrite <- (Same _ _ _ Hw A1), py_int_str in A2. rewrite <- (Same _ _ _ Hf A3), py_int_str in A4. apply Ok_inj in A2, A4. subst p' q'.
    rewrite <- (Same _ _ _ Hh' B1), (int_list_comma _ Nh) in B2. apply Ok_inj in B2. subst hl. rewrite (tile_strs_valid _ Vh) in B3. apply Ok_inj in B3. subst hand.
    destruct (B PQ) as (mt & ml & ms & m0 & r & M1 & M2 & M3 & M4 & M5). rewrite <- (Same _ _ _ Hm M1) in M2.
    change (str_int m) with (comma_list [m]) in M2. rewrite int_list_comma in M2 by discriminate. apply Ok_inj in M2. subst ml. rewrite (tile_strs_one m Vm) in M3. apply Ok_inj in M3. subst ms.
    change (py_nth [ptext m] 0) with (Ok (ptext m)) in M4. apply Ok_inj in M4. subst m0. revert r M5. clear - Dif.
    induction hai as [|u hai IH]; intros r M5; cbn [map text_remove] in M5; [discriminate|].
    destruct (text_eqb (ptext u) (ptext m)) eqn:Q; [apply text_eqb_iff in Q; apply (Dif u); [now left|]; rewrite !printed_ptext; congruence|].
    peelb M5. eapply IH; [|reflexivity]. intros u0 Iv. apply Dif. now right.
  - destruct (agari_inv unquote so _ _ _ _ T Hh) as (wt & w & ft & f & st & sc & yt & ns & yaku & m & rest & _ & _ & _ & _ & _ & _ & Y & Y1 & Y2 & _).
    unfold yaku_text in Y. unfold holds in Hy. rewrite Hy in Y. injection Y as <-. rewrite (number_list_comma _ Nl) in Y1. apply Ok_inj in Y1. subst ns.
    destruct (each_in _ _ _ (NInt j) Y2 ltac:(now apply in_map)) as (b & B). cbn [pattern_name] in B. apply nth_len in B; [|lia]. change (Z.of_nat (length SCORE_PATTERN)) with 55 in B. lia.
  - unfold CommandProofs.handle in Hh. replace (hfind (handlers unquote so) (tag e)) with (Some no_win_command) in Hh by (rewrite T; reflexivity).
    unfold no_win_command, default_event_type in Hh. unfold holds in S0. rewrite S0 in Hh. destruct (lookup s DRAWN_TYPES) as [r|] eqn:L; [|exfalso; unfold bindr in Hh; discriminate Hh]. apply NS.
    change draw_names with (map fst DRAWN_TYPES). eapply lookup_key. exact L.
  - unfold CommandProofs.handle in Hh. replace (hfind (handlers unquote so) (tag e)) with (Some (set_player_command unquote)) in Hh by (rewrite T; reflexivity).
    unfold set_player_command, default_event_type in Hh. peelb Hh. peelb E. cbv zeta in E. peelb E.
    match goal with M : mapM _ [0; 1; 2; 3] = Ok _ |- _ => destruct (each_in _ _ _ p M) as (b & B) end.
    { unfold seat in P. cbn [In]. lia. }
    unfold set_player in B. destruct An as (nm & _ & L & Nb). rewrite L in B. replace (not_blank nm) with true in B by (symmetry; now apply not_blank_iff). peelb B.
    assert (P0 : 0 <= p) by (unfold seat in P; lia).
    assert (G : forall m, holds e m s -> get_list_attr m e = s) by (intros m Q; unfold get_list_attr; unfold holds in Q; now rewrite Q).
    cbn [In] in In0. destruct In0 as [<-|[<-|[<-|[]]]]; rewrite (G _ S0) in *.
    + match goal with K : number_list s = Ok ?l, Q : py_nth ?l p = Ok _ |- _ => pose proof (short_numbers _ _ _ Sh K); apply nth_len in Q; [lia|exact P0] end.
    + match goal with K : number_list s = Ok ?l, Q : py_nth ?l p = Ok _ |- _ => pose proof (short_numbers _ _ _ Sh K); apply nth_len in Q; [lia|exact P0] end.
    + match goal with Q : py_nth (split_on 44 s) p = Ok _ |- _ => pose proof (short_split _ _ Sh); apply nth_len in Q; [lia|exact P0] end.
Qed.

(** A table of four, and a table of three. *)
Definition go_four : event := mkEvent (t_ "GO") [(t_ "type", t_ "169")].
Definition go_three : event := mkEvent (t_ "GO") [(t_ "type", t_ "185")].
Lemma table_four l : ~ has_tag (t_ "GO") l -> table_of 4 (go_four :: l).
Proof. intro N. exists [], go_four, l, 169. repeat split; auto. Qed.
Lemma table_three l : ~ has_tag (t_ "GO") l -> table_of 3 (go_three :: l).
Proof. intro N. exists [], go_three, l, 185. repeat split; auto. Qed.
Lemma no_go : ~ has_tag (t_ "GO") [].
Proof. intros [e [[] _]]. Qed.
(** A deal with three hands, which a table of three can use and a table of four cannot. *)
Definition three_hands : event := mkEvent (t_ "INIT")
  [(t_ "seed", t_ "0,0,0,1,2,52"); (t_ "ten", t_ "350,350,350,0"); (t_ "oya", t_ "0"); (t_ "hai0", t_ "40"); (t_ "hai1", t_ "44"); (t_ "hai2", t_ "48")].
Example C97_lacking_hand : (forall cmds, to_commands (tenhou_command (fun s => s) (fun l => l)) false [go_four; three_hands] <> Ok cmds) /\
  exists cmds, to_commands (tenhou_command (fun s => s) (fun l => l)) false [go_three; three_hands] = Ok cmds.
Proof.
  split; [|eexists; vm_compute; reflexivity]. intro cmds. apply (C97_lacking _ _ false 4 [go_four] three_hands []); [apply table_four, no_go|].
  apply (lacks_hand 4 three_hands 3); [reflexivity|lia|]. intros [s Q]. discriminate Q.
Qed.
(** A win on a discard of a tile that is not in the hand, and the same win with the tile. *)
Definition won (machi : string) : event := mkEvent (t_ "AGARI")
  [(t_ "who", t_ "0"); (t_ "fromWho", t_ "1"); (t_ "hai", t_ "40,44"); (t_ "machi", t_ machi); (t_ "ten", t_ "30,1000,0"); (t_ "yaku", t_ "1,1");
   (t_ "sc", t_ "350,10,350,-10,350,0")].
Example C97_lacking_tile : (forall cmds, to_commands (tenhou_command (fun s => s) (fun l => l)) false [go_three; won "48"] <> Ok cmds) /\
  exists cmds, to_commands (tenhou_command (fun s => s) (fun l => l)) false [go_three; won "44"] = Ok cmds.
Proof.
  split; [|eexists; vm_compute; reflexivity]. intro cmds. apply (C97_lacking _ _ false 3 [go_three] (won "48") []); [apply table_three, no_go|].
  apply (wrong_tile 3 (won "48") 0 1 [40; 44] 48); try reflexivity; try discriminate; try (unfold valid_tile; lia).
  - repeat constructor; unfold valid_tile; lia.
  - intros u [<-|[<-|[]]]; discriminate.
Qed.
(** The same win at a table of four: the scores of three players do not do. *)
Example C97_lacking_scores : forall cmds, to_commands (tenhou_command (fun s => s) (fun l => l)) false [go_four; won "44"] <> Ok cmds.
Proof.
  intro cmds. apply (C97_lacking _ _ false 4 [go_four] (won "44") []); [apply table_four, no_go|].
  apply (lacks_changes 4 (won "44") (t_ "350,10,350,-10,350,0")); [now left|reflexivity|].
  exists [t_ "350"; t_ "10"; t_ "350"; t_ "-10"; t_ "350"; t_ "0"]. split; [discriminate|]. split; [cbn; lia|]. split; [|reflexivity].
  repeat (constructor; [cbn; intuition discriminate|]). constructor.
Qed.
Print Assumptions C97_lacking.
