(** Properties C67-C70: the row export. *)
From Verif Require Import Base Category Tile Parse Text Tenhou TenhouProofs Spec_Tile Spec_Meld MeldProofs Prop_Meld Event Const Stage Reader Prop_Reader Spec_Log StateProofs Prop_State Value Json Universe Translator TenhouCommands
  Spec_Play Spec_Score CommandPlay Prop_Score Paifu Spec_Paifu PaifuProofs.
From Coq Require Import String List ZArith Lia Bool Permutation Sorted.
Import ListNotations.
Open Scope list_scope.
Open Scope Z_scope.

(** ** C67: one group of rows per event, in the order of the log, under the name of the deal. *)
Lemma wind_count_cases gt : play_wind_count gt = 1 \/ play_wind_count gt = 2.
Proof. unfold play_wind_count. destruct (gt_flag _ _); auto. Qed.
Lemma index_ok w n : (w = 1 \/ w = 2) -> 0 <= n < 4 * (w + 1) ->
  (do c <- new_subcat [w + 1; 4]; sub_category c n) = Ok [n / 4; n mod 4] /\ py_nth (t_ "ESWN") (n / 4) = Ok (wind_letter (n / 4)).
Proof.
  intros [-> | ->] N.
  - assert (G : (match (do c <- new_subcat [1 + 1; 4]; sub_category c n) with Ok [a; b] => (a =? n / 4) && (b =? n mod 4) | _ => false end &&
      match py_nth (t_ "ESWN") (n / 4) with Ok c => c =? wind_letter (n / 4) | Err _ => false end) = true).
    { change (4 * (1 + 1)) with 8 in N. revert n N. apply forall_range; [lia|]. vm_compute. reflexivity. }
    apply andb_true_iff in G. destruct G as [G1 G2].
    destruct (do c <- new_subcat [1 + 1; 4]; sub_category c n) as [[|a [|b [|? l]]]|]; try discriminate. apply andb_true_iff in G1. rewrite !Z.eqb_eq in G1. destruct G1 as [-> ->].
    destruct (py_nth (t_ "ESWN") (n / 4)); [|discriminate]. apply Z.eqb_eq in G2. subst. auto.
  - assert (G : (match (do c <- new_subcat [2 + 1; 4]; sub_category c n) with Ok [a; b] => (a =? n / 4) && (b =? n mod 4) | _ => false end &&
      match py_nth (t_ "ESWN") (n / 4) with Ok c => c =? wind_letter (n / 4) | Err _ => false end) = true).
    { change (4 * (2 + 1)) with 12 in N. revert n N. apply forall_range; [lia|]. vm_compute. reflexivity. }
    apply andb_true_iff in G. destruct G as [G1 G2].
    destruct (do c <- new_subcat [2 + 1; 4]; sub_category c n) as [[|a [|b [|? l]]]|]; try discriminate. apply andb_true_iff in G1. rewrite !Z.eqb_eq in G1. destruct G1 as [-> ->].
    destruct (py_nth (t_ "ESWN") (n / 4)); [|discriminate]. apply Z.eqb_eq in G2. subst. auto.
Qed.
Lemma game_seeds es e rest g d : new_game es = Ok g -> es = e :: rest -> writes (Deal d) e -> g_seeds g = map NInt (d_round d ++ [d_dora d]) /\ g_events g = es.
Proof.
  intros H -> (T & Sd & _). split; [|exact (new_game_events _ _ H)]. unfold new_game in H. peel H. unfold config_attr in E0.
  rewrite (config_first [e] (t_ "INIT") e (fw_here _ _ _ T)) in E0. unfold holds in Sd. rewrite Sd in E0. apply Ok_inj in E0. subst.
  rewrite number_list_comma in E1 by (intro K; apply app_eq_nil in K; destruct K; discriminate). apply Ok_inj in E1. apply Ok_inj in H. subst. reflexivity.
Qed.
Lemma events_tell so s : (forall l, Permutation (so l) l) -> forall acts es, log acts es -> Forall2 complete acts es ->
  exists groups, mapM (event_paifu so) es = Ok groups /\
    Forall2 (fun ae g => tells s (fst ae) (snd ae) g) (combine acts es) (map (map (with_game_str s)) groups).
Proof.
  intros SO acts es [L W]. revert L. induction W as [|a e acts es W Ws IH]; intros L C.
  - exists []. split; [reflexivity|constructor].
  - inversion L as [|? ? L1 L2]; subst. inversion C as [|? ? ? ? C1 C2]; subst.
    destruct (event_tells so SO s a e L1 W C1) as (rows & R & T). destruct (IH L2 C2) as (gs & G & F).
    exists (rows :: gs). cbn [mapM]. rewrite R. cbn [bindr]. rewrite G. cbn [bindr]. split; [reflexivity|]. cbn [combine map]. constructor; assumption.
Qed.
Theorem C67_rows : forall so gt es g d acts round honba rest,
  (forall l, Permutation (so l) l) -> new_game es = Ok g ->
  log (Deal d :: acts) es -> Forall2 complete (Deal d :: acts) es ->
  d_round d = round :: honba :: rest -> 0 <= round < 4 * (play_wind_count gt + 1) ->
  exists rows, game_paifu so gt g = Ok rows /\ deal_rows (deal_name round honba) (Deal d :: acts) es rows.
Proof.
  intros so gt es g d acts round honba rest SO Hg Lg C Rd Rn.
  destruct (events_tell so (deal_name round honba) SO _ _ Lg C) as (gs & G & F).
  destruct Lg as [L W]. inversion W as [|a e acts' es' W1 W2]; subst. destruct (game_seeds _ _ _ _ _ Hg eq_refl W1) as [Sd Ev].
  destruct (index_ok _ round (wind_count_cases gt) Rn) as [I1 I2].
  assert (Nm : game_str gt g = Ok (deal_name round honba)).
  { unfold game_str, game_index, sub_game_index. rewrite Sd, Rd. cbn [app map].
    change (py_nth (NInt round :: ?l) 0) with (py_nth (NInt round :: l) 0).
    replace (py_nth (NInt round :: NInt honba :: map NInt (rest ++ [d_dora d])) 0) with (Ok (NInt round)) by (symmetry; apply py_nth_some; [lia|reflexivity]).
    replace (py_nth (NInt round :: NInt honba :: map NInt (rest ++ [d_dora d])) 1) with (Ok (NInt honba)) by (symmetry; apply py_nth_some; [lia|reflexivity]).
    cbn [bindr as_int]. destruct (new_subcat [play_wind_count gt + 1; 4]) as [c|]; [|discriminate]. cbn [bindr] in *. rewrite I1. cbn [bindr fst snd]. rewrite I2. reflexivity. }
  unfold game_paifu. rewrite Nm. cbn [bindr]. rewrite Ev, G. cbn [bindr]. eexists. split; [reflexivity|].
  exists (map (map (with_game_str (deal_name round honba))) gs). split; [|exact F]. clear. induction gs as [|g gs IH]; [reflexivity|]. cbn [concat map]. rewrite map_app. now f_equal.
Qed.

(** ** C68: the rows keep the books of every hand. *)
Lemma pairs_names l : pairs (names_of l) = map name_of l.
Proof. unfold names_of. induction l as [|t l IH]; [reflexivity|]. cbn [map concat name_of app pairs]. f_equal. exact IH. Qed.
Lemma str_int_eqb a b : text_eqb (str_int a) (str_int b) = (a =? b).
Proof.
  destruct (a =? b) eqn:E; [apply Z.eqb_eq in E; subst; apply text_eqb_refl|]. destruct (text_eqb (str_int a) (str_int b)) eqn:F; [|reflexivity].
  apply text_eqb_iff in F. apply Z.eqb_neq in E. exfalso. apply E. apply (f_equal py_int) in F. rewrite !py_int_str in F. now injection F.
Qed.
Definition contrib (p : Z) (rows : list row) (a b : list text) : Prop := Permutation (seen p rows) a /\ Permutation (shown_by p rows) b.
Lemma seen_app p a b : seen p (a ++ b) = seen p a ++ seen p b.
Proof. unfold seen. rewrite filter_app, flat_map_app. reflexivity. Qed.
Lemma shown_app p a b : shown_by p (a ++ b) = shown_by p a ++ shown_by p b.
Proof. unfold shown_by. rewrite filter_app, flat_map_app. reflexivity. Qed.
Lemma contrib_app p a b x y z w : contrib p a x y -> contrib p b z w -> contrib p (a ++ b) (x ++ z) (y ++ w).
Proof. intros [A B] [C D]. split; [rewrite seen_app|rewrite shown_app]; apply Permutation_app; assumption. Qed.
Lemma value_row s l n : value (text_row s l) (t_ n) = match find (fun kv => text_eqb (t_ (fst kv)) (t_ n)) l with
  | Some kv => Some (PText (snd kv)) | None => if text_eqb (t_ "game_str") (t_ n) then Some (PText s) else None end.
Proof.
  unfold text_row. induction l as [|[k v] l IH]; [reflexivity|]. cbn [map app value find fst snd]. destruct (text_eqb (t_ k) (t_ n)); [reflexivity|]. exact IH.
Qed.
(** What one row of seat [q] adds. *)
Lemma seat_row p q s l see show :
  find (fun kv => text_eqb (t_ (fst kv)) (t_ "player")) l = Some ("player"%string, str_int q) ->
  match find (fun kv => text_eqb (t_ (fst kv)) (t_ "player_see")) l with Some kv => pairs (snd kv) | None => [] end = see ->
  match find (fun kv => text_eqb (t_ (fst kv)) (t_ "player_show")) l with Some kv => pairs (snd kv) | None => [] end = show ->
  contrib p [text_row s l] (if q =? p then see else []) (if q =? p then show else []).
Proof.
  intros H1 H2 H3. unfold contrib, seen, shown_by. cbn [filter]. unfold row_of. rewrite value_row, H1. cbn [snd cell_text]. rewrite str_int_eqb.
  destruct (q =? p); cbn [flat_map]; [|split; constructor]. rewrite !app_nil_r. unfold tiles_under. rewrite !value_row.
  change (text_eqb (t_ "game_str") (t_ "player_see")) with false. change (text_eqb (t_ "game_str") (t_ "player_show")) with false.
  subst see show. split; [destruct (find (fun kv => text_eqb (t_ (fst kv)) (t_ "player_see")) l)|destruct (find (fun kv => text_eqb (t_ (fst kv)) (t_ "player_show")) l)]; cbn [cell_text]; reflexivity.
Qed.
(** A row without tiles. *)
Lemma plain_row p s l :
  find (fun kv => text_eqb (t_ (fst kv)) (t_ "player_see")) l = None -> find (fun kv => text_eqb (t_ (fst kv)) (t_ "player_show")) l = None ->
  contrib p [text_row s l] [] [].
Proof.
  intros H1 H2. unfold contrib, seen, shown_by. cbn [filter]. destruct (row_of p (text_row s l)); cbn [flat_map]; [|split; constructor].
  unfold tiles_under. rewrite !value_row, H1, H2. split; constructor.
Qed.

Lemma remove_own (S own : list Z) : NoDup S -> NoDup own -> (forall t, In t own -> In t S) ->
  exists S', Permutation S (own ++ S') /\ NoDup S' /\ forall t, In t S' <-> In t S /\ ~ In t own.
Proof.
  intros NS NO I0. exists (set_minus S own).
  assert (A : forall t, In t (set_minus S own) <-> In t S /\ ~ In t own) by (intro; apply in_set_minus).
  assert (N : NoDup (set_minus S own)) by (apply nodup_set_minus; exact NS).
  split; [|split; [exact N|exact A]]. apply NoDup_Permutation; [exact NS| |].
  - clear I0. assert (D : forall t, In t own -> ~ In t (set_minus S own)) by (intros t I1 I2; apply A in I2; tauto). clear A. induction NO as [|x own Nx NO IH]; [exact N|].
    cbn [app]. constructor.
    + rewrite in_app_iff. intros [K|K]; [contradiction|]. exact (D x (or_introl eq_refl) K).
    + assert (E : forall t, In t own -> ~ In t (set_minus S (x :: own))) by (intros; apply D; now right).
      clear -NO N E. revert NO N E. generalize (set_minus S (x :: own)) as m. induction own as [|y own IH]; intros m NO N E; [exact N|]. cbn [app]. inversion NO; subst. constructor.
      * rewrite in_app_iff. intros [K|K]; [contradiction|]. exact (E y (or_introl eq_refl) K).
      * apply IH; [assumption|exact N|]. intros; apply E; now right.
  - intro t. rewrite in_app_iff, A. split; [intro H; destruct (in_dec Z.eq_dec t own); tauto|]. intros [H|H]; [now apply I0|tauto].
Qed.
Lemma step_books s p a e g (S : list Z) : ~ is_deal a -> tells s a e g -> NoDup S -> fair p (fun t => In t S) a e ->
  exists see show S', contrib p g (map name_of see) (map name_of show) /\ Permutation (S ++ see) (show ++ S') /\ NoDup S' /\
    forall t, In t S' <-> puts p t a \/ (In t S /\ ~ touches p t a).
Proof.
  intros ND T N F. unfold touches.
  assert (Stay : forall show, (forall t, ~ puts p t a /\ ~ takes p t a) -> contrib p g (map name_of show) (map name_of show) ->
    exists see show' S', contrib p g (map name_of see) (map name_of show') /\ Permutation (S ++ see) (show' ++ S') /\ NoDup S' /\
      forall t, In t S' <-> puts p t a \/ (In t S /\ ~ (puts p t a \/ takes p t a))).
  { intros show K C. exists show, show, S. split; [exact C|]. split; [apply Permutation_app_comm|]. split; [exact N|]. intro t. specialize (K t). tauto. }
  assert (Lay : forall own, (forall t, takes p t a <-> In t own) -> (forall t, ~ puts p t a) -> NoDup own -> (forall t, In t own -> In t S) -> contrib p g [] (map name_of own) ->
    exists see show' S', contrib p g (map name_of see) (map name_of show') /\ Permutation (S ++ see) (show' ++ S') /\ NoDup S' /\
      forall t, In t S' <-> puts p t a \/ (In t S /\ ~ (puts p t a \/ takes p t a))).
  { intros own K NP No I0 C. destruct (remove_own S own N No I0) as (S' & P1 & P2 & P3). exists [], own, S'. split; [exact C|]. rewrite app_nil_r.
    split; [exact P1|]. split; [exact P2|]. intro t. rewrite P3. specialize (K t). specialize (NP t). tauto. }
  destruct T; cbn [puts takes is_deal fair] in *; try (exfalso; apply ND; exact I).
  - (* draw *) destruct (Z.eq_dec p0 p) as [->|Ne].
    + exists [t], [], (S ++ [t]). split; [|split; [reflexivity|split]].
      * pose proof (seat_row p p s [("event_type"%string, t_ "DRAW"); ("player"%string, str_int p); ("player_see"%string, name_of t)] [name_of t] [] eq_refl eq_refl eq_refl) as K.
        rewrite Z.eqb_refl in K. exact K.
      * eapply Permutation_NoDup; [apply Permutation_app_comm|]. constructor; [exact (F eq_refl)|exact N].
      * intro x. rewrite in_app_iff. cbn [In]. destruct (Z.eq_dec t x) as [->|]; [tauto|intuition].
    + apply (Stay []); [intro x; split; tauto|].
      pose proof (seat_row p p0 s [("event_type"%string, t_ "DRAW"); ("player"%string, str_int p0); ("player_see"%string, name_of t)] [name_of t] [] eq_refl eq_refl eq_refl) as K.
      replace (p0 =? p) with false in K by (symmetry; apply Z.eqb_neq; exact Ne). exact K.
  - (* discard *)
    pose proof (seat_row p p0 s [("event_type"%string, t_ "DISCARD"); ("player"%string, str_int p0); ("player_show"%string, name_of t)] [] [name_of t] eq_refl eq_refl eq_refl) as K.
    destruct (Z.eq_dec p0 p) as [->|Ne].
    + rewrite Z.eqb_refl in K. apply (Lay [t]); [intro x; cbn [In]; intuition|tauto|repeat constructor; auto|intros x [<-|[]]; exact (F eq_refl)|exact K].
    + replace (p0 =? p) with false in K by (symmetry; apply Z.eqb_neq; exact Ne). apply (Stay []); [intro x; split; tauto|exact K].
  - (* call *) destruct H0 as [No Io].
    pose proof (seat_row p p0 s [("event_type"%string, call_name v); ("player"%string, str_int p0); ("player_show"%string, names_of own);
      ("player_open"%string, names_of (others ++ own)); ("origin"%string, str_int ((p0 + source v) mod 4))] [] (pairs (names_of own)) eq_refl eq_refl eq_refl) as K.
    rewrite pairs_names in K. destruct (Z.eq_dec p0 p) as [->|Ne].
    + rewrite Z.eqb_refl in K. apply (Lay own); [intro x; rewrite Io; tauto|tauto|exact No|intros x Ix; apply (F eq_refl), Io; exact Ix|exact K].
    + replace (p0 =? p) with false in K by (symmetry; apply Z.eqb_neq; exact Ne). apply (Stay []); [intro x; split; tauto|exact K].
  - (* kita *) assert (Lh : forall x, laid_down v x <-> x = high_byte v) by (intro x; unfold laid_down; unfold is_kita in H; destruct (call_kind v); try discriminate; tauto).
    pose proof (seat_row p p0 s [("event_type"%string, t_ "KITA"); ("player"%string, str_int p0); ("player_show"%string, name_of (high_byte v)); ("player_open"%string, name_of (high_byte v))]
      [] [name_of (high_byte v)] eq_refl eq_refl eq_refl) as K.
    destruct (Z.eq_dec p0 p) as [->|Ne].
    + rewrite Z.eqb_refl in K. apply (Lay [high_byte v]); [intro x; rewrite Lh; cbn [In]; intuition|tauto|repeat constructor; auto|intros x [<-|[]]; apply (F eq_refl), Lh; reflexivity|exact K].
    + replace (p0 =? p) with false in K by (symmetry; apply Z.eqb_neq; exact Ne). apply (Stay []); [intro x; split; tauto|exact K].
  - (* dora *) destruct (Z.eq_dec 0 p) as [<-|Ne].
    + apply (Stay [t]); [intro x; split; tauto|]. unfold contrib, seen, shown_by.
      match goal with |- context[filter _ [?r]] => change (filter (row_of 0) [r]) with [r]; cbn [flat_map];
        change (tiles_under "player_see" r) with (pairs (tile_str k)); change (tiles_under "player_show" r) with (pairs (tile_str k)) end.
      rewrite H, app_nil_r. split; reflexivity.
    + apply (Stay []); [intro x; split; tauto|]. unfold contrib, seen, shown_by. cbn [filter].
      match goal with |- context[row_of p ?r] => change (row_of p r) with (text_eqb (str_int 0) (str_int p)) end. rewrite str_int_eqb.
      replace (0 =? p) with false by (symmetry; apply Z.eqb_neq; exact Ne). split; constructor.
  - apply (Stay []); [intro x; split; tauto|]. apply plain_row; reflexivity.
  - apply (Stay []); [intro x; split; tauto|]. apply (contrib_app p [_] [_] [] [] [] []); apply plain_row; reflexivity.
  - apply (Stay []); [intro x; split; tauto|]. apply plain_row; reflexivity.
  - apply (Stay []); [intro x; split; tauto|]. apply plain_row; reflexivity.
  - apply (Stay []); [intro x; split; tauto|]. apply plain_row; reflexivity.
  - apply (Stay []); [intro x; split; tauto|]. split; constructor.
Qed.
Lemma fair_iff p (h k : Z -> Prop) a e : (forall t, h t <-> k t) -> fair p h a e -> fair p k a e.
Proof.
  intros E. destruct a as [d|q t|q t|q v|t|]; cbn [fair]; try tauto.
  - intros F Q. rewrite <- E. auto.
  - intros F Q. rewrite <- E. auto.
  - intros F Q t L. rewrite <- E. auto.
  - intros F T. destruct (F T) as (w & Hw & G). exists w. split; [exact Hw|]. intro Q. destruct (G Q) as (from & l & A & B & C & D).
    exists from, l. split; [exact A|]. split; [exact B|]. split; [exact C|]. destruct D as [[D1 D2]|[D1 (m & D2 & D3 & D4)]].
    + left. split; [exact D1|]. intro t. rewrite <- E. apply D2.
    + right. split; [exact D1|]. exists m. split; [exact D2|]. split; [rewrite <- E; exact D3|]. intro t. rewrite <- E. apply D4.
Qed.
Definition fair_from (p : Z) (start : list Z) (acts : list action) (es : list event) : Prop :=
  forall before a after e, acts = before ++ a :: after -> nth_error es (length before) = Some e -> fair p (in_hand p start before) a e.
Lemma in_hand_nil p start t : in_hand p start [] t <-> In t start.
Proof. unfold in_hand. split; [intros [(b & a & c & E & _)|[H _]]; [destruct b; discriminate|exact H]|intro H; right; split; [exact H|constructor]]. Qed.
Lemma books s p : forall acts es groups start, no_deal acts -> length es = length acts ->
  Forall2 (fun ae g => tells s (fst ae) (snd ae) g) (combine acts es) groups -> NoDup start -> fair_from p start acts es ->
  exists H, tiles_of (in_hand p start acts) H /\
    Permutation (map name_of start ++ seen p (concat groups)) (shown_by p (concat groups) ++ map name_of H).
Proof.
  induction acts as [|a acts IH]; intros [|e es] groups start ND L T N F; cbn [length combine] in *; try discriminate.
  - inversion T; subst. exists start. split; [split; [exact N|intro t; symmetry; apply in_hand_nil]|]. cbn [concat]. change (seen p []) with (@nil text). change (shown_by p []) with (@nil text). rewrite app_nil_r. reflexivity.
  - inversion T as [|? g ? gs T1 T2]; subst. cbn [fst snd] in T1. inversion ND as [|? ? N1 N2]; subst.
    assert (F1 : fair p (fun t => In t start) a e).
    { eapply fair_iff; [|apply (F [] a acts e eq_refl eq_refl)]. intro t. apply in_hand_nil. }
    destruct (step_books s p a e g start N1 T1 N F1) as (see & show & st' & [C1 C2] & P & N' & I').
    assert (Fl : forall l t, in_hand p start (a :: l) t <-> in_hand p st' l t) by (intros l t; apply flat_step; apply I').
    destruct (IH es gs st' N2 ltac:(lia) T2 N') as (H & [HN HI] & Q).
    { intros before b after x E1 E2. eapply fair_iff; [intro t; apply Fl|]. apply (F (a :: before) b after x); [now rewrite E1|exact E2]. }
    exists H. split; [split; [exact HN|intro t; rewrite HI; symmetry; apply Fl]|]. cbn [concat]. rewrite seen_app, shown_app.
    apply (Permutation_map name_of) in P. rewrite !map_app in P.
    rewrite app_assoc. etransitivity; [apply Permutation_app_tail, Permutation_app_head, C1|]. etransitivity; [apply Permutation_app_tail, P|].
    rewrite <- app_assoc. etransitivity; [apply Permutation_app_head, Q|]. rewrite app_assoc. apply Permutation_app_tail. apply Permutation_app_tail. symmetry. exact C2.
Qed.
Lemma hand_books s p q hand score r : hand_shown s q hand score r -> contrib p [r] (if q =? p then map name_of hand else []) [].
Proof.
  intros (l & Pm & _ & ->).
  pose proof (seat_row p q s [("event_type"%string, t_ "INIT" ++ str_int (q + 1)); ("player"%string, str_int q); ("player_see"%string, names_of l); ("score"%string, str_int score ++ t_ "00")]
    (pairs (names_of l)) [] eq_refl eq_refl eq_refl) as [A B]. rewrite pairs_names in A. destruct (q =? p); split; try assumption.
  etransitivity; [exact A|]. now apply Permutation_map.
Qed.
Lemma deal_books s p d e g : seat p -> tells s (Deal d) e g -> exists extra, contrib p g (map name_of (d_hands d p) ++ extra) extra.
Proof.
  intros P T. inversion T as [d0 e0 ten r0 r1 r2 r3 dora round Tn S0 S1 S2 S3 S4 Ed Er| | | | | | | | | | |]; subst.
  apply (hand_books s p) in S0, S1, S2.
  assert (C3 : contrib p r3 (if 3 =? p then map name_of (d_hands d 3) else []) []).
  { destruct (d_hands d 3) as [|x h] eqn:E3.
    - rewrite (S4 eq_refl). destruct (3 =? p); split; constructor.
    - destruct (S3 ltac:(discriminate)) as (r & -> & S). apply (hand_books s p) in S. exact S. }
  exists (if 0 =? p then [name_of (d_dora d)] else []).
  match goal with |- contrib p ([?a; ?b; ?c] ++ r3 ++ [?x; ?y]) _ _ => change (contrib p ([a] ++ [b] ++ [c] ++ r3 ++ [x] ++ [y]) (map name_of (d_hands d p) ++ (if 0 =? p then [name_of (d_dora d)] else [])) (if 0 =? p then [name_of (d_dora d)] else [])) end.
  match goal with |- contrib p (_ ++ _ ++ _ ++ _ ++ [?x] ++ [?y]) _ _ => assert (CD : contrib p [x] (if 0 =? p then [name_of (d_dora d)] else []) (if 0 =? p then [name_of (d_dora d)] else [])) by (apply seat_row; reflexivity);
    assert (CR : contrib p [y] [] []) by (apply plain_row; reflexivity) end.
  pose proof (contrib_app _ _ _ _ _ _ _ S0 (contrib_app _ _ _ _ _ _ _ S1 (contrib_app _ _ _ _ _ _ _ S2 (contrib_app _ _ _ _ _ _ _ C3 (contrib_app _ _ _ _ _ _ _ CD CR))))) as G.
  cbn [app] in G. rewrite !app_nil_r in G. destruct (seat_cases p P) as [->|[->|[->| ->]]]; cbn [Z.eqb Pos.eqb app] in *; rewrite ?app_nil_r in *; exact G.
Qed.
Lemma Forall2_firstn {A B} (R : A -> B -> Prop) l m k : Forall2 R l m -> Forall2 R (firstn k l) (firstn k m).
Proof. intro F. revert k. induction F; intros [|k]; cbn [firstn]; constructor; auto. Qed.
Lemma combine_firstn {A B} (l : list A) (m : list B) k : combine (firstn k l) (firstn k m) = firstn k (combine l m).
Proof. revert m k. induction l as [|a l IH]; intros [|b m] [|k]; cbn [firstn combine]; try reflexivity. now rewrite IH. Qed.

(** After any number of events, what seat [p] saw is what it showed and what it holds. *)
Theorem C68_hand : forall so gt es g d acts round honba rest rows p k,
  (forall l, Permutation (so l) l) -> new_game es = Ok g ->
  log (Deal d :: acts) es -> Forall2 complete (Deal d :: acts) es -> no_deal acts ->
  d_round d = round :: honba :: rest -> 0 <= round < 4 * (play_wind_count gt + 1) ->
  seat p -> fair_play p (Deal d :: acts) es -> game_paifu so gt g = Ok rows ->
  exists rows1 rows2 hand, rows = rows1 ++ rows2 /\
    deal_rows (deal_name round honba) (firstn k (Deal d :: acts)) (firstn k es) rows1 /\
    tiles_of (in_hand p [] (firstn k (Deal d :: acts))) hand /\
    Permutation (seen p rows1) (shown_by p rows1 ++ map name_of hand).
Proof.
  intros so gt es g d acts round honba rest rows p k SO Hg Lg C ND Rd Rn P Fp Hr.
  destruct (C67_rows so gt es g d acts round honba rest SO Hg Lg C Rd Rn) as (rows' & Hr' & groups & Er & F).
  rewrite Hr in Hr'. apply Ok_inj in Hr'. subst rows'. destruct Lg as [L W].
  exists (concat (firstn k groups)), (concat (skipn k groups)).
  assert (Er' : rows = concat (firstn k groups) ++ concat (skipn k groups)) by (rewrite <- concat_app, firstn_skipn; exact Er).
  apply (Forall2_firstn _ _ _ k) in F. rewrite <- combine_firstn in F.
  assert (DR : deal_rows (deal_name round honba) (firstn k (Deal d :: acts)) (firstn k es) (concat (firstn k groups))) by (exists (firstn k groups); auto).
  destruct k as [|k].
  - exists []. cbn [firstn concat] in *. split; [exact Er'|]. split; [exact DR|]. split; [|reflexivity]. split; [constructor|]. intro t. rewrite in_hand_nil. reflexivity.
  - inversion W as [|? e ? es' W1 W2]; subst. cbn [firstn combine] in F. inversion F as [|? g0 ? gs F1 F2]; subst. cbn [fst snd] in F1.
    destruct (deal_books _ p d e g0 P F1) as (extra & [C1 C2]).
    assert (Fd : fair p (in_hand p [] []) (Deal d) e) by (apply (Fp [] (Deal d) acts e); reflexivity). cbn [fair] in Fd. destruct Fd as [Nd Vd].
    assert (Fl : forall l t, in_hand p [] (Deal d :: l) t <-> in_hand p (d_hands d p) l t).
    { intros l t. apply flat_step. cbn [puts In]. tauto. }
    destruct (books (deal_name round honba) p (firstn k acts) (firstn k es') gs (d_hands d p)) as (H & [HN HI] & Q); [| |exact F2|exact Nd| |].
    + apply Forall_forall. intros a Ia. unfold no_deal in ND. rewrite Forall_forall in ND. apply ND. rewrite <- (firstn_skipn k acts). apply in_or_app. now left.
    + rewrite !firstn_length. f_equal. clear -W2. induction W2; cbn; auto.
    + intros before b after x E1 E2. eapply fair_iff; [intro t; apply Fl|]. apply (Fp (Deal d :: before) b (after ++ skipn k acts) x).
      * cbn [app]. f_equal. rewrite <- (firstn_skipn k acts) at 1. rewrite E1, <- app_assoc. reflexivity.
      * cbn [length nth_error]. rewrite <- (firstn_skipn k es'). rewrite nth_error_app1; [exact E2|]. apply nth_error_Some. congruence.
    + exists H. split; [exact Er'|]. split; [exact DR|]. cbn [firstn]. split; [split; [exact HN|intro t; rewrite HI; symmetry; apply Fl]|].
      destruct groups as [|g1 groups]; [discriminate|]. cbn [firstn] in *. match goal with K : g0 :: gs = _ |- _ => injection K as <- <- end.
      cbn [concat]. rewrite seen_app, shown_app. etransitivity; [apply Permutation_app_tail, C1|].
      rewrite <- app_assoc. etransitivity; [apply Permutation_app_swap_app|]. rewrite <- app_assoc. apply Permutation_app; [symmetry; exact C2|exact Q].
Qed.

(** ** C69: the rows of all deals in order, then one row of final score per player. *)
Definition final_row (results : list (Z * text)) (p : Z) : row :=
  map (fun kv => (t_ (fst kv), PText (snd kv)))
    [("event_type"%string, t_ "FIN" ++ str_int (p + 1)); ("player"%string, str_int p); ("score"%string, str_int (100 * final_score_of results p))].
Theorem C69_final : forall so events r before last results deals,
  new_record events = Ok r -> events = before ++ [last] ->
  holds last (t_ "owari") (owari_text results) -> Forall (fun x => ~ In 44 (snd x)) results -> (length (r_players r) <= length results)%nat -> (3 <= length results)%nat ->
  mapM (game_paifu so (r_type r)) (r_games r) = Ok deals ->
  record_paifu so r = Ok (concat deals ++ map (final_row results) (if (length (r_players r) =? 4)%nat then [0; 1; 2; 3] else [0; 1; 2])).
Proof.
  intros so events r before last results deals Hr Ee Ho Nc Lp L3 Hd.
  destruct (C57_scores _ _ Hr) as (before' & last' & owari & infos & E1 & E2 & E3 & E4 & _). rewrite E1 in Ee. apply app_inj_tail in Ee. destruct Ee as [_ ->].
  unfold holds in Ho. rewrite Ho in E2. injection E2 as <-. assert (Ne : results <> []) by (destruct results; [cbn in L3; lia|discriminate]).
  unfold number_list in E3. rewrite (split_owari _ Ne Nc) in E3. pose proof (owari_scores _ _ E3) as Ev.
  assert (Nth : forall p, 0 <= p -> (Z.to_nat p < length results)%nat -> py_nth (r_end_score r) p = Ok (NInt (final_score_of results p))).
  { intros p P L. apply py_nth_some; [exact P|]. rewrite E4.
    assert (G : forall A (l : list A) i, nth_error (every_other l) i = nth_error l (2 * i)).
    { intros A. fix IH 1. intros [|x [|y l]] i.
      - destruct i; reflexivity.
      - destruct i as [|[|i]]; reflexivity.
      - destruct i as [|i]; [reflexivity|]. replace (2 * S i)%nat with (S (S (2 * i))) by lia. cbn [every_other nth_error]. apply IH. }
    rewrite <- G, Ev, map_map, nth_error_map. rewrite (nth_error_nth' results (0, []) L). reflexivity. }
  assert (Fin : forall p name, 0 <= p -> (Z.to_nat p < length results)%nat -> t_ name = t_ "FIN" ++ str_int (p + 1) -> fin_row r name p = Ok (final_row results p)).
  { intros p name P L Nm. unfold fin_row. rewrite (Nth p P L). cbn [bindr num_scale num_repr]. unfold final_row, field_. cbn [map fst snd]. rewrite Nm, (Z.mul_comm 100). reflexivity. }
  unfold record_paifu. rewrite Hd. cbn [bindr]. rewrite (Fin 0 "FIN1"%string), (Fin 1 "FIN2"%string), (Fin 2 "FIN3"%string) by (try reflexivity; lia). cbn [bindr].
  destruct (length (r_players r) =? 4)%nat eqn:E; [|reflexivity]. apply Nat.eqb_eq in E. rewrite (Fin 3 "FIN4"%string) by (try reflexivity; lia). reflexivity.
Qed.

(** ** C70: uniform cells. *)
Definition event_types : list text := map t_
  ["INIT1"; "INIT2"; "INIT3"; "INIT4"; "DORA"; "ROUND"; "DRAW"; "DISCARD"; "CHI"; "PENG "; "GANG"; "KITA"; "ANGANG"; "MINGGANG";
   "CALLRICHI"; "RICHI"; "SCORE"; "WIN"; "EVEN"]%string.
Definition uniform (r : row) : Prop := forall k c, In (k, c) r -> exists s, c = PText s.
Definition C70_full : Prop := forall so gt es g d acts round honba rest rows,
  (forall l, Permutation (so l) l) -> new_game es = Ok g -> log (Deal d :: acts) es -> Forall2 complete (Deal d :: acts) es ->
  d_round d = round :: honba :: rest -> 0 <= round < 4 * (play_wind_count gt + 1) -> game_paifu so gt g = Ok rows ->
  Forall uniform rows.
Lemma text_row_uniform s l : uniform (text_row s l).
Proof.
  intros k c H. unfold text_row in H. apply in_app_iff in H. destruct H as [H|[H|[]]]; [|injection H as _ <-; eauto].
  apply in_map_iff in H. destruct H as ([a b] & E & _). injection E as _ <-. eauto.
Qed.
Lemma call_name_listed v : In (call_name v) event_types.
Proof. unfold call_name. destruct (call_kind v); [| | |destruct (source v =? 0)| |destruct (source v =? 0)]; vm_compute; tauto. Qed.
(** A row starts with a known event type and ends with the name of the deal; a cell that is
    not a text is in a row of a dora indicator, and holds a tile. *)
Theorem C70_cells_partial : forall so gt es g d acts round honba rest rows,
  (forall l, Permutation (so l) l) -> new_game es = Ok g -> log (Deal d :: acts) es -> Forall2 complete (Deal d :: acts) es ->
  d_round d = round :: honba :: rest -> 0 <= round < 4 * (play_wind_count gt + 1) -> game_paifu so gt g = Ok rows ->
  forall r, In r rows -> exists ty mid, r = (t_ "event_type", PText ty) :: mid ++ [(t_ "game_str", PText (deal_name round honba))] /\ In ty event_types /\
    (uniform r \/ ty = t_ "DORA").
Proof.
  intros so gt es g d acts round honba rest rows SO Hg Lg C Rd Rn Hr r Ir.
  destruct (C67_rows so gt es g d acts round honba rest SO Hg Lg C Rd Rn) as (rows' & Hr' & groups & Er & F).
  rewrite Hr in Hr'. apply Ok_inj in Hr'. subst rows'. rewrite Er in Ir. apply in_concat in Ir. destruct Ir as (g0 & Ig & Ir).
  assert (T : exists a e, tells (deal_name round honba) a e g0).
  { clear -F Ig. induction F as [|[a e] g' l m T F IH]; [destruct Ig|]. destruct Ig as [->|Ig]; [eexists _, _; exact T|auto]. }
  destruct T as (a & e & T). clear -T Ir. set (s := deal_name round honba) in *.
  assert (TR : forall ty l, In ty event_types -> exists ty' mid, text_row s (("event_type"%string, ty) :: l) = (t_ "event_type", PText ty') :: mid ++ [(t_ "game_str", PText s)] /\ In ty' event_types /\
     (uniform (text_row s (("event_type"%string, ty) :: l)) \/ ty' = t_ "DORA")).
  { intros ty l K. exists ty, (map (fun kv => (t_ (fst kv), PText (snd kv))) l). split; [reflexivity|]. split; [exact K|]. left. apply text_row_uniform. }
  assert (HS : forall p hand score x, 0 <= p < 4 -> hand_shown s p hand score x -> exists ty' mid, x = (t_ "event_type", PText ty') :: mid ++ [(t_ "game_str", PText s)] /\ In ty' event_types /\ (uniform x \/ ty' = t_ "DORA")).
  { intros p hand score x P (l & _ & _ & ->). apply TR. assert (Q : p = 0 \/ p = 1 \/ p = 2 \/ p = 3) by lia. destruct Q as [->|[->|[->| ->]]]; vm_compute; tauto. }
  destruct T as [d e ten r0 r1 r2 r3 dora round' Tn S0 S1 S2 S3 S4 Ed Er| | | | | | | | | | |]; cbn [In] in Ir;
    try (destruct Ir as [<-|[]]; apply TR; first [apply call_name_listed|vm_compute; tauto]).
  - apply in_app_iff in Ir. destruct Ir as [Ir|Ir].
    + destruct Ir as [<-|[<-|[<-|[]]]]; [eapply (HS 0); [lia|eassumption]|eapply (HS 1); [lia|eassumption]|eapply (HS 2); [lia|eassumption]].
    + apply in_app_iff in Ir. destruct Ir as [Ir|Ir].
      * destruct (d_hands d 3) as [|x h] eqn:E3; [rewrite (S4 eq_refl) in Ir; destruct Ir|]. destruct (S3 ltac:(discriminate)) as (x' & -> & K). destruct Ir as [<-|[]]. eapply (HS 3); [lia|exact K].
      * subst dora round'. destruct Ir as [<-|[<-|[]]]; apply TR; vm_compute; tauto.
  - destruct Ir as [<-|[]]. eexists _, [_; _; _]. split; [reflexivity|]. split; [vm_compute; tauto|]. right. reflexivity.
  - destruct Ir as [<-|[<-|[]]]; apply TR; vm_compute; tauto.
  - destruct Ir.
Qed.
