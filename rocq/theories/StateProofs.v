(** Proofs about the scanners of State.v. *)
From Verif Require Import Base Category Tile Parse Text Tenhou TenhouProofs Spec_Meld MeldProofs Prop_Meld Event State Spec_Log.
From Coq Require Import String List ZArith Lia Bool.
Import ListNotations.
Open Scope list_scope.
Open Scope Z_scope.

(** ** Texts. *)
Lemma text_eqb_iff : forall a b, text_eqb a b = true <-> a = b.
Proof.
  induction a as [|x a IH]; intros [|y b]; cbn [text_eqb]; try (split; congruence).
  rewrite andb_true_iff, Z.eqb_eq, IH. split; [intros [-> ->]; auto|intros [= -> ->]; auto].
Qed.
Lemma text_eqb_refl : forall a, text_eqb a a = true.
Proof. intros a. now apply text_eqb_iff. Qed.
Lemma text_eqb_neq : forall a b, a <> b -> text_eqb a b = false.
Proof. intros a b H. apply not_true_iff_false. now rewrite text_eqb_iff. Qed.

Lemma digits_val_app : forall a b, digits_val (a ++ [b]) = digits_val a * 10 + (b - 48).
Proof. intros. unfold digits_val. now rewrite fold_left_app. Qed.
Lemma digits_of_spec : forall fuel n, 0 <= n < Z.of_nat fuel ->
  digits_of fuel n <> [] /\ forallb ch_digit (digits_of fuel n) = true /\ digits_val (digits_of fuel n) = n.
Proof.
  induction fuel as [|f IH]; intros n H; [lia|]. cbn [digits_of]. destruct (n <? 10) eqn:E.
  - apply Z.ltb_lt in E. split; [discriminate|]. unfold digits_val. cbn [forallb fold_left]. unfold ch_digit.
    rewrite !andb_true_iff, !Z.leb_le. lia.
  - apply Z.ltb_ge in E. pose proof (Z.div_mod n 10 ltac:(lia)). pose proof (Z.mod_pos_bound n 10 ltac:(lia)).
    destruct (IH (n / 10)) as (A & B & C); [lia|].
    split; [destruct (digits_of f (n / 10)); discriminate|].
    rewrite forallb_app, B, digits_val_app, C. cbn [forallb]. unfold ch_digit.
    rewrite !andb_true_iff, !Z.leb_le. lia.
Qed.
Lemma str_int_nonneg : forall n, 0 <= n ->
  str_int n <> [] /\ forallb ch_digit (str_int n) = true /\ digits_val (str_int n) = n.
Proof.
  intros n H. unfold str_int. destruct (n <? 0) eqn:E; [apply Z.ltb_lt in E; lia|]. apply digits_of_spec. lia.
Qed.
Lemma str_int_neg : forall n, n < 0 -> exists ds, str_int n = 45 :: ds /\
  ds <> [] /\ forallb ch_digit ds = true /\ digits_val ds = - n.
Proof.
  intros n H. unfold str_int. destruct (n <? 0) eqn:E; [|apply Z.ltb_ge in E; lia].
  eexists. split; [reflexivity|]. apply digits_of_spec. lia.
Qed.
Lemma digit_not_sign : forall c r, forallb ch_digit (c :: r) = true -> c <> 45 /\ c <> 43 /\ c <> 46 /\ c <> 44.
Proof. intros c r. cbn [forallb]. unfold ch_digit. rewrite !andb_true_iff, !Z.leb_le. lia. Qed.

Lemma py_int_digits : forall ds, ds <> [] -> forallb ch_digit ds = true -> py_int ds = Ok (digits_val ds).
Proof.
  intros [|c r] N D; [congruence|]. destruct (digit_not_sign _ _ D) as (A & B & _). unfold py_int.
  rewrite D. destruct c as [|p|p]; auto. do 6 (destruct p as [p|p|]; auto; try lia).
Qed.
Lemma py_int_minus : forall ds, ds <> [] -> forallb ch_digit ds = true -> py_int (45 :: ds) = Ok (- digits_val ds).
Proof. intros [|c r] N D; [congruence|]. unfold py_int. now rewrite D. Qed.
Lemma py_int_str : forall n, py_int (str_int n) = Ok n.
Proof.
  intros n. destruct (Z.neg_nonneg_cases n) as [H|H].
  - destruct (str_int_neg n H) as (ds & -> & A & B & C). rewrite py_int_minus by auto. f_equal. lia.
  - destruct (str_int_nonneg n H) as (A & B & C). now rewrite py_int_digits, C by auto.
Qed.

Lemma split_on_none : forall c s, ~ In c s -> split_on c s = [s].
Proof.
  induction s as [|x s IH]; intros H; auto. cbn [split_on].
  destruct (x =? c) eqn:E; [apply Z.eqb_eq in E; subst; exfalso; apply H; now left|].
  rewrite IH; auto. intros I; apply H; now right.
Qed.
Lemma split_on_app : forall c s r, ~ In c s -> split_on c (s ++ c :: r) = s :: split_on c r.
Proof.
  induction s as [|x s IH]; intros r H; cbn [split_on app].
  - now rewrite Z.eqb_refl.
  - destruct (x =? c) eqn:E; [apply Z.eqb_eq in E; subst; exfalso; apply H; now left|].
    rewrite IH; auto. intros I; apply H; now right.
Qed.
Lemma split_join : forall c l, l <> [] -> Forall (fun s => ~ In c s) l -> split_on c (join [c] l) = l.
Proof.
  induction l as [|s l IH]; intros N F; [congruence|]. inversion F as [|? ? F1 F2]; subst.
  destruct l as [|s2 l]; [now apply split_on_none|].
  change (join [c] (s :: s2 :: l)) with (s ++ c :: join [c] (s2 :: l)). rewrite split_on_app by auto.
  rewrite IH; auto. discriminate.
Qed.
Lemma digits_no : forall c ds, ch_digit c = false -> forallb ch_digit ds = true -> ~ In c ds.
Proof. intros c ds C D I. rewrite forallb_forall in D. apply D in I. congruence. Qed.
Lemma str_int_no_comma : forall n, ~ In 44 (str_int n).
Proof.
  intros n. destruct (Z.neg_nonneg_cases n) as [H|H].
  - destruct (str_int_neg n H) as (ds & -> & A & B & C). intros [I|I]; [discriminate|].
    now apply (digits_no 44 ds) in I.
  - destruct (str_int_nonneg n H) as (A & B & C). now apply (digits_no 44).
Qed.
Lemma num_of_digits_int : forall neg ds, num_of_digits neg ds [] = NInt (if neg then - digits_val ds else digits_val ds).
Proof.
  intros. unfold num_of_digits. rewrite app_nil_r. change (10 ^ Z.of_nat (length ([] : text))) with 1.
  rewrite Z.mod_1_r, Z.div_1_r. destruct neg; reflexivity.
Qed.
Lemma py_number_str : forall n, py_number (str_int n) = Ok (NInt n).
Proof.
  intros n. destruct (Z.neg_nonneg_cases n) as [H|H].
  - destruct (str_int_neg n H) as (ds & -> & A & B & C). unfold py_number.
    rewrite (split_on_none 46) by now apply digits_no. destruct ds as [|c r]; [congruence|].
    rewrite B, num_of_digits_int, C. now rewrite Z.opp_involutive.
  - destruct (str_int_nonneg n H) as (A & B & C).
    assert (G : forall ds, ds <> [] -> forallb ch_digit ds = true -> py_number ds = Ok (NInt (digits_val ds))).
    { intros [|c r] N D; [congruence|]. destruct (digit_not_sign _ _ D) as (P & Q & _). unfold py_number.
      assert (W : match split_on 46 (c :: r) with
                  | [i] => match i with [] => Err ValueError
                           | _ => if forallb ch_digit i then Ok (num_of_digits false i []) else Err ValueError end
                  | [i; f] => match (i ++ f)%list with [] => Err ValueError
                              | _ => if forallb ch_digit (i ++ f) then Ok (num_of_digits false i f) else Err ValueError end
                  | _ => Err ValueError
                  end = Ok (NInt (digits_val (c :: r)))).
      { rewrite (split_on_none 46) by now apply digits_no. now rewrite D, num_of_digits_int. }
      rewrite <- W. clear - P Q. destruct c as [|p|p]; auto. do 6 (destruct p as [p|p|]; auto; try lia). }
    now rewrite G, C by auto.
Qed.
Lemma mapM_map_ok : forall A B C (f : A -> B) (g : B -> res C) (h : A -> C) l,
  (forall x, g (f x) = Ok (h x)) -> mapM g (map f l) = Ok (map h l).
Proof. intros A B C f g h l H. induction l as [|x l IH]; auto. cbn [map mapM]. rewrite H, IH. reflexivity. Qed.
Lemma int_list_comma : forall l, l <> [] -> int_list (comma_list l) = Ok l.
Proof.
  intros l N. unfold int_list, number_list, comma_list. change (t_ ",") with [44].
  rewrite split_join.
  - rewrite (mapM_map_ok _ _ _ str_int py_number NInt) by apply py_number_str. cbn [bindr].
    rewrite (mapM_map_ok _ _ _ NInt as_int (fun x => x)) by reflexivity. now rewrite map_id.
  - destruct l; [congruence|discriminate].
  - apply Forall_forall. intros s I. apply in_map_iff in I as (n & <- & _). apply str_int_no_comma.
Qed.

(** ** Tags. *)
Lemma span_digits_all : forall ds, forallb ch_digit ds = true -> span_digits ds = (ds, []).
Proof.
  induction ds as [|c r IH]; auto. cbn [forallb span_digits]. intros H. apply andb_true_iff in H as [A B].
  now rewrite A, IH.
Qed.
Lemma regex_prefix_str : forall l n, 0 <= n -> regex_prefix l (l :: str_int n) = Some (str_int n).
Proof.
  intros l n H. destruct (str_int_nonneg n H) as (A & B & _). unfold regex_prefix. rewrite Z.eqb_refl, span_digits_all by auto.
  cbn [fst]. destruct (str_int n); [congruence|reflexivity].
Qed.
Lemma regex_prefix_other : forall l l' s, l <> l' -> regex_prefix l (l' :: s) = None.
Proof. intros l l' s H. unfold regex_prefix. destruct (l' =? l) eqn:E; auto. apply Z.eqb_eq in E. congruence. Qed.
Lemma regex_full_str : forall ls l n, In l ls -> 0 <= n -> regex_full ls (l :: str_int n) = Some (l, str_int n).
Proof.
  intros ls l n I H. destruct (str_int_nonneg n H) as (A & B & _). unfold regex_full.
  apply mem_spec in I. rewrite I, span_digits_all by auto. destruct (str_int n); [congruence|reflexivity].
Qed.
Lemma regex_full_other : forall ls l s, ~ In l ls -> regex_full ls (l :: s) = None.
Proof.
  intros ls l s I. unfold regex_full. destruct (mem l ls) eqn:E; auto. apply mem_spec in E. contradiction.
Qed.
Lemma span_nondigit : forall c r, ch_digit c = false -> span_digits (c :: r) = ([], c :: r).
Proof. intros c r H. cbn [span_digits]. now rewrite H. Qed.
Lemma tile_tag_dec : forall s, ~ tile_tag s ->
  forall l, 84 <= l <= 87 \/ 68 <= l <= 71 -> regex_prefix l s = None.
Proof.
  intros [|c [|d r]] H l L; auto; unfold regex_prefix; destruct (c =? l) eqn:E; auto.
  apply Z.eqb_eq in E. subst c. destruct (ch_digit d) eqn:D; [|now rewrite span_nondigit].
  exfalso. apply H. exists l, d, r. split; auto. split; auto. unfold ch_digit in D.
  rewrite andb_true_iff, !Z.leb_le in D. lia.
Qed.
Lemma tile_tag_full : forall s, ~ tile_tag s -> regex_full DISCARD_INDICATOR s = None /\ regex_full DRAW_INDICATOR s = None.
Proof.
  intros [|c [|d r]] H; split; auto; unfold regex_full;
    match goal with |- context [mem c ?ls] => destruct (mem c ls) eqn:E end; auto; apply mem_spec in E;
    try reflexivity;
    (destruct (ch_digit d) eqn:D; [|now rewrite span_nondigit]);
    exfalso; apply H; exists c, d, r; (split; [reflexivity|]); (split; [cbn in E; lia|]);
    unfold ch_digit in D; rewrite andb_true_iff, !Z.leb_le in D; lia.
Qed.

(** ** What the tests of event.py and player.py say of a written action. *)
Definition is_Deal (a : action) : bool := match a with Deal _ => true | _ => false end.
Definition is_Call (a : action) : bool := match a with Call _ _ => true | _ => false end.
Definition is_NewDora (a : action) : bool := match a with NewDora _ => true | _ => false end.

Lemma tag_letter : forall l n s, 0 <= n -> s <> [] -> 84 <= l <= 87 \/ 68 <= l <= 71 ->
  (forall c d r, s = c :: d :: r -> c = l -> ch_digit d = false) -> (forall c, s = [c] -> c <> l) ->
  text_eqb (l :: str_int n) s = false.
Proof.
  intros l n s H N L D O. apply text_eqb_neq. intros E. destruct (str_int_nonneg n H) as (A & B & _).
  destruct s as [|c [|d r]]; [congruence|inversion E; subst; now apply (O c)|].
  inversion E as [[E1 E2]]. rewrite E2 in B. cbn [forallb] in B. rewrite (D c d r) in B; auto. discriminate.
Qed.
Ltac by_letter := apply tag_letter;
  [unfold valid_tile in *; lia|discriminate|unfold seat, draw_letter, discard_letter in *; lia
  |let E := fresh in intros ? ? ? E; vm_compute in E; injection E; intros; subst; unfold draw_letter, discard_letter, seat in *; try lia; reflexivity
  |let E := fresh in intros ? E; vm_compute in E; (discriminate || (injection E; intros; subst; unfold draw_letter, discard_letter, seat in *; lia))].

Lemma init_tag : forall a e, legal_action a -> writes a e -> is_game_init e = is_Deal a.
Proof.
  intros [d|p t|p t|p v|t|] e L W; cbn [legal_action writes is_Deal] in *; unfold is_game_init, has_tag.
  - destruct W as (-> & _). reflexivity.
  - rewrite W. destruct L. by_letter.
  - rewrite W. destruct L. by_letter.
  - destruct W as (-> & _). reflexivity.
  - destruct W as (-> & _). reflexivity.
  - now apply text_eqb_neq.
Qed.
Lemma open_tag : forall a e, legal_action a -> writes a e -> has_tag e "N" = is_Call a.
Proof.
  intros [d|p t|p t|p v|t|] e L W; cbn [legal_action writes is_Call] in *; unfold has_tag.
  - destruct W as (-> & _). reflexivity.
  - rewrite W. destruct L. by_letter.
  - rewrite W. destruct L. by_letter.
  - destruct W as (-> & _). reflexivity.
  - destruct W as (-> & _). reflexivity.
  - apply text_eqb_neq. tauto.
Qed.
Lemma dora_tag : forall a e, legal_action a -> writes a e -> is_dora_indicator_event e = is_NewDora a.
Proof.
  intros [d|p t|p t|p v|t|] e L W; cbn [legal_action writes is_NewDora] in *; unfold is_dora_indicator_event, has_tag.
  - destruct W as (-> & _). reflexivity.
  - rewrite W. destruct L. by_letter.
  - rewrite W. destruct L. by_letter.
  - destruct W as (-> & _). reflexivity.
  - destruct W as (-> & _). reflexivity.
  - apply text_eqb_neq. tauto.
Qed.
Ltac show_tags := repeat match goal with
  | |- context [t_ ?s] => let v := eval vm_compute in (t_ s) in change (t_ s) with v end.
Lemma nth_draw : forall p, seat p -> py_nth DRAW_INDICATOR p = Ok (draw_letter p).
Proof. intros p H. unfold seat in H. assert (p = 0 \/ p = 1 \/ p = 2 \/ p = 3) as [-> | [-> | [-> | ->]]] by lia; reflexivity. Qed.
Lemma nth_discard : forall p, seat p -> py_nth DISCARD_INDICATOR p = Ok (discard_letter p).
Proof. intros p H. unfold seat in H. assert (p = 0 \/ p = 1 \/ p = 2 \/ p = 3) as [-> | [-> | [-> | ->]]] by lia; reflexivity. Qed.

Lemma draw_match_eq : forall p a e, seat p -> legal_action a -> writes a e ->
  draw_match p e = Ok (match a with Draw q t => if q =? p then Some (str_int t) else None | _ => None end).
Proof.
  intros p a e P L W. unfold draw_match. rewrite nth_draw by auto. cbn [bindr]. f_equal.
  unfold seat in P. destruct a as [d|q t|q t|q v|t|]; cbn [legal_action writes] in *; unfold draw_letter, discard_letter, seat, valid_tile in *.
  - destruct W as (-> & _). show_tags. apply regex_prefix_other. lia.
  - rewrite W. destruct (q =? p) eqn:E; [apply Z.eqb_eq in E; subst; apply regex_prefix_str; lia|].
    apply Z.eqb_neq in E. apply regex_prefix_other. lia.
  - rewrite W. apply regex_prefix_other. lia.
  - destruct W as (-> & _). show_tags. apply regex_prefix_other. lia.
  - destruct W as (-> & _). show_tags. apply regex_prefix_other. lia.
  - apply tile_tag_dec; [tauto|lia].
Qed.
Lemma discard_match_eq : forall p a e, seat p -> legal_action a -> writes a e ->
  discard_match p e = Ok (match a with Discard q t => if q =? p then Some (str_int t) else None | _ => None end).
Proof.
  intros p a e P L W. unfold discard_match. rewrite nth_discard by auto. cbn [bindr]. f_equal.
  unfold seat in P. destruct a as [d|q t|q t|q v|t|]; cbn [legal_action writes] in *; unfold draw_letter, discard_letter, seat, valid_tile in *.
  - destruct W as (-> & _). show_tags. apply regex_prefix_other. lia.
  - rewrite W. apply regex_prefix_other. lia.
  - rewrite W. destruct (q =? p) eqn:E; [apply Z.eqb_eq in E; subst; apply regex_prefix_str; lia|].
    apply Z.eqb_neq in E. apply regex_prefix_other. lia.
  - destruct W as (-> & _). show_tags. apply regex_prefix_other. lia.
  - destruct W as (-> & _). unfold regex_prefix. change (t_ "DORA") with [68; 79; 82; 65].
    cbv iota beta. match goal with |- (if ?b then _ else _) = _ => destruct b end; reflexivity.
  - apply tile_tag_dec; [tauto|lia].
Qed.
Lemma discard_value_eq : forall a e, legal_action a -> writes a e ->
  discard_value e = match a with Discard _ t => Some t | _ => None end.
Proof.
  intros a e L W. unfold discard_value.
  destruct a as [d|q t|q t|q v|t|]; cbn [legal_action writes] in *; unfold draw_letter, discard_letter, seat, valid_tile in *.
  - destruct W as (-> & _). reflexivity.
  - rewrite W, regex_full_other; auto. unfold DISCARD_INDICATOR. cbn [In]. lia.
  - rewrite W, regex_full_str; [|unfold DISCARD_INDICATOR; cbn [In]; lia|lia]. cbn [option_map snd]. now rewrite (proj2 (proj2 (str_int_nonneg t ltac:(lia)))).
  - destruct W as (-> & _). reflexivity.
  - destruct W as (-> & _). reflexivity.
  - now rewrite (proj1 (tile_tag_full (tag e) ltac:(tauto))).
Qed.
Lemma holds_attr : forall e n v, holds e n v -> attr e n = Ok v.
Proof. unfold holds, attr. now intros e n v ->. Qed.
Lemma player_open_eq : forall p a e, legal_action a -> writes a e ->
  player_open_hand p e = Ok (match a with Call q _ => q =? p | _ => false end).
Proof.
  intros p a e L W. unfold player_open_hand, triggered_by. rewrite (open_tag a e L W).
  destruct a as [d|q t|q t|q v|t|]; try reflexivity. cbn [is_Call]. destruct W as (_ & W & _).
  rewrite (holds_attr _ _ _ W). cbn [bindr]. now rewrite py_int_str.
Qed.
Lemma meld_from_eq : forall p v e, writes (Call p v) e -> meld_from e = meld_from_code p v.
Proof.
  intros p v e (_ & A & B). unfold meld_from. rewrite (holds_attr _ _ _ A). cbn [bindr]. rewrite py_int_str. cbn [bindr].
  rewrite (holds_attr _ _ _ B). cbn [bindr]. now rewrite py_int_str.
Qed.
Lemma decode_call : forall p v, legal_action (Call p v) -> exists m, meld_from_code p v = Ok m /\ decoded p v m.
Proof.
  intros p v (_ & V & T). destruct (C25_decode p v V T) as (m & E & A & B & C & D & F & G).
  exists m. split; auto. now repeat (split; auto).
Qed.

(** ** passed_events is scanning every event. *)
Fixpoint scan_all (s : gstate) (es : list event) : res gstate :=
  match es with [] => Ok s | e :: r => do s' <- scan s e; scan_all (fst s') r end.

(** Induction on states. *)
Lemma gstate_ind2 : forall P : gstate -> Prop,
  (forall p h, P (SHand p h)) -> (forall p l, P (SMeld p l)) -> (forall p l, P (SDiscard p l)) ->
  (forall l, P (SDora l)) -> (forall n i, P (SInvisible n i)) ->
  (forall l, Forall (fun kx => P (snd kx)) l -> P (SCollection l)) -> forall s, P s.
Proof.
  intros P A B C D E F. fix IH 1. intros [p h|p l|p l|l|n i|l]; [apply A|apply B|apply C|apply D|apply E|].
  apply F. induction l as [|[k x] l Hl]; constructor; [apply IH|apply Hl].
Qed.

Lemma constructed_coll : forall l, constructed (SCollection l) <-> Forall (fun kx => constructed (snd kx)) l.
Proof.
  induction l as [|[k x] l IH]; [split; cbn; auto|]. split; intros H.
  - destruct H as [A B]. constructor; auto. now apply IH.
  - inversion H; subst. split; auto. now apply IH.
Qed.

(** Same class, same player. *)
Fixpoint alike (a b : gstate) : Prop :=
  match a, b with
  | SHand p _, SHand q _ => p = q
  | SMeld p _, SMeld q _ => p = q
  | SDiscard p _, SDiscard q _ => p = q
  | SDora _, SDora _ => True
  | SInvisible n s, SInvisible m s' => n = m /\ (s = None <-> s' = None)
  | SCollection l, SCollection l' =>
    (fix go (l l' : list (text * gstate)) : Prop :=
       match l, l' with
       | [], [] => True
       | (k, x) :: r, (k', y) :: r' => alike x y /\ go r r'
       | _, _ => False
       end) l l'
  | _, _ => False
  end.
Lemma alike_coll : forall l l', alike (SCollection l) (SCollection l') <-> Forall2 (fun a b => alike (snd a) (snd b)) l l'.
Proof.
  induction l as [|[k x] l IH]; intros [|[k' y] l']; (split; intros H); try (now constructor); try (now inversion H); try easy.
  - destruct H as [A B]. constructor; auto. now apply IH.
  - inversion H; subst. split; auto. now apply IH.
Qed.
Lemma alike_refl : forall s, alike s s.
Proof.
  induction s as [| | | | |l IH] using gstate_ind2; cbn; auto; try tauto.
  apply (proj2 (alike_coll l l)). induction IH; constructor; auto.
Qed.

(** Two scans of the same shape: both fail alike, both keep the state, or both change it. *)
Definition same_shape {A B} (x : res (option A)) (y : res (option B)) : Prop :=
  match x, y with
  | Err a, Err b => a = b
  | Ok None, Ok None => True
  | Ok (Some _), Ok (Some _) => True
  | _, _ => False
  end.
Ltac shape := repeat (match goal with
  | |- same_shape (bindr ?x _) (bindr ?x _) => destruct x; cbn [bindr]; [|reflexivity]
  | |- same_shape (if ?b then _ else _) (if ?b then _ else _) => destruct b
  | |- same_shape (match ?b with Some _ => _ | None => _ end) (match ?b with Some _ => _ | None => _ end) => destruct b
  | |- same_shape (Ok _) (Ok _) => exact I
  end).
Lemma hand_shape : forall p h h' e, same_shape (hand_scan p h e) (hand_scan p h' e).
Proof. intros. unfold hand_scan. shape. Qed.
Lemma opt_minus_shape : forall s s' l, (s = None <-> s' = None) ->
  same_shape (do r <- opt_minus s l; Ok (Some r)) (do r <- opt_minus s' l; Ok (Some r)).
Proof.
  intros [s|] [s'|] l H; cbn; auto; [discriminate (proj2 H eq_refl)|discriminate (proj1 H eq_refl)].
Qed.
Lemma invisible_shape : forall n s s' e, (s = None <-> s' = None) -> same_shape (invisible_scan n s e) (invisible_scan n s' e).
Proof. intros n s s' e H. unfold invisible_scan. shape; now apply opt_minus_shape. Qed.
Lemma invisible_some : forall n s e r, invisible_scan n s e = Ok (Some r) ->
  (exists x, s = Some x) \/ initial_invisible n <> None.
Proof.
  intros n [x|] e r H; [left; eauto|]. right. revert H. unfold invisible_scan.
  destruct (is_game_init e).
  - destruct (dora_scan [] e); cbn [bindr]; [|discriminate]. destruct (initial_invisible n); cbn; congruence.
  - destruct (discard_value e) as [t|]; [destruct (negb (t =? 0)); [discriminate|]|];
      (destruct (is_open_hand e); [destruct (meld_from e); discriminate|]);
      (destruct (is_dora_indicator_event e); [destruct (dora_scan [] e); discriminate|discriminate]).
Qed.

Lemma wrap_ok : forall A (mk : A -> gstate) old x b n, wrap mk old x = Ok (b, n) ->
  (x = Ok None /\ b = old /\ n = false) \/ (exists a, x = Ok (Some a) /\ b = mk a /\ n = true).
Proof.
  intros A mk old [[a|]|x] b n H; cbn in H; try discriminate; injection H as <- <-; [right; eauto|left; auto].
Qed.
Definition scan_list (e : event) (l : list (text * gstate)) : res (list (text * gstate)) :=
  mapM (fun kx => do y <- scan (snd kx) e; Ok (fst kx, fst y)) l.
Lemma scan_collection : forall l e, scan (SCollection l) e = do l' <- scan_list e l; Ok (SCollection l', true).
Proof.
  intros l e. cbn [scan].
  enough (Q : (fix go (l : list (text * gstate)) : res (list (text * gstate)) :=
                match l with
                | [] => Ok []
                | (k, x) :: r => do y <- scan x e; do ys <- go r; Ok ((k, fst y) :: ys)
                end) l = scan_list e l) by now rewrite Q.
  induction l as [|[k x] l IH]; auto. unfold scan_list. cbn [mapM fst snd]. rewrite IH.
  destruct (scan x e); reflexivity.
Qed.
Fixpoint any_key (e : event) (l : list (text * gstate)) : res bool :=
  match l with [] => Ok false | kx :: r => do k <- is_key_event (snd kx) e; if k then Ok true else any_key e r end.
Lemma key_collection : forall l e, is_key_event (SCollection l) e = any_key e l.
Proof. intros l e. cbn [is_key_event]. induction l as [|[k x] l IH]; auto. cbn [any_key snd]. now rewrite IH. Qed.

Lemma scan_alike : forall a b e b' n, constructed a -> constructed b -> alike a b -> scan b e = Ok (b', n) ->
  alike a b' /\ constructed b'.
Proof.
  induction a as [p h|p l|p l|l|k i|l IH] using gstate_ind2; intros b e b' n Ca Cb A H; destruct b as [q h'|q l'|q l'|l'|k' i'|l'];
    try contradiction;
    try (cbn [scan] in H; apply wrap_ok in H as [(E & -> & ->)|(a & E & -> & ->)]; now auto).
  - cbn [scan] in H. apply wrap_ok in H as [(E & -> & ->)|(a & E & -> & ->)]; auto. destruct A as [<- A].
    cbn. split; auto. split; auto. destruct i as [x|]; [split; discriminate|].
    assert (i' = None) as -> by tauto. destruct (invisible_some _ _ _ _ E) as [[x X]|X]; [discriminate|]. contradiction.
  - rewrite scan_collection in H. destruct (scan_list e l') as [r|] eqn:E; [|discriminate]. injection H as <- <-.
    apply alike_coll in A. apply constructed_coll in Ca, Cb. rewrite alike_coll, constructed_coll. clear -IH Ca Cb A E.
    revert r E. induction A as [|[k x] [k' y] l l' A1 A2 IHl]; intros r E.
    + injection E as <-. auto.
    + inversion IH as [|? ? I1 I2]; inversion Ca as [|? ? C1 C2]; inversion Cb as [|? ? D1 D2]; subst.
      unfold scan_list in E. cbn [mapM fst snd] in *. destruct (scan y e) as [[y' n]|] eqn:Y; [|discriminate]. cbn [bindr fst] in E.
      fold (scan_list e l') in E. destruct (scan_list e l') as [r'|] eqn:R; [|discriminate]. injection E as <-.
      destruct (I1 _ _ _ _ C1 D1 A1 Y) as [X1 X2]. destruct (IHl I2 C2 D2 _ eq_refl) as [X3 X4]. split; constructor; auto.
Qed.

(** The key test on one state tells what scanning an alike state does. *)
Definition key_ok (k : res bool) (b : gstate) (r : res (gstate * bool)) : Prop :=
  match k with
  | Err x => r = Err x
  | Ok false => exists n, r = Ok (b, n)
  | Ok true => True
  end.
Lemma shape_key : forall A (mk : A -> gstate) (mk' : A -> gstate) old old' x y, same_shape x y ->
  key_ok (do r <- wrap mk old x; Ok (snd r)) old' (wrap mk' old' y).
Proof.
  intros A mk mk' old old' [[a|]|x] [[b|]|y] H; cbn in *; try contradiction; auto; [eauto|congruence].
Qed.
Lemma key_scan : forall a b e, constructed a -> constructed b -> alike a b -> key_ok (is_key_event a e) b (scan b e).
Proof.
  induction a as [p h|p l|p l|l|k i|l IH] using gstate_ind2; intros b e Ca Cb A; destruct b as [q h'|q l'|q l'|l'|k' i'|l'];
    try contradiction.
  - cbn in A. subst q. cbn [is_key_event scan]. apply shape_key, hand_shape.
  - cbn in A. subst q. cbn [is_key_event scan]. unfold meld_scan. destruct (player_open_hand p e) as [[|]|x]; cbn; auto.
    destruct (is_game_init e); cbn; eauto.
  - cbn in A. subst q. cbn [is_key_event scan]. unfold discard_scan. destruct (is_discard p e) as [[|]|x]; cbn [bindr]; cbn; auto.
    destruct (is_game_init e); cbn; eauto.
  - cbn [is_key_event scan]. unfold dora_scan. destruct (is_game_init e); [exact I|].
    destruct (is_dora_indicator_event e); cbn; eauto.
  - destruct A as [<- A]. cbn [is_key_event scan]. apply (shape_key _ _ (fun r => SInvisible k (Some r))). now apply invisible_shape.
  - rewrite key_collection, scan_collection. apply alike_coll in A. apply constructed_coll in Ca, Cb.
    enough (Q : match any_key e l with Err x => scan_list e l' = Err x | Ok false => scan_list e l' = Ok l' | Ok true => True end).
    { unfold key_ok. destruct (any_key e l) as [[|]|x]; auto; rewrite Q; cbn; eauto. }
    induction A as [|[k x] [k' y] l l' A1 A2 IHl]; [reflexivity|].
    inversion IH as [|? ? I1 I2]; inversion Ca as [|? ? C1 C2]; inversion Cb as [|? ? D1 D2]; subst.
    specialize (IHl I2 C2 D2). cbn [any_key snd] in *. unfold scan_list. cbn [mapM fst snd]. fold (scan_list e l').
    specialize (I1 y e C1 D1 A1). unfold key_ok in I1. destruct (is_key_event x e) as [[|]|z]; cbn [bindr]; auto.
    + destruct I1 as [n ->]. cbn [bindr fst]. destruct (any_key e l) as [[|]|w]; auto; now rewrite IHl.
    + now rewrite I1.
Qed.
Theorem passed_is_scan : forall s es, constructed s -> passed_events s es = scan_all s es.
Proof.
  intros s es C. unfold passed_events.
  assert (G : forall es cur, constructed cur -> alike s cur -> key_events s cur es = scan_all cur es).
  { clear es. induction es as [|e r IH]; intros cur Cc A; auto. cbn [key_events scan_all].
    pose proof (key_scan s cur e C Cc A) as K. unfold key_ok in K.
    destruct (is_key_event s e) as [[|]|x]; cbn [bindr].
    - destruct (scan cur e) as [[b n]|x] eqn:E; auto. cbn [bindr fst]. destruct (scan_alike s cur e b n C Cc A E). now apply IH.
    - destruct K as [n ->]. cbn [bindr fst]. now apply IH.
    - now rewrite K. }
  apply G; auto. apply alike_refl.
Qed.
