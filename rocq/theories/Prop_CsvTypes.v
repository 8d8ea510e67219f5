(** C98, continued: the types of the values of a file that is read in pieces. *)
From Verif Require Import Base Parse Text Value Json Transfer Universe Record Csv Prop_Meld StateProofs JsonProofs UniverseProofs
  Spec_Universe Spec_Record Prop_Record Spec_Csv CsvProofs CsvValues Prop_Csv.
From Coq Require Import String List ZArith Lia Bool.
Import ListNotations.
Open Scope list_scope.
Open Scope Z_scope.

Section Types.
Context (none_too cast : bool).
Notation pieces cuts l := (map (convert none_too) (by_pieces cuts l)).
(** What a text becomes depends on its own piece only, before types are made the same. *)
Lemma own_piece (P : text -> Prop) (g : text -> cell) : (forall q, Forall P q -> convert none_too q = map g q) ->
  forall cuts l i s, (forall j x, nth_error l j = Some x -> piece cuts j = piece cuts i -> P x) -> nth_error l i = Some s ->
  nth_error (concat (pieces cuts l)) i = Some (g s).
Proof.
  intros H. induction cuts as [|n cuts IH]; intros l i s A E; cbn [by_pieces map concat].
  - rewrite app_nil_r, H, nth_error_map, E; [reflexivity|]. apply Forall_forall. intros x I0. apply In_nth_error in I0 as [j J]. exact (A j x J eq_refl).
  - assert (Hl : (i < length l)%nat) by (apply nth_error_Some; congruence). cbn [piece] in A. destruct (Nat.ltb_spec i n) as [L|G].
    + rewrite nth_error_app1 by (rewrite convert_length, firstn_length; lia). rewrite H, nth_error_map.
      * assert (Q : nth_error (firstn n l) i = Some s); [|now rewrite Q]. rewrite <- E. clear -L. revert n l L. induction i as [|i IH]; intros [|n] [|x l] L; try lia; try reflexivity. cbn. apply IH. lia.
      * apply Forall_forall. intros x I0. apply In_nth_error in I0 as [j J]. assert (Lj : (j < n)%nat).
        { assert (j < length (firstn n l))%nat by (apply nth_error_Some; congruence). rewrite firstn_length in *. lia. }
        apply (A j x); [|apply Nat.ltb_lt in Lj; now rewrite Lj]. rewrite <- J. symmetry. clear -Lj. revert n l Lj. induction j as [|j IH]; intros [|n] [|x l] L; try lia; try reflexivity. cbn. apply IH. lia.
    + assert (Sk : forall i, nth_error (skipn n l) i = nth_error l (n + i)).
      { clear. revert l. induction n as [|n IH]; intros l i; [reflexivity|]. destruct l as [|x l]; [now destruct i|]. cbn. apply IH. }
      rewrite nth_error_app2 by (rewrite convert_length, firstn_length; lia). rewrite convert_length, firstn_length, Nat.min_l by lia. apply IH.
      * intros j x J Pj. apply (A (n + j)%nat x); [now rewrite <- Sk|]. destruct (Nat.ltb_spec (n + j) n); [lia|]. replace (n + j - n)%nat with j by lia. now rewrite Pj.
      * rewrite Sk. replace (n + (i - n))%nat with i by lia. exact E.
Qed.
Lemma in_pieces cuts : forall l s, In s l -> exists q, In q (by_pieces cuts l) /\ In s q.
Proof.
  induction cuts as [|n cuts IH]; intros l s I0; cbn [by_pieces].
  - exists l. split; [now left|exact I0].
  - rewrite <- (firstn_skipn n l) in I0. apply in_app_or in I0 as [I0|I0]; [exists (firstn n l); split; [now left|exact I0]|].
    destruct (IH _ _ I0) as (q & A & B). exists q. split; [now right|exact B].
Qed.
Lemma pieces_in cuts : forall l q s, In q (by_pieces cuts l) -> In s q -> In s l.
Proof.
  induction cuts as [|n cuts IH]; intros l q s I0 I1; cbn [by_pieces] in I0.
  - destruct I0 as [<-|[]]. exact I1.
  - rewrite <- (firstn_skipn n l). apply in_or_app. destruct I0 as [<-|I0]; [now left|right; eauto].
Qed.
Notation kinds cuts l := (map kind_of (filter (fun q : list cell => match q with [] => false | _ => true end) (pieces cuts l))).
Lemma in_kinds cuts l q : In q (by_pieces cuts l) -> q <> [] -> In (kind_of (convert none_too q)) (kinds cuts l).
Proof.
  intros I0 N. apply in_map, filter_In. split; [now apply in_map|]. pose proof (convert_length none_too q) as L. destruct (convert none_too q); [|reflexivity]. destruct q; [congruence|discriminate L].
Qed.
(** A column with a text that is nothing but a text is left as its pieces are. *)
Lemma text_column cuts l w : In w l -> wordy none_too w -> read_column none_too cast cuts l = concat (pieces cuts l).
Proof.
  intros I0 W. unfold read_column. rewrite concat_filled. destruct (in_pieces cuts l w I0) as (q & A & B).
  assert (K : existsb (kind_eqb KObject) (kinds cuts l) = true).
  { apply existsb_exists. exists (kind_of (convert none_too q)). split; [apply in_kinds; [exact A|intros ->; destruct B]|].
    rewrite (convert_texts none_too q w B W). unfold kind_of. assert (T : existsb (fun c => match c with CText _ => true | _ => false end) (map (fun s => if missing none_too s then CNaN else CText s) q) = true).
    { apply existsb_exists. exists (CText w). split; [|reflexivity]. apply in_map_iff. exists w. destruct W as [M _]. rewrite M. auto. }
    rewrite T. reflexivity. }
  rewrite <- (map_id (concat _)) at 2. apply map_ext. intro c. unfold unify. rewrite K. reflexivity.
Qed.
(** Pieces of whole numbers and of truth values. *)
Definition as_int (s : text) : cell := match int_token s with Some z => CInt z | None => CNaN end.
Lemma ints_piece q : Forall number_text q -> convert none_too q = map as_int q.
Proof.
  intro F. assert (X : exists zs, q = map str_int zs /\ Forall (fun z => fits_64 z = true) zs).
  { induction F as [|s l [z [B ->]] F [zs [-> G]]]; [exists []; split; [reflexivity|constructor]|]. exists (z :: zs). split; [reflexivity|constructor; auto]. }
  destruct X as (zs & -> & G). rewrite convert_ints by (eapply Forall_impl; [|exact G]; intros z B; split; [exact B|apply number_facts]).
  rewrite map_map. apply map_ext. intro z. unfold as_int. now rewrite int_token_int.
Qed.
Definition truth_text (s : text) : Prop := missing none_too s = false /\ int_token s = None /\ float_token s = None /\ exists b, bool_token s = Some b.
Definition as_bool (s : text) : cell := match bool_token s with Some b => CBool b | None => CNaN end.
Lemma bools_piece q : Forall truth_text q -> convert none_too q = map as_bool q.
Proof.
  intro F. destruct q as [|s q]; [reflexivity|]. assert (T : truth_text s) by (now inversion F). destruct T as (M & A & B & _). unfold convert.
  rewrite (all_some_fail none_too int_token (s :: q) s (or_introl eq_refl) M A), (all_some_fail none_too float_token (s :: q) s (or_introl eq_refl) M B).
  rewrite (all_some_ok none_too bool_token (fun x => match bool_token x with Some b => b | None => false end)).
  - rewrite map_map. apply map_ext_in. intros x I0. rewrite Forall_forall in F. destruct (F x I0) as (_ & _ & _ & b & E). unfold as_bool. cbn [or_nan]. now rewrite E.
  - eapply Forall_impl; [|exact F]. intros x (Mx & _ & _ & b & E). rewrite E. auto.
Qed.
(** Columns of numbers. *)
Definition digits_text (s : text) : Prop := number_text s \/ exists m k, s = float_repr m k.
Lemma digits_piece q : q <> [] -> Forall digits_text q ->
  (kind_of (convert none_too q) = KInt \/ kind_of (convert none_too q) = KFloat) /\
  Forall (fun c => (exists z, c = CInt z) \/ (exists m k, c = CFloat (NDec m k))) (convert none_too q) /\
  ((exists m k, In (float_repr m k) q) -> kind_of (convert none_too q) = KFloat).
Proof.
  intros N F. assert (D : Forall number_text q \/ exists m k, In (float_repr m k) q).
  { clear N. induction F as [|s q [A|(m & k & ->)] F IH]; [left; constructor| |right; exists m, k; now left].
    destruct IH as [IH|(m & k & IH)]; [left; now constructor|right; exists m, k; now right]. }
  destruct D as [D|(m & k & D)].
  - assert (X : exists zs, q = map str_int zs /\ convert none_too q = map CInt zs).
    { destruct (mixed_piece none_too q) as [E|E]; [eapply Forall_impl; [|exact D]; auto| |exact E]. exfalso.
      pose proof (ints_piece q D) as Q. rewrite Q in E. destruct q as [|s q]; [congruence|]. cbn [map] in E. unfold as_int in E. destruct (int_token s); discriminate E. }
    destruct X as (zs & E & ->). rewrite ints_kind. split; [now left|]. split; [apply Forall_forall; intros c I0; apply in_map_iff in I0 as (z & <- & _); left; eauto|].
    intros (m & k & I0). rewrite E in I0. apply in_map_iff in I0 as (z & Q & _). pose proof (int_token_float m k) as T. rewrite <- Q, int_token_int in T. discriminate T.
  - assert (Ms : Forall (fun s => missing none_too s = false /\ exists m k, float_token s = Some (CFloat (NDec m k))) q).
    { eapply Forall_impl; [|exact F]. intros s [(z & _ & ->)|(m' & k' & ->)].
      - split; [apply number_facts|]. rewrite float_token_int. unfold dec_of. destruct (if 0 <=? _ then _ else _) as [m' k']. eauto.
      - split; [apply missing_number; [apply (num_nonempty (NDec m' k'))|apply float_chars]|]. rewrite float_token_float. cbn [num_norm]. destruct (dec_norm m' k') as [a b]. eauto. }
    assert (E : convert none_too q = map (fun s => match float_token s with Some c => c | None => CNaN end) q).
    { unfold convert. rewrite (all_some_fail none_too int_token q (float_repr m k) D); [|apply missing_number; [apply (num_nonempty (NDec m k))|apply float_chars]|apply int_token_float].
      rewrite (all_some_ok none_too float_token (fun s => match float_token s with Some c => c | None => CNaN end)).
      - rewrite map_map. reflexivity.
      - eapply Forall_impl; [|exact Ms]. intros s (A & a & b & B). rewrite B. auto. }
    assert (C : Forall (fun c => exists m k, c = CFloat (NDec m k)) (convert none_too q)).
    { rewrite E. apply Forall_map. eapply Forall_impl; [|exact Ms]. intros s (_ & a & b & B). rewrite B. eauto. }
    assert (K : kind_of (convert none_too q) = KFloat).
    { assert (L : convert none_too q <> []) by (pose proof (convert_length none_too q) as L; destruct (convert none_too q); [destruct q; [congruence|discriminate L]|discriminate]).
      clear -C L. unfold kind_of. destruct C as [|c cs (m & k & ->) C]; [congruence|]. cbn [existsb forallb orb andb].
      assert (A : existsb (fun c => match c with CText _ => true | _ => false end) cs = false) by (clear L; induction C as [|x l (a & b & ->) C IH]; [reflexivity|exact IH]).
      assert (B : existsb (fun c => match c with CBool _ => true | _ => false end) cs = false) by (clear L A; induction C as [|x l (a & b & ->) C IH]; [reflexivity|exact IH]).
      now rewrite A, B. }
    rewrite K. split; [now right|]. split; [|auto]. eapply Forall_impl; [|exact C]. intros c H. now right.
Qed.
Lemma float_column cuts l m k : Forall digits_text l -> In (float_repr m k) l ->
  Forall (fun c => exists a b, c = CFloat (NDec a b)) (read_column none_too cast cuts l).
Proof.
  intros F I0. rewrite Forall_forall in F. unfold read_column. rewrite concat_filled. destruct (in_pieces cuts l _ I0) as (q & A & B).
  assert (G : forall q, In q (by_pieces cuts l) -> Forall digits_text q) by (intros r R; apply Forall_forall; intros s Is; apply F; eapply pieces_in; eauto).
  assert (HF : existsb (kind_eqb KFloat) (kinds cuts l) = true).
  { apply existsb_exists. exists (kind_of (convert none_too q)). assert (N : q <> []) by (intros ->; destruct B). split; [now apply in_kinds|].
    destruct (digits_piece q N (G q A)) as (_ & _ & K). rewrite K; [reflexivity|eauto]. }
  assert (NK : forall kd, In kd (kinds cuts l) -> kd = KInt \/ kd = KFloat).
  { intros kd I1. apply in_map_iff in I1 as (c & <- & I1). apply filter_In in I1 as [I1 N]. apply in_map_iff in I1 as (r & <- & R).
    assert (Nr : r <> []) by (intros ->; discriminate N). apply (digits_piece r Nr (G r R)). }
  assert (NO : existsb (kind_eqb KObject) (kinds cuts l) = false).
  { destruct (existsb (kind_eqb KObject) _) eqn:E; [|reflexivity]. apply existsb_exists in E as (kd & I1 & E). destruct (NK kd I1) as [->| ->]; discriminate E. }
  assert (NB : existsb (kind_eqb KBool) (kinds cuts l) = false).
  { destruct (existsb (kind_eqb KBool) _) eqn:E; [|reflexivity]. apply existsb_exists in E as (kd & I1 & E). destruct (NK kd I1) as [->| ->]; discriminate E. }
  assert (NA : forallb (kind_eqb KBool) (kinds cuts l) = false).
  { destruct (forallb _ _) eqn:E; [|reflexivity]. apply existsb_exists in HF as (kd & I1 & HF). rewrite forallb_forall in E. specialize (E kd I1). destruct (NK kd I1) as [->| ->]; discriminate E. }
  apply Forall_map. apply Forall_forall. intros c Ic. apply in_concat in Ic as (cs & I1 & I2). apply in_map_iff in I1 as (r & <- & R).
  assert (Nr : r <> []) by (intros ->; destruct I2). destruct (digits_piece r Nr (G r R)) as (_ & C & _). rewrite Forall_forall in C.
  unfold unify. rewrite NO, NB, NA, HF. cbn [orb andb]. destruct (C c I2) as [(z & ->)|(a & b & ->)]; [|eauto]. unfold dec_of. destruct (if 0 <=? _ then _ else _) as [a b]. eauto.
Qed.
End Types.

(** ** The values that are read. *)
Definition whole (v : val) : Prop := exists z, v = VNum (NInt z) /\ - 2 ^ 63 <= z < 2 ^ 63.
Definition truth (v : val) : Prop := exists b, v = VBool b.
Definition decimal (v : val) : Prop := exists m k, v = VNum (NDec m k).
(** All values of the piece in which row [i] is read are alike. *)
Definition alike (P : val -> Prop) (f : command -> val) (cuts : list nat) (i : nat) (cmds : list command) : Prop :=
  forall j e, nth_error cmds j = Some e -> piece cuts j = piece cuts i -> P (f e).

Lemma whole_text p v : whole v -> number_text (vtext p v).
Proof.
  intros (z & -> & B). exists z. split; [unfold fits_64; apply andb_true_iff; rewrite Z.leb_le, Z.ltb_lt; exact B|]. unfold vtext. destruct (is_text p); reflexivity.
Qed.
Lemma truth_text_of b p v : truth v -> truth_text b (vtext p v).
Proof. intros (x & ->). unfold vtext. destruct (is_text p), x, b; (split; [reflexivity|]; split; [reflexivity|]; split; [reflexivity|]); eexists; reflexivity. Qed.
Lemma decimal_text p m k : vtext p (VNum (NDec m k)) = float_repr m k.
Proof. unfold vtext. destruct (is_text p); reflexivity. Qed.
Lemma field_text state c : nth_text (field_col state) (fields c) = vtext (c_prop c) (field_of state c).
Proof. destruct state; reflexivity. Qed.
Lemma types_row none_too cast cuts cmds file cmds' state i c d : Forall filed cmds -> to_csv cmds = Ok file -> read_clean_csv none_too cast cuts file = Ok cmds' ->
  nth_error cmds i = Some c -> nth_error cmds' i = Some d -> ~ text_property (c_prop c) ->
  ((exists e, In e cmds /\ is_list_value (field_of state e)) ->
     (alike whole (field_of state) cuts i cmds \/ alike truth (field_of state) cuts i cmds) -> field_of state d = field_of state c) /\
  ((forall e, In e cmds -> whole (field_of state e) \/ decimal (field_of state e)) -> (exists e, In e cmds /\ decimal (field_of state e)) -> decimal (field_of state d)).
Proof.
  intros F W R C D N. destruct (back_row none_too cast cuts cmds file cmds' F W R) as [_ B]. destruct (B state i c d C D) as (x & X & _ & V).
  unfold col in X. set (l := map (fun c => nth_text (field_col state) (fields c)) cmds) in *.
  assert (Ln : forall j s, nth_error l j = Some s -> exists e, nth_error cmds j = Some e /\ s = vtext (c_prop e) (field_of state e)).
  { intros j s. unfold l. rewrite nth_error_map. destruct (nth_error cmds j) as [e|]; [|discriminate]. cbn [option_map]. rewrite field_text. intros [= <-]. eauto. }
  assert (Li : nth_error l i = Some (vtext (c_prop c) (field_of state c))) by (unfold l; rewrite nth_error_map, C; cbn [option_map]; now rewrite field_text).
  pose proof (not_text _ N) as NT. unfold is_text in NT. split.
  - intros (e & Ie & L) H. assert (NE : is_text (c_prop e) = false).
    { destruct (is_text (c_prop e)) eqn:Q; [|reflexivity]. apply text_property_b in Q. apply In_nth_error in Ie as [j J]. destruct (filed_writable cmds state j e F J) as [_ Y]. destruct (Y Q) as [Z _]. contradiction. }
    assert (Wd : wordy none_too (vtext (c_prop e) (field_of state e))) by (unfold vtext; rewrite NE; apply wordy_text_value; now right).
    assert (Iw : In (vtext (c_prop e) (field_of state e)) l) by (unfold l; rewrite <- (field_text state e); apply (in_map (fun c => nth_text (field_col state) (fields c))); exact Ie).
    rewrite (text_column none_too cast cuts l _ Iw Wd) in X. destruct H as [H|H].
    + rewrite (own_piece none_too number_text as_int (ints_piece none_too) cuts l i (vtext (c_prop c) (field_of state c))) in X; [|intros j s J P; destruct (Ln j s J) as (e' & E' & ->); apply whole_text, (H j e' E' P)|exact Li].
      injection X as <-. destruct (H i c C eq_refl) as (z & Ez & _). rewrite Ez in *. unfold as_int, vtext in V. fold (is_text (c_prop c)) in NT. rewrite NT in V. cbn [dumps num_repr] in V. rewrite int_token_int in V. cbn [cell_value] in V.
      unfold VInt in V. rewrite json_num in V by exact NT. apply Ok_inj in V. cbn [num_norm] in V. exact V.
    + rewrite (own_piece none_too (truth_text none_too) as_bool (bools_piece none_too) cuts l i (vtext (c_prop c) (field_of state c))) in X; [|intros j s J P; destruct (Ln j s J) as (e' & E' & ->); apply truth_text_of, (H j e' E' P)|exact Li].
      injection X as <-. destruct (H i c C eq_refl) as (b & Eb). rewrite Eb in *. unfold as_bool, vtext in V. fold (is_text (c_prop c)) in NT. rewrite NT in V. 
      assert (Q : bool_token (dumps (VBool b)) = Some b) by (destruct b; reflexivity). rewrite Q in V. cbn [cell_value] in V. rewrite from_str_prop in V. fold (is_text (c_prop c)) in V. rewrite NT in V.
      destruct b; apply Ok_inj in V; exact V.
  - intros A (e & Ie & m & k & Ee). assert (FD : Forall (digits_text) l).
    { apply Forall_forall. intros s Is. apply In_nth_error in Is as [j J]. destruct (Ln j s J) as (e' & E' & ->). destruct (A e' (nth_error_In _ _ E')) as [Q|(m' & k' & Q)]; [left; now apply whole_text|].
      right. rewrite Q, decimal_text. eauto. }
    assert (Im : In (float_repr m k) l) by (rewrite <- (decimal_text (c_prop e) m k), <- Ee; unfold l; rewrite <- (field_text state e); apply (in_map (fun c => nth_text (field_col state) (fields c))); exact Ie).
    pose proof (float_column none_too cast cuts l m k FD Im) as Q. rewrite Forall_forall in Q. destruct (Q x (nth_error_In _ _ X)) as (a & b & ->).
    cbn [cell_value] in V. rewrite json_num in V by exact NT. apply Ok_inj in V. rewrite V. cbn [num_norm]. destruct (dec_norm a b) as [a2 b2]. exists a2, b2. reflexivity.
Qed.
(** If there is a list anywhere in the column, then a whole number among whole numbers comes back as it was, and so does a
    truth value among truth values, in whatever piece the list is. *)
Theorem C98_elsewhere : forall none_too cast cuts cmds file cmds', Forall filed cmds -> to_csv cmds = Ok file -> read_clean_csv none_too cast cuts file = Ok cmds' ->
  forall i c d, nth_error cmds i = Some c -> nth_error cmds' i = Some d -> ~ text_property (c_prop c) ->
  ((exists e, In e cmds /\ is_list_value (c_value e)) -> (alike whole c_value cuts i cmds \/ alike truth c_value cuts i cmds) -> c_value d = c_value c) /\
  ((exists e, In e cmds /\ is_list_value (c_state e)) -> (alike whole c_state cuts i cmds \/ alike truth c_state cuts i cmds) -> c_state d = c_state c).
Proof.
  intros none_too cast cuts cmds file cmds' F W R i c d C D N. split.
  - exact (proj1 (types_row none_too cast cuts cmds file cmds' false i c d F W R C D N)).
  - exact (proj1 (types_row none_too cast cuts cmds file cmds' true i c d F W R C D N)).
Qed.
(** In a column of numbers only, one decimal number turns all whole numbers into decimal ones. *)
Theorem C98_decimals : forall none_too cast cuts cmds file cmds', Forall filed cmds -> to_csv cmds = Ok file -> read_clean_csv none_too cast cuts file = Ok cmds' ->
  forall i c d, nth_error cmds i = Some c -> nth_error cmds' i = Some d -> ~ text_property (c_prop c) ->
  ((forall e, In e cmds -> whole (c_value e) \/ decimal (c_value e)) -> (exists e, In e cmds /\ decimal (c_value e)) -> decimal (c_value d)) /\
  ((forall e, In e cmds -> whole (c_state e) \/ decimal (c_state e)) -> (exists e, In e cmds /\ decimal (c_state e)) -> decimal (c_state d)).
Proof.
  intros none_too cast cuts cmds file cmds' F W R i c d C D N. split.
  - exact (proj2 (types_row none_too cast cuts cmds file cmds' false i c d F W R C D N)).
  - exact (proj2 (types_row none_too cast cuts cmds file cmds' true i c d F W R C D N)).
Qed.

(** *** Cases: a file of five commands, read in a piece of three rows and the rest. *)
Definition point (v : val) (t : Z) : command := mkCmd PV_score U_REPLACE (SId 0) v (Some t) v None.
Definition with_list : list command := [point (VNum (NInt 250)) 0; point (VNum (NInt 240)) 1; point (VNum (NInt 300)) 2; point (VList [VNum (NInt 1)]) 3; point (VNum (NDec 15 1)) 4].
Definition with_decimal : list command := [point (VNum (NInt 250)) 0; point (VNum (NInt 240)) 1; point (VNum (NInt 300)) 2; point (VNum (NInt 7)) 3; point (VNum (NDec 15 1)) 4].
Lemma point_filed v t : unicode_value v -> 0 <= t < 2 ^ 63 -> filed (point v t).
Proof.
  intros U T. assert (W : writable PV_score v) by (split; [exact U|intros X; apply text_property_b in X; discriminate X]).
  split; [exact W|]. split; [exact W|]. split; [right; exists 0; split; [lia|reflexivity]|]. exists t. auto.
Qed.
Example C98_types_case : Forall filed with_list /\ Forall filed with_decimal /\
  alike whole c_value [3%nat] 1 with_list /\ (exists e, In e with_list /\ is_list_value (c_value e)) /\
  (forall e, In e with_decimal -> whole (c_value e) \/ decimal (c_value e)) /\ (exists e, In e with_decimal /\ decimal (c_value e)) /\
  (exists file cmds, to_csv with_list = Ok file /\ read_clean_csv false false [3%nat] file = Ok cmds /\
     map c_value cmds = [VNum (NInt 250); VNum (NInt 240); VNum (NInt 300); VList [VNum (NInt 1)]; VNum (NDec 15 1)]) /\
  (exists file cmds, to_csv with_decimal = Ok file /\ read_clean_csv false false [3%nat] file = Ok cmds /\
     map c_value cmds = [VNum (NDec 2500 1); VNum (NDec 2400 1); VNum (NDec 3000 1); VNum (NDec 70 1); VNum (NDec 15 1)]).
Proof.
  assert (U : forall n, unicode_value (VNum n)) by (intro; constructor).
  split; [repeat (constructor; [apply point_filed; [first [apply U|constructor; repeat constructor]|lia]|]); constructor|]. split; [repeat (constructor; [apply point_filed; [first [apply U|constructor; repeat constructor]|lia]|]); constructor|].
  split. { intros [|[|[|[|[|j]]]]] e E P; cbn in E; try (destruct j; discriminate E); try discriminate P; injection E as <-; eexists; (split; [reflexivity|lia]). }
  split; [exists (point (VList [VNum (NInt 1)]) 3); split; [cbn; tauto|eexists; reflexivity]|].
  split. { intros e [<-|[<-|[<-|[<-|[<-|[]]]]]]; try (left; eexists; split; [reflexivity|lia]). right. eexists. eexists. reflexivity. }
  split; [exists (point (VNum (NDec 15 1)) 4); split; [cbn; tauto|eexists; eexists; reflexivity]|].
  split; (eexists; eexists; split; [vm_compute; reflexivity|]; split; [vm_compute; reflexivity|reflexivity]).
Qed.
Print Assumptions C98_elsewhere.
Print Assumptions C98_decimals.
