(** What the reader accepts is a document: the converse of [document_read]. *)
From Verif Require Import Base Category Tile Parse Text Tenhou Event StateProofs Xml Spec_Xml XmlProofs.
From Coq Require Import String List ZArith Lia Bool.
Import ListNotations.
Open Scope list_scope.
Open Scope Z_scope.

Lemma span (P : Z -> bool) s : exists r s', s = r ++ s' /\ Forall (fun c => P c = true) r /\ (s' = [] \/ exists c t, s' = c :: t /\ P c = false).
Proof.
  induction s as [|c s (r & s' & -> & F & E)]; [exists [], []; repeat split; auto|]. destruct (P c) eqn:Pc.
  - exists (c :: r), s'. repeat split; auto.
  - exists [], (c :: r ++ s'). repeat split; auto. right. eauto.
Qed.
Lemma all_blank r : Forall (fun c => xml_blank c = true) r -> blanks r.
Proof. intros H. eapply Forall_impl; [|exact H]. intros c. apply blank_iff. Qed.

(** ** Numbers. *)
Lemma digits_decimal s : s <> [] -> forallb ch_digit s = true -> decimal s (digits_val s).
Proof.
  induction s as [|d s IH] using rev_ind; intros N F; [congruence|]. rewrite forallb_app in F. apply andb_true_iff in F. destruct F as [F G].
  cbn [forallb] in G. apply andb_true_iff in G. destruct G as [G _]. unfold ch_digit in G. apply andb_true_iff in G. rewrite !Z.leb_le in G.
  destruct s as [|x s].
  - replace (digits_val ([] ++ [d])) with (d - 48) by (unfold digits_val; cbn [fold_left app]; lia). cbn [app]. constructor. unfold digit. lia.
  - assert (E : digits_val ((x :: s) ++ [d]) = 10 * digits_val (x :: s) + (d - 48)) by (unfold digits_val; rewrite fold_left_app; cbn [fold_left]; lia).
    rewrite E. constructor; [apply IH; [discriminate|exact F]|unfold digit; lia].
Qed.
Lemma hex_digit_inv c v : hex_digit c = Some v -> hexadecimal_digit c v.
Proof.
  unfold hex_digit, hexadecimal_digit, digit. destruct (in_range 48 57 c) eqn:E1; [apply in_range_iff in E1; intros [= <-]; lia|].
  destruct (in_range 97 102 c) eqn:E2; [apply in_range_iff in E2; intros [= <-]; lia|].
  destruct (in_range 65 70 c) eqn:E3; [apply in_range_iff in E3; intros [= <-]; lia|]. discriminate.
Qed.
Lemma hex_hexadecimal s : s <> [] -> forall n, hex_val 0 s = Some n -> hexadecimal s n.
Proof.
  induction s as [|d s IH] using rev_ind; intros N n H; [congruence|]. rewrite hex_snoc in H.
  destruct (hex_val 0 s) as [x|] eqn:X; [|discriminate]. destruct (hex_digit d) as [v|] eqn:V; [|discriminate]. injection H as <-.
  apply hex_digit_inv in V. destruct s as [|y s].
  - cbn [hex_val] in X. injection X as <-. cbn [app]. constructor. exact V.
  - replace (x * 16 + v) with (16 * x + v) by lia. constructor; [apply IH; [discriminate|reflexivity]|exact V].
Qed.
Lemma legal_inv c x : legal c = Some x -> x = c /\ character c.
Proof. unfold legal. destruct (xml_char c) eqn:E; [|discriminate]. intros [= <-]. split; [reflexivity|now apply char_iff]. Qed.
Definition refers (m : text) (c : Z) : Prop :=
  In (m, c) named_characters \/ (exists s, m = 35 :: s /\ decimal s c /\ character c) \/ (exists s, m = 35 :: 120 :: s /\ hexadecimal s c /\ character c).
Lemma named_inv s c : (if text_eqb s (t_ "amp") then Some 38 else if text_eqb s (t_ "lt") then Some 60 else if text_eqb s (t_ "gt") then Some 62
   else if text_eqb s (t_ "quot") then Some 34 else if text_eqb s (t_ "apos") then Some 39 else None) = Some c -> In (s, c) named_characters.
Proof.
  unfold named_characters. cbn [In]. intros H.
  repeat match type of H with (if text_eqb s ?k then _ else _) = _ => let E := fresh in destruct (text_eqb s k) eqn:E; [apply text_eqb_iff in E; injection H as <-; subst s; tauto|clear E] end.
  discriminate.
Qed.
Lemma decimal_case s c : (if forallb ch_digit s then legal (digits_val s) else None) = Some c -> s <> [] -> decimal s c /\ character c.
Proof.
  intros H N. destruct (forallb ch_digit s) eqn:F; [|discriminate]. apply legal_inv in H. destruct H as [-> C]. split; [now apply digits_decimal|exact C].
Qed.
Lemma reference_eq s : reference s =
  match s with
  | 35 :: x :: r => if (x =? 120) && (match r with [] => false | _ => true end)
                    then match hex_val 0 r with Some c => legal c | None => None end
                    else if forallb ch_digit (x :: r) then legal (digits_val (x :: r)) else None
  | _ => if text_eqb s (t_ "amp") then Some 38 else if text_eqb s (t_ "lt") then Some 60 else if text_eqb s (t_ "gt") then Some 62
         else if text_eqb s (t_ "quot") then Some 34 else if text_eqb s (t_ "apos") then Some 39 else None
  end.
Proof.
  destruct s as [|y s]; [reflexivity|]. destruct (Z.eq_dec y 35) as [->|N].
  - destruct s as [|x r]; [reflexivity|]. destruct (Z.eq_dec x 120) as [->|M].
    + destruct r as [|z r]; reflexivity.
    + rewrite (eqb_false x 120 M). cbn [andb]. destruct x as [|p|p]; try reflexivity.
      do 7 (destruct p as [p|p|]; try reflexivity). congruence.
  - destruct y as [|p|p]; try reflexivity. do 6 (destruct p as [p|p|]; try reflexivity). congruence.
Qed.
Lemma reference_inv m c : reference m = Some c -> refers m c.
Proof.
  rewrite reference_eq. intros H. destruct m as [|y m]; [left; now apply named_inv|]. destruct (Z.eq_dec y 35) as [->|N].
  - destruct m as [|x r]; [left; now apply named_inv|]. destruct (Z.eq_dec x 120) as [->|M].
    + destruct r as [|z r].
      * cbn [Z.eqb Pos.eqb andb] in H. right. left. exists [120]. split; [reflexivity|]. apply decimal_case; [exact H|discriminate].
      * cbn [Z.eqb Pos.eqb andb] in H. right. right. exists (z :: r). split; [reflexivity|]. destruct (hex_val 0 (z :: r)) as [n|] eqn:X; [|discriminate].
        apply legal_inv in H. destruct H as [-> C]. split; [apply hex_hexadecimal; [discriminate|exact X]|exact C].
    + rewrite (eqb_false x 120 M) in H. cbn [andb] in H. right. left. exists (x :: r). split; [reflexivity|]. apply decimal_case; [exact H|discriminate].
  - left. apply named_inv. destruct y as [|p|p]; try exact H. do 6 (destruct p as [p|p|]; try exact H). congruence.
Qed.

Section Accepted.
Variables (root : event) (es : list event).
Definition D (s : state) : Prop := answer s = Document root es.
Lemma no_bad s : D (run Bad s) -> False.
Proof. rewrite run_bad. discriminate. Qed.
Lemma no_other s : D (run Other s) -> False.
Proof. rewrite run_other. discriminate. Qed.
Lemma no_ob c s : D (run (other_or_bad c) s) -> False.
Proof. unfold other_or_bad. destruct (beyond c); [apply no_other|apply no_bad]. Qed.
Ltac refuse H := exfalso; first [exact (no_bad _ H) | exact (no_other _ H) | exact (no_ob _ _ H) | discriminate H].

(** ** Values. *)
Lemma ref_inv d t l n q v s : forall r, D (run (Ref d t l n q v r) s) ->
  exists m c rest, s = m ++ [59] ++ rest /\ reference (rev r ++ m) = Some c /\ D (run (Value d t l n q (c :: v)) rest).
Proof.
  induction s as [|c s IH]; intros r H; [refuse H|]. rewrite run_cons in H. cbn [step] in H. destruct (c =? 59) eqn:E.
  - apply Z.eqb_eq in E. subst c. destruct (reference (rev r)) as [x|] eqn:R; [|refuse H]. exists [], x, s. rewrite app_nil_r. auto.
  - destruct (name_char c || (c =? 35)); [|refuse H]. destruct (IH _ H) as (m & x & rest & -> & R & G). exists (c :: m), x, rest.
    cbn [rev] in R. rewrite <- app_assoc in R. auto.
Qed.
Lemma refers_written q m c v s : refers m c -> written q v s -> written q (c :: v) (38 :: m ++ [59] ++ s).
Proof.
  intros [H|[(x & -> & H & C)|(x & -> & H & C)]] W.
  - exact (wr_name q m c v s H W).
  - exact (wr_decimal q x c v s H C W).
  - exact (wr_hexadecimal q x c v s H C W).
Qed.
Lemma value_inv d t l n q : forall k s v0, (length s <= k)%nat -> D (run (Value d t l n q v0) s) ->
  exists v x rest, s = x ++ [q] ++ rest /\ written q v x /\ D (run (end_value d t l n (rev v0 ++ v)) rest).
Proof.
  induction k as [|k IH]; intros [|c s] v0 L H; cbn [length] in L; try lia; [refuse H|refuse H|].
  rewrite run_cons in H. cbn [step] in H. destruct (c =? q) eqn:Eq.
  { apply Z.eqb_eq in Eq. subst c. exists [], [], s. rewrite app_nil_r. split; [reflexivity|]. split; [constructor|exact H]. }
  destruct (c =? 38) eqn:E38.
  { apply Z.eqb_eq in E38. subst c. destruct (ref_inv _ _ _ _ _ _ _ _ H) as (m & c & rest & -> & R & G). apply reference_inv in R. cbn [rev app] in R.
    destruct (IH rest (c :: v0)) as (v & x & rest' & -> & W & G'); [rewrite !app_length in L; cbn [length] in L; lia|exact G|].
    exists (c :: v), (38 :: m ++ [59] ++ x), rest'. split; [cbn [app]; f_equal; rewrite <- app_assoc; reflexivity|]. split; [now apply refers_written|].
    cbn [rev] in G'. rewrite <- app_assoc in G'. exact G'. }
  destruct (c =? 60) eqn:E60; [refuse H|]. destruct (c =? 13) eqn:E13; [refuse H|].
  apply Z.eqb_neq in Eq, E38, E60, E13.
  destruct ((c =? 9) || (c =? 10)) eqn:E9.
  { destruct (IH s (32 :: v0)) as (v & x & rest & -> & W & G); [lia|exact H|]. exists (32 :: v), (c :: x), rest. split; [reflexivity|].
    split; [|cbn [rev] in G; rewrite <- app_assoc in G; exact G]. apply orb_true_iff in E9. rewrite !Z.eqb_eq in E9. apply wr_blank; [cbn [In]; intuition|exact W]. }
  destruct (xml_char c) eqn:X; [|refuse H].
  destruct (IH s (c :: v0)) as (v & x & rest & -> & W & G); [lia|exact H|]. exists (c :: v), (c :: x), rest. split; [reflexivity|].
  split; [|cbn [rev] in G; rewrite <- app_assoc in G; exact G]. apply orb_false_iff in E9. rewrite !Z.eqb_neq in E9. apply wr_plain; [now apply char_iff| |exact W].
  cbn [In]. intuition congruence.
Qed.

(** ** Attributes. *)
Lemma end_value_inv d t l n v s : D (run (end_value d t l n v) s) -> n <> t_ "xmlns" /\ ~ In n (map fst l) /\ D (run (InTag d t ((n, v) :: l) false) s).
Proof.
  unfold end_value. destruct (text_eqb n (t_ "xmlns")) eqn:E; [intros H; refuse H|]. destruct (existsb _ l) eqn:X; [intros H; refuse H|]. intros H.
  split; [intros ->; rewrite (proj2 (text_eqb_iff _ _) eq_refl) in E; discriminate|]. split; [|exact H].
  intros I1. apply in_map_iff in I1. destruct I1 as (kv & <- & I1).
  assert (existsb (fun kv0 => text_eqb (fst kv0) (fst kv)) l = true) by (apply existsb_exists; exists kv; split; [exact I1|now apply text_eqb_iff]). congruence.
Qed.
Lemma attrname_inv d t l n s : D (run (AttrName d t l n) s) ->
  exists r w1 w2 q v x rest, s = r ++ w1 ++ t_ "=" ++ w2 ++ [q] ++ x ++ [q] ++ rest /\ Forall (fun c => name_char c = true) r /\ blanks w1 /\ blanks w2 /\
    In q [34; 39] /\ written q v x /\ D (run (end_value d t l (rev n ++ r) v) rest).
Proof.
  intros H. destruct (span name_char s) as (r & s' & -> & F & E). rewrite run_app, run_attrname in H by auto.
  assert (A : exists w1 s2, s' = w1 ++ t_ "=" ++ s2 /\ blanks w1 /\ D (run (Equals d t l (rev r ++ n)) s2)).
  { destruct E as [->|(c & u & -> & Nc)]; [refuse H|]. destruct (xml_blank c) eqn:B.
    - rewrite run_cons in H. cbn [step] in H. rewrite Nc, B in H.
      destruct (span xml_blank u) as (w & u' & -> & Fw & E'). rewrite run_app, run_gap in H by now apply all_blank.
      destruct E' as [->|(c' & u2 & -> & Nb)]; [refuse H|]. rewrite run_cons in H. cbn [step] in H. rewrite Nb in H.
      destruct (c' =? 61) eqn:E61; [|refuse H]. apply Z.eqb_eq in E61. subst c'. exists (c :: w), u2. split; [reflexivity|]. split; [|exact H].
      constructor; [now apply blank_iff|now apply all_blank].
    - rewrite run_cons in H. cbn [step] in H. rewrite Nc, B in H. destruct (c =? 61) eqn:E61; [|refuse H]. apply Z.eqb_eq in E61. subst c.
      exists [], u. split; [reflexivity|]. split; [constructor|exact H]. }
  destruct A as (w1 & s2 & -> & W1 & H2). destruct (span xml_blank s2) as (w2 & s3 & -> & F2 & E2). rewrite run_app, run_equals in H2 by now apply all_blank.
  destruct E2 as [->|(q & s4 & -> & Nq)]; [refuse H2|]. rewrite run_cons in H2. cbn [step] in H2. rewrite Nq in H2.
  destruct ((q =? 34) || (q =? 39)) eqn:Q; [|refuse H2]. apply orb_true_iff in Q. rewrite !Z.eqb_eq in Q.
  destruct (value_inv _ _ _ _ _ _ s4 [] (le_n _) H2) as (v & x & rest & -> & W & G).
  exists r, w1, w2, q, v, x, rest. split; [reflexivity|]. split; [exact F|]. split; [exact W1|]. split; [now apply all_blank|]. split; [cbn [In]; intuition|].
  split; [exact W|]. rewrite rev_app_distr, rev_involutive in G. exact G.
Qed.
Definition ends (d : doc) (e : event) (s : text) : Prop :=
  (exists rest, s = t_ "/>" ++ rest /\ D (run (Between (add_element d e)) rest)) \/
  (exists rest, s = t_ ">" ++ rest /\ D (run (Between (push (add_element d e) (tag e))) rest)).
Lemma slash_inv d t l s : D (run (Slash d t l) s) -> ends d (mkEvent t (rev l)) (47 :: s).
Proof.
  destruct s as [|c s]; intros H; [refuse H|]. rewrite run_cons in H. cbn [step] in H. destruct (c =? 62) eqn:E; [|refuse H]. apply Z.eqb_eq in E. subst c.
  left. exists s. auto.
Qed.
Lemma start_inv d t l s : D (run (start_tag d t l) s) -> ends d (mkEvent t (rev l)) (62 :: s).
Proof. intros H. right. exists s. auto. Qed.
Lemma named c r : name_start c = true -> Forall (fun c => name_char c = true) r -> name (c :: r).
Proof. intros A F. exists c, r. split; [reflexivity|]. split; [now apply start_iff|]. eapply Forall_impl; [|exact F]. intros x. apply name_iff. Qed.
Lemma intag_inv d t : forall k s acc, (length s <= k)%nat -> NoDup (map fst acc) -> D (run (InTag d t acc false) s) ->
  exists l a w rest, s = a ++ w ++ rest /\ attributes l a /\ blanks w /\ NoDup (map fst (rev l ++ acc)) /\ ends d (mkEvent t (rev acc ++ l)) rest.
Proof.
  induction k as [|k IH]; intros s acc L N H; [destruct s; [refuse H|cbn [length] in L; lia]|].
  destruct (span xml_blank s) as (w & s' & -> & F & E). apply all_blank in F. rewrite run_app, run_intag in H by exact F.
  destruct E as [->|(c & u & -> & Nb)]; [refuse H|]. rewrite run_cons in H. cbn [step] in H. rewrite Nb in H.
  destruct (c =? 47) eqn:E47.
  { apply Z.eqb_eq in E47. subst c. exists [], [], w, (47 :: u). rewrite app_nil_r. split; [reflexivity|]. split; [constructor|]. split; [exact F|]. split; [exact N|now apply slash_inv]. }
  destruct (c =? 62) eqn:E62.
  { apply Z.eqb_eq in E62. subst c. exists [], [], w, (62 :: u). rewrite app_nil_r. split; [reflexivity|]. split; [constructor|]. split; [exact F|]. split; [exact N|now apply start_inv]. }
  destruct (name_start c) eqn:S0; [|refuse H]. destruct w as [|b w]; [refuse H|].
  destruct (attrname_inv _ _ _ _ _ H) as (r & w1 & w2 & q & v & x & rest & -> & Fr & W1 & W2 & Q & Wv & G). apply end_value_inv in G. cbn [rev app] in G.
  destruct G as (Nx & Ni & G).
  destruct (IH rest ((c :: r, v) :: acc)) as (l & a & w' & rest' & -> & A & W' & Nd & En).
  { change (t_ "=") with [61] in L. unfold text in *. repeat (cbn [app length] in L; rewrite ?app_length in L). lia. }
  { cbn [map fst]. now constructor. }
  { exact G. }
  exists ((c :: r, v) :: l), ((b :: w) ++ (c :: r) ++ w1 ++ t_ "=" ++ w2 ++ [q] ++ x ++ [q] ++ a), w', rest'.
  split. { change (t_ "=") with [61]. repeat (cbn [app]; rewrite <- ?app_assoc). reflexivity. }
  split. { apply at_one; auto; [discriminate|]. now apply named. }
  split; [exact W'|]. split.
  - cbn [rev]. rewrite <- app_assoc. exact Nd.
  - cbn [rev] in En. rewrite <- app_assoc in En. exact En.
Qed.
Lemma less_inv d c s : name_start c = true -> D (run (TagName d [c]) s) -> exists e o rest, c :: s = o ++ rest /\ opening e o /\ ends d e rest.
Proof.
  intros S0 H. destruct (span name_char s) as (r & s' & -> & F & E). rewrite run_app, run_tagname in H by auto.
  assert (Nm : name (c :: r)) by now apply named.
  assert (Rv : rev (rev r ++ [c]) = c :: r) by now rewrite rev_app_distr, rev_involutive.
  assert (Empty : opening (mkEvent (c :: r) []) (c :: r)).
  { exists [], []. cbn [tag attrib map]. split; [exact Nm|]. split; [constructor|]. split; [constructor|]. split; [constructor|]. now rewrite !app_nil_r. }
  destruct E as [->|(x & u & -> & Nc)]; [refuse H|]. destruct (xml_blank x) eqn:B.
  - rewrite first_blank in H by now apply blank_iff. rewrite Rv in H.
    destruct (intag_inv d (c :: r) _ (x :: u) [] (le_n _) (NoDup_nil _) H) as (l & a & w & rest & E & A & W & N & En). rewrite app_nil_r in N. cbn [rev app] in En.
    exists (mkEvent (c :: r) l), ((c :: r) ++ a ++ w), rest. split; [rewrite E; cbn [app]; now rewrite <- !app_assoc|]. split; [|exact En].
    exists a, w. cbn [tag attrib]. split; [exact Nm|]. split; [|auto]. rewrite map_rev in N. apply NoDup_rev in N. now rewrite rev_involutive in N.
  - rewrite run_cons in H. cbn [step] in H. rewrite Nc, B, Rv in H. destruct (x =? 47) eqn:E47.
    { apply Z.eqb_eq in E47. subst x. exists (mkEvent (c :: r) []), (c :: r), (47 :: u). split; [reflexivity|]. split; [exact Empty|now apply slash_inv in H]. }
    destruct (x =? 62) eqn:E62; [|refuse H].
    apply Z.eqb_eq in E62. subst x. exists (mkEvent (c :: r) []), (c :: r), (62 :: u). split; [reflexivity|]. split; [exact Empty|now apply start_inv in H].
Qed.
Lemma end_tag_inv d n s : D (run (end_tag d n) s) -> exists r, d_open d = n :: r /\ D (run (Between (mkDoc r (d_root d) (d_seen d))) s).
Proof.
  unfold end_tag. destruct (d_open d) as [|x r]; [intros H; refuse H|]. destruct (text_eqb x n) eqn:E; [|intros H; refuse H].
  apply text_eqb_iff in E. subst x. eauto.
Qed.
Lemma endname_inv d s : D (run (EndName d []) s) -> exists n w rest, s = n ++ w ++ t_ ">" ++ rest /\ blanks w /\ D (run (end_tag d n) rest).
Proof.
  destruct s as [|c s]; intros H; [refuse H|]. rewrite run_cons in H. cbn [step] in H. destruct (name_start c) eqn:S0.
  - destruct (span name_char s) as (r & s' & -> & F & E). rewrite run_app, run_endname in H by auto.
    assert (Rv : rev (rev r ++ [c]) = c :: r) by now rewrite rev_app_distr, rev_involutive.
    assert (Ne : exists x y, rev r ++ [c] = x :: y) by (destruct (rev r ++ [c]) as [|x y] eqn:Q; [destruct (rev r); discriminate|eauto]).
    destruct Ne as (y & z & Ne). rewrite Ne in *. destruct E as [->|(x & u & -> & Nc)]; [refuse H|]. rewrite run_cons in H. cbn [step] in H. rewrite Nc in H.
    destruct (x =? 62) eqn:E62.
    + apply Z.eqb_eq in E62. subst x. rewrite Rv in H. exists (c :: r), [], u. split; [reflexivity|]. split; [constructor|exact H].
    + destruct (xml_blank x) eqn:B; [|refuse H]. destruct (span xml_blank u) as (w & u' & -> & Fw & E'). apply all_blank in Fw. rewrite run_app, run_endgap in H by auto.
      destruct E' as [->|(x' & u2 & -> & Nb)]; [refuse H|]. rewrite run_cons in H. cbn [step] in H. rewrite Nb in H. destruct (x' =? 62) eqn:E2; [|refuse H].
      apply Z.eqb_eq in E2. subst x'. rewrite Rv in H. exists (c :: r), (x :: w), u2. split; [reflexivity|]. split; [|exact H]. constructor; [now apply blank_iff|exact Fw].
  - destruct (c =? 62) eqn:E62.
    + apply Z.eqb_eq in E62. subst c. exists [], [], s. split; [reflexivity|]. split; [constructor|exact H].
    + destruct (xml_blank c); refuse H.
Qed.
Lemma between_inv : forall k s d t r, (length s <= k)%nat -> d_open d = t :: r -> D (run (Between d) s) ->
  exists l x w rest, s = x ++ t_ "</" ++ t ++ w ++ t_ ">" ++ rest /\ content l x /\ blanks w /\
    D (run (Between (mkDoc r (d_root (add_all d l)) (d_seen (add_all d l)))) rest).
Proof.
  induction k as [|k IH]; intros s d t r L O H; [destruct s; [|cbn [length] in L; lia]; destruct d as [o1 r1 s1]; cbn [d_open] in O; subst; refuse H|].
  destruct (span xml_blank s) as (w & s' & -> & F & E). apply all_blank in F. rewrite run_app, run_between in H by exact F.
  destruct E as [->|(c & u & -> & Nb)]; [destruct d as [o1 r1 s1]; cbn [d_open] in O; subst; refuse H|]. rewrite run_cons in H. cbn [step] in H. rewrite Nb, O in H.
  destruct (c =? 60) eqn:E60; [|destruct (xml_char c); refuse H]. apply Z.eqb_eq in E60. subst c. rewrite app_length in L. cbn [length] in L.
  destruct u as [|c u]; [refuse H|]. rewrite run_cons in H. cbn [step] in H. rewrite O in H. cbn [length] in L.
  destruct (c =? 47) eqn:E47.
  { apply Z.eqb_eq in E47. subst c. destruct (endname_inv _ _ H) as (n & w' & rest & -> & W' & G). destruct (end_tag_inv _ _ _ G) as (r' & O' & G').
    rewrite O in O'. injection O' as <- <-. exists [], w, w', rest. split; [reflexivity|]. split; [now constructor|]. split; [exact W'|]. exact G'. }
  destruct ((c =? 33) || (c =? 63)); [refuse H|]. destruct (name_start c) eqn:S0; [|refuse H].
  destruct (less_inv d c u S0 H) as (e & o & rest & Eq & Op & En).
  assert (Ls : (length rest <= length u)%nat).
  { apply (f_equal (@length Z)) in Eq. rewrite app_length in Eq. cbn [length] in Eq. destruct Op as (a & w0 & (x0 & y0 & Et & _) & _ & _ & _ & ->). rewrite Et in Eq. cbn [app length] in Eq. lia. }
  assert (O' : d_open (add_element d e) = t :: r) by (rewrite add_open by congruence; exact O).
  destruct En as [(rest1 & -> & G)|(rest1 & -> & G)].
  - destruct (IH rest1 (add_element d e) t r) as (l & x & w' & rest2 & -> & C & W' & G'); [cbn [app length] in Ls; change (t_ "/>") with [47; 62] in Ls; cbn [app length] in Ls; lia|exact O'|exact G|].
    exists (e :: l), (w ++ t_ "<" ++ o ++ t_ "/>" ++ x), w', rest2.
    split; [change (60 :: c :: u) with (t_ "<" ++ (c :: u)); rewrite Eq, <- !app_assoc; reflexivity|]. split; [now constructor|]. split; [exact W'|exact G'].
  - change (t_ ">") with [62] in Ls. cbn [app length] in Ls.
    destruct (IH rest1 (push (add_element d e) (tag e)) (tag e) (t :: r)) as (l1 & x1 & w1 & rest2 & -> & C1 & W1 & G1); [lia|unfold push; cbn [d_open]; now rewrite O'|exact G|].
    rewrite (add_all_deep _ (tag e) t r) in G1 by (unfold push; cbn [d_open]; now rewrite O').
    unfold push in G1. cbn [d_root d_seen] in G1.
    replace (mkDoc (t :: r) (d_root (add_element d e)) (d_seen (add_element d e))) with (add_element d e) in G1 by (destruct (add_element d e) as [o1 r1 s1]; cbn [d_open d_root d_seen] in *; now rewrite O').
    destruct (IH rest2 (add_element d e) t r) as (l & x & w' & rest3 & -> & C & W' & G'); [rewrite !app_length in Ls; lia|exact O'|exact G1|].
    exists (e :: l), (w ++ t_ "<" ++ o ++ t_ ">" ++ x1 ++ t_ "</" ++ tag e ++ w1 ++ t_ ">" ++ x), w', rest3.
    split. { change (60 :: c :: u) with (t_ "<" ++ (c :: u)). rewrite Eq, <- !app_assoc. reflexivity. }
    split; [now apply co_full with (inner := l1)|]. split; [exact W'|exact G'].
Qed.
End Accepted.

Lemma after_answer e seen s r es : D r es (run (Between (mkDoc [] (Some e) seen)) s) -> blanks s /\ r = e /\ es = rev seen.
Proof.
  intros H. assert (B : blanks s) by (eapply after_root; [exact H|eauto]). split; [exact B|]. rewrite run_between in H by exact B.
  unfold D in H. cbn [answer] in H. injection H as -> ->. auto.
Qed.
Lemma read_document root es s : fromstring s = Document root es -> document root es s.
Proof.
  unfold fromstring. set (d0 := mkDoc [] None []). intros H. change (D root es (run (Between d0) s)) in H.
  destruct (span xml_blank s) as (w & s' & -> & F & E). apply all_blank in F. rewrite run_app, run_between in H by exact F.
  destruct E as [->|(c & u & -> & Nb)]; [discriminate H|]. rewrite run_cons in H. cbn [step] in H. rewrite Nb in H. cbn [d_open d0] in H.
  destruct (c =? 60) eqn:E60; [|exfalso; destruct (c =? 65279); [exact (no_other _ _ _ H)|exact (no_bad _ _ _ H)]]. apply Z.eqb_eq in E60. subst c.
  destruct u as [|c u]; [discriminate H|]. rewrite run_cons in H. cbn [step d_open d_root] in H.
  destruct (c =? 47); [exfalso; exact (no_bad _ _ _ H)|]. destruct ((c =? 33) || (c =? 63)); [exfalso; exact (no_other _ _ _ H)|].
  destruct (name_start c) eqn:S0; [|exfalso; exact (no_ob _ _ _ _ H)].
  destruct (less_inv root es d0 c u S0 H) as (e & o & rest & Eq & Op & En). change (60 :: c :: u) with (t_ "<" ++ (c :: u)). rewrite Eq.
  destruct En as [(rest1 & -> & G)|(rest1 & -> & G)].
  - apply after_answer in G. destruct G as (B & -> & ->). exists w, o, rest1. split; [exact F|]. split; [exact Op|]. split; [exact B|]. right. split; [reflexivity|]. rewrite <- ?app_assoc; reflexivity.
  - destruct (between_inv root es _ rest1 (push (add_element d0 e) (tag e)) (tag e) [] (le_n _) eq_refl G) as (l & x & w1 & rest2 & -> & C & W1 & G1).
    rewrite (add_all_children _ (tag e)) in G1 by reflexivity. cbn [d_root d_seen push add_element d0 d_open] in G1. rewrite app_nil_r in G1.
    apply after_answer in G1. destruct G1 as (B & -> & ->). rewrite rev_involutive. exists w, o, rest2. split; [exact F|]. split; [exact Op|]. split; [exact B|].
    left. exists x, w1. split; [exact C|]. split; [exact W1|]. rewrite <- ?app_assoc; reflexivity.
Qed.
