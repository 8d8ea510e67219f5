(** C133, C134: whose event an event is; which calls are open.

    C133 in English: an element [T12] is read alike by all functions: it is a draw, of tile 12, by seat 0 and no
    other seat, and no discard (letters T U V W for the draws of seats 0 to 3, D E F G for their discards); the
    functions on a whole tag and those of a player agree.  An element N, REACH, AGARI with attribute [who]
    belongs to that seat only. *)
From Verif Require Import Base Category Tile Parse Text Tenhou Spec_Meld Event StateProofs Prop_Meld.
From Coq Require Import String List ZArith Lia Bool.
Import ListNotations.
Open Scope list_scope.
Open Scope Z_scope.

(** The element that Tenhou writes for a draw and a discard. *)
Definition draws (e : event) (seat number : Z) : Prop :=
  0 <= number /\
  ((seat = 0 /\ tag e = t_ "T" ++ str_int number) \/ (seat = 1 /\ tag e = t_ "U" ++ str_int number) \/
   (seat = 2 /\ tag e = t_ "V" ++ str_int number) \/ (seat = 3 /\ tag e = t_ "W" ++ str_int number)).
Definition discards (e : event) (seat number : Z) : Prop :=
  0 <= number /\
  ((seat = 0 /\ tag e = t_ "D" ++ str_int number) \/ (seat = 1 /\ tag e = t_ "E" ++ str_int number) \/
   (seat = 2 /\ tag e = t_ "F" ++ str_int number) \/ (seat = 3 /\ tag e = t_ "G" ++ str_int number)).
Definition a_seat (i : Z) : Prop := i = 0 \/ i = 1 \/ i = 2 \/ i = 3.

Ltac letters := change (t_ "T") with [84] in *; change (t_ "U") with [85] in *; change (t_ "V") with [86] in *; change (t_ "W") with [87] in *;
  change (t_ "D") with [68] in *; change (t_ "E") with [69] in *; change (t_ "F") with [70] in *; change (t_ "G") with [71] in *; cbn [app] in *.
Ltac of_seat := change (py_nth DRAW_INDICATOR 0) with (Ok 84); change (py_nth DRAW_INDICATOR 1) with (Ok 85);
  change (py_nth DRAW_INDICATOR 2) with (Ok 86); change (py_nth DRAW_INDICATOR 3) with (Ok 87);
  change (py_nth DISCARD_INDICATOR 0) with (Ok 68); change (py_nth DISCARD_INDICATOR 1) with (Ok 69);
  change (py_nth DISCARD_INDICATOR 2) with (Ok 70); change (py_nth DISCARD_INDICATOR 3) with (Ok 71);
  cbn [bindr]; rewrite ?regex_prefix_str, ?regex_prefix_other by (assumption || lia); cbn [bindr matched].
Lemma value_same n : 0 <= n -> digits_val (str_int n) = n.
Proof. intros L. now destruct (str_int_nonneg n L) as (_ & _ & V). Qed.
Ltac full L n := match goal with |- context[regex_full DRAW_INDICATOR (?l :: _)] =>
    (rewrite (regex_full_str DRAW_INDICATOR l n) by (cbn; lia)) || (rewrite (regex_full_other DRAW_INDICATOR l) by (cbn; lia));
    (rewrite (regex_full_str DISCARD_INDICATOR l n) by (cbn; lia)) || (rewrite (regex_full_other DISCARD_INDICATOR l) by (cbn; lia)) end;
  cbn [option_map fst snd]; rewrite (value_same n L).

Theorem C133_draw : forall e seat n, draws e seat n ->
  draw_value e = Some n /\ tile_change DRAW_INDICATOR e = Some (seat, n) /\ draw_tile_index seat e = Ok n /\
  discard_value e = None /\ tile_change DISCARD_INDICATOR e = None /\
  (forall i, a_seat i -> is_draw i e = Ok (i =? seat) /\ (i <> seat -> draw_tile_index i e = Err AttributeError)) /\
  (forall i, a_seat i -> is_discard i e = Ok false /\ discard_tile_index i e = Err AttributeError).
Proof.
  intros e seat n [L H]. unfold a_seat, draw_value, discard_value, tile_change, draw_tile_index, discard_tile_index, is_draw, is_discard, draw_match, discard_match.
  destruct H as [[-> ->]|[[-> ->]|[[-> ->]|[-> ->]]]]; letters; full L n;
  (split; [reflexivity|]); (split; [reflexivity|]); (split; [of_seat; now rewrite (value_same n L)|]); (split; [reflexivity|]); (split; [reflexivity|]);
  (split; intros i [-> |[-> |[-> | ->]]]; of_seat; (split; [reflexivity|]); first [reflexivity | intros X; first [reflexivity | now destruct X]]).
Qed.
Theorem C133_discard : forall e seat n, discards e seat n ->
  discard_value e = Some n /\ tile_change DISCARD_INDICATOR e = Some (seat, n) /\ discard_tile_index seat e = Ok n /\
  draw_value e = None /\ tile_change DRAW_INDICATOR e = None /\
  (forall i, a_seat i -> is_discard i e = Ok (i =? seat) /\ (i <> seat -> discard_tile_index i e = Err AttributeError)) /\
  (forall i, a_seat i -> is_draw i e = Ok false /\ draw_tile_index i e = Err AttributeError).
Proof.
  intros e seat n [L H]. unfold a_seat, draw_value, discard_value, tile_change, draw_tile_index, discard_tile_index, is_draw, is_discard, draw_match, discard_match.
  destruct H as [[-> ->]|[[-> ->]|[[-> ->]|[-> ->]]]]; letters; full L n;
  (split; [reflexivity|]); (split; [reflexivity|]); (split; [of_seat; now rewrite (value_same n L)|]); (split; [reflexivity|]); (split; [reflexivity|]);
  (split; intros i [-> |[-> |[-> | ->]]]; of_seat; (split; [reflexivity|]); first [reflexivity | intros X; first [reflexivity | now destruct X]]).
Qed.

(** The value of an attribute. *)
Definition says (e : event) (name value : text) : Prop := attr e name = Ok value.
Theorem C133_who : forall e who, says e (t_ "who") (str_int who) -> forall i,
  (player_open_hand i e = Ok true <-> tag e = t_ "N" /\ i = who) /\ (player_open_hand i e = Ok false <-> ~ (tag e = t_ "N" /\ i = who)) /\
  (player_reach i e = Ok true <-> tag e = t_ "REACH" /\ i = who) /\ (player_reach i e = Ok false <-> ~ (tag e = t_ "REACH" /\ i = who)) /\
  (player_win i e = Ok true <-> tag e = t_ "AGARI" /\ i = who) /\ (player_win i e = Ok false <-> ~ (tag e = t_ "AGARI" /\ i = who)).
Proof.
  intros e who W i. assert (X : forall s, (triggered_by e i s = Ok true <-> tag e = t_ s /\ i = who) /\ (triggered_by e i s = Ok false <-> ~ (tag e = t_ s /\ i = who))).
  { intros s. unfold triggered_by, has_tag, says in *. rewrite W. cbn [bindr]. rewrite py_int_str. cbn [bindr].
    destruct (text_eqb (tag e) (t_ s)) eqn:T.
    - apply text_eqb_iff in T. destruct (Z.eqb_spec who i) as [E|E].
      + symmetry in E. split; split; intros H; auto; try discriminate. exfalso. apply H. auto.
      + split; split; intros H; try discriminate; auto; [destruct H as [_ H]|intros [_ Q]]; exfalso; apply E; auto.
    - assert (N : tag e <> t_ s) by (intros Q; apply text_eqb_iff in Q; congruence). split; split; intros; try discriminate; tauto. }
  unfold player_open_hand, player_reach, player_win. exact (conj (proj1 (X _)) (conj (proj2 (X _)) (conj (proj1 (X _)) (conj (proj2 (X _)) (X _))))).
Qed.

(** C134 in English: a call is open exactly if it is a chi, a pon or a kan of another player's discard; a concealed
    kan and a kita are not.  The element of an added kan alone is not; together with its pon it is. *)
Theorem C134_open : forall who v m, 0 <= v < 65536 -> meld_from_code who v = Ok m ->
  (is_opened m = true <-> call_kind v = CFlush \/ call_kind v = CTriplet \/ (call_kind v = CKan /\ source v <> 0)).
Proof.
  intros who v m H E. assert (D : tile_field_ok v).
  { destruct (C25_rejected who v) as [R _]. specialize (R H). unfold tile_field_ok in *. destruct (call_kind v); try exact I;
    match goal with |- ?a < ?b => destruct (Z.lt_ge_cases a b) as [Y|Y]; [exact Y|rewrite R in E by lia; discriminate] end. }
  destruct (C25_decode who v H D) as (m' & E' & _ & _ & T & _). rewrite E in E'. apply Ok_inj in E'. subst m'.
  unfold is_opened, taken in *. destruct (m_borrowed m) as [|x l].
  - split; [discriminate|]. intros [K|[K|[K S]]]; rewrite K in T; exfalso; [exact (proj2 (T _) eq_refl)..|exact (proj2 (T _) (conj S eq_refl))].
  - split; [intros _|reflexivity]. specialize (proj1 (T x) (or_introl eq_refl)). destruct (call_kind v); tauto.
Qed.
Theorem C134_added : forall who v w v' t a, 0 <= v < 65536 -> call_kind v = CTriplet -> meld_from_code who v = Ok t ->
  meld_from_code w v' = Ok a -> is_opened (kan_from_triplet t a) = true.
Proof. intros who v w v' t a H K E _. apply (C134_open who v t H E). auto. Qed.

Example C133_case : draws (mkEvent (t_ "V105") []) 2 105 /\ discards (mkEvent (t_ "E0") []) 1 0 /\
  says (mkEvent (t_ "REACH") [(t_ "who", t_ "3"); (t_ "step", t_ "1")]) (t_ "who") (str_int 3) /\
  is_draw 2 (mkEvent (t_ "V105") []) = Ok true /\ player_reach 3 (mkEvent (t_ "REACH") [(t_ "who", t_ "3")]) = Ok true.
Proof. unfold draws, discards, says. repeat split; try lia; try reflexivity; [right; right; left; split; reflexivity|right; left; split; reflexivity]. Qed.
Example C134_case : (exists m, meld_from_code 2 (101 * 512 + 32 * 1 + 8 + 1) = Ok m /\ is_opened m = true /\
    exists a, meld_from_code 2 (101 * 512 + 32 * 1 + 16 + 1) = Ok a /\ is_opened a = false /\ is_opened (kan_from_triplet m a) = true) /\
  (exists m, meld_from_code 3 (6 * 256) = Ok m /\ is_opened m = false).
Proof. split; eexists; (split; [reflexivity|]); [split; [reflexivity|]; eexists; split; [reflexivity|split; reflexivity]|reflexivity]. Qed.
Print Assumptions C133_draw.
Print Assumptions C133_discard.
Print Assumptions C133_who.
Print Assumptions C134_open.
Print Assumptions C134_added.
