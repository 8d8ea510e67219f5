(** C112-C114: the text of a log. *)
From Verif Require Import Base Category Tile Parse Text Tenhou Event Reader Table Show StateProofs Xml FromText Spec_Xml XmlProofs XmlConverse Logs LogTexts.
From Coq Require Import String List ZArith Lia Bool Permutation.
Import ListNotations.
Open Scope list_scope.
Open Scope Z_scope.

(** ** C112 *)
Theorem C112_exactly : forall s root es, fromstring s = Document root es <-> document root es s.
Proof. intros s root es. split; [apply read_document|apply document_read]. Qed.
(** Whatever way it is written, the record is that of the elements. *)
Theorem C112_record : forall s root es, document root es s -> from_file s = Read (new_record es).
Proof. intros s root es H. unfold from_file, with_elements. apply C112_exactly in H. now rewrite H. Qed.
Theorem C112_rows : forall s root es path abstract, document root es s ->
  light_dataframe_from_file path s abstract = Read (light_dataframe path abstract es).
Proof. intros s root es path abstract H. unfold light_dataframe_from_file, with_elements. apply C112_exactly in H. now rewrite H. Qed.
(** A text says one thing only. *)
Theorem C112_unambiguous : forall s root es root' es', document root es s -> document root' es' s -> root = root' /\ es = es'.
Proof. intros s root es root' es' A B. apply C112_exactly in A, B. rewrite A in B. injection B as -> ->. auto. Qed.
Definition small_text : text :=
  t_ "<mjloggm ver='2.3'>" ++ [10] ++ t_ "<GO type=""185"" lobby = '0' /><UN n0=""a&amp;b &#x41;&#66;""><x y=""1""/></UN >" ++ [13; 10] ++ t_ "<T12/></mjloggm> ".
Example C112_case : document (mkEvent (t_ "mjloggm") [(t_ "ver", t_ "2.3")])
  [mkEvent (t_ "GO") [(t_ "type", t_ "185"); (t_ "lobby", t_ "0")]; mkEvent (t_ "UN") [(t_ "n0", t_ "a&b AB")]; mkEvent (t_ "T12") []] small_text.
Proof. apply C112_exactly. vm_compute. reflexivity. Qed.
(** The six files of the tests are documents of the events in Logs.v. *)
Theorem C112_logs : Forall2 (fun t es => document (mkEvent (t_ "mjloggm") [(t_ "ver", t_ "2.3")]) es t) test_texts test_logs.
Proof. repeat (constructor; [apply C112_exactly; vm_compute; reflexivity|]). constructor. Qed.
Print Assumptions C112_exactly.
Print Assumptions C112_record.
Print Assumptions C112_rows.
Print Assumptions C112_unambiguous.
Print Assumptions C112_logs.

(** ** C113 *)
Theorem C113_truncated : forall s rest root es, document root es (s ++ rest) -> ~ blanks rest -> from_file s = Malformed.
Proof.
  intros s rest root es H N. apply C112_exactly in H. unfold from_file, with_elements. now rewrite (truncated s rest root es H N).
Qed.
(** Nor can anything but blanks follow. *)
Theorem C113_nothing_after : forall s rest root es, document root es s -> ~ blanks rest -> forall a, from_file (s ++ rest) <> Read a.
Proof.
  intros s rest root es H N a E. unfold from_file, with_elements in E. destruct (fromstring (s ++ rest)) as [root' es'| |] eqn:F; try discriminate.
  assert (G : fromstring s = ParseError) by (eapply truncated; [exact F|exact N]). apply C112_exactly in H. congruence.
Qed.
Example C113_case : from_file (firstn 60 small_text) = Malformed.
Proof. reflexivity. Qed.
Example C113_case_hypothesis : document (mkEvent (t_ "mjloggm") [(t_ "ver", t_ "2.3")])
  [mkEvent (t_ "GO") [(t_ "type", t_ "185"); (t_ "lobby", t_ "0")]; mkEvent (t_ "UN") [(t_ "n0", t_ "a&b AB")]; mkEvent (t_ "T12") []]
  (firstn 60 small_text ++ skipn 60 small_text) /\ ~ blanks (skipn 60 small_text).
Proof.
  rewrite firstn_skipn. split; [exact C112_case|]. intros B. assert (X : forallb xml_blank (skipn 60 small_text) = true).
  { apply forallb_forall. intros c I1. apply blank_iff. unfold blanks in B. rewrite Forall_forall in B. now apply B. }
  vm_compute in X. discriminate.
Qed.
Print Assumptions C113_truncated.
Print Assumptions C113_nothing_after.

(** ** C114 *)
Lemma ascii_app a b : to_ascii (a ++ b) = to_ascii a ++ to_ascii b.
Proof. unfold to_ascii. apply flat_map_app. Qed.
Lemma ascii_same s : Forall (fun c => c < 128) s -> to_ascii s = s.
Proof.
  unfold to_ascii. induction 1 as [|c s H _ IH]; [reflexivity|]. cbn [flat_map]. rewrite IH. apply Z.ltb_lt in H. now rewrite H.
Qed.
Lemma ascii_name n : name n -> to_ascii n = n.
Proof.
  intros (c & r & -> & L & F). apply ascii_same. constructor; [unfold letter in L; lia|]. eapply Forall_impl; [|exact F].
  intros x X. unfold letter, digit in X. cbv beta in X. lia.
Qed.
Lemma newlines_none v : Forall (fun c => character c /\ c <> 13) v -> newlines v = v.
Proof.
  induction 1 as [|c v [_ N] _ IH]; [reflexivity|]. assert (E : newlines (c :: v) = c :: newlines v).
  { destruct c as [|p|p]; try reflexivity. do 4 (destruct p as [p|p|]; try reflexivity). congruence. }
  now rewrite E, IH.
Qed.
Lemma value_written v : Forall (fun c => character c /\ c <> 13) v -> written 34 v (to_ascii (escape_attrib v)).
Proof.
  intros H. unfold escape_attrib. rewrite newlines_none by exact H. induction H as [|c v [C N] _ IH]; [constructor|].
  cbn [flat_map]. rewrite ascii_app. unfold escape_char.
  destruct (c =? 38) eqn:E1. { apply Z.eqb_eq in E1. subst c. apply (wr_name 34 (t_ "amp")); [cbn; tauto|exact IH]. }
  destruct (c =? 60) eqn:E2. { apply Z.eqb_eq in E2. subst c. apply (wr_name 34 (t_ "lt")); [cbn; tauto|exact IH]. }
  destruct (c =? 62) eqn:E3. { apply Z.eqb_eq in E3. subst c. apply (wr_name 34 (t_ "gt")); [cbn; tauto|exact IH]. }
  destruct (c =? 34) eqn:E4. { apply Z.eqb_eq in E4. subst c. apply (wr_name 34 (t_ "quot")); [cbn; tauto|exact IH]. }
  destruct (c =? 10) eqn:E5. { apply Z.eqb_eq in E5. subst c. apply (wr_decimal 34 (t_ "10")); [apply (digits_decimal (t_ "10")); [discriminate|reflexivity]|exact C|exact IH]. }
  destruct (c =? 9) eqn:E6. { apply Z.eqb_eq in E6. subst c. apply (wr_decimal 34 (t_ "09")); [apply (digits_decimal (t_ "09")); [discriminate|reflexivity]|exact C|exact IH]. }
  apply Z.eqb_neq in E1, E2, E3, E4, E5, E6. unfold to_ascii at 1. cbn [flat_map]. rewrite app_nil_r. destruct (c <? 128) eqn:A.
  - cbn [app]. apply wr_plain; [exact C| |exact IH]. cbn [In]. intuition congruence.
  - apply Z.ltb_ge in A. rewrite <- !app_assoc. destruct (str_int_nonneg c) as (P & Q & R); [lia|]. apply wr_decimal; [|exact C|exact IH].
    rewrite <- R at 2. now apply digits_decimal.
Qed.
Lemma attributes_written l : Forall (fun kv => name (fst kv) /\ fst kv <> t_ "xmlns" /\ Forall (fun c => character c /\ c <> 13) (snd kv)) l ->
  attributes l (to_ascii (flat_map (fun kv => t_ " " ++ fst kv ++ [61; 34] ++ escape_attrib (snd kv) ++ [34]) l)).
Proof.
  induction 1 as [|[n v] l (A & B & C) _ IH]; [constructor|]. cbn [flat_map fst snd] in *. rewrite !ascii_app, (ascii_name n A).
  change (to_ascii (t_ " ")) with [32]. change (to_ascii [61; 34]) with [61; 34]. change (to_ascii [34]) with [34].
  pose proof (at_one [32] n [] [] 34 v (to_ascii (escape_attrib v)) l
    (to_ascii (flat_map (fun kv => t_ " " ++ fst kv ++ [61; 34] ++ escape_attrib (snd kv) ++ [34]) l))) as X.
  cbn [app] in X |- *. do 3 (rewrite <- ?app_assoc; cbn [app]). change (t_ "=") with [61] in X. cbn [app] in X. apply X; auto.
  - constructor; [cbn; tauto|constructor].
  - discriminate.
  - constructor.
  - constructor.
  - cbn; tauto.
  - now apply value_written.
Qed.
Lemma written_again order e : (forall l, Permutation (order l) l) -> writable e -> document (mkEvent (tag e) (order (attrib e))) [] (tostring order e).
Proof.
  intros O (N & D & F). unfold tostring. rewrite !ascii_app, (ascii_name _ N). change (to_ascii (t_ "<")) with (t_ "<"). change (to_ascii (t_ " />")) with ([32] ++ t_ "/>" ++ []).
  assert (B : blanks []) by constructor.
  set (a := to_ascii (flat_map _ _)).
  exists [], (tag e ++ a ++ [32]), []. split; [exact B|]. split.
  - exists a, [32]. cbn [tag attrib]. split; [exact N|]. split; [|split].
    + eapply Permutation_NoDup; [|exact D]. apply Permutation_sym, Permutation_map, O.
    + apply attributes_written. eapply Permutation_Forall; [|exact F]. apply Permutation_sym, O.
    + split; [|reflexivity]. constructor; [cbn; tauto|constructor].
  - split; [exact B|]. right. split; [reflexivity|]. cbn [app]. now rewrite <- !app_assoc.
Qed.
Theorem C114_again : forall set_order order e t, (forall l, Permutation (order l) l) -> writable e -> event_str set_order order e = Ok t ->
  exists d w e', t = d ++ t_ ":" ++ w /\ base_str set_order e = Ok d /\ fromstring w = Document e' [] /\ tag e' = tag e /\ Permutation (attrib e') (attrib e).
Proof.
  intros so order e t O W H. unfold event_str in H. destruct (base_str so e) as [d|] eqn:B; [|discriminate]. cbn [bindr] in H. injection H as <-.
  exists d, (tostring order e), (mkEvent (tag e) (order (attrib e))). split; [reflexivity|]. split; [reflexivity|]. split; [|split; [reflexivity|apply O]].
  apply C112_exactly, written_again; assumption.
Qed.
(** Only ASCII is written. *)
Theorem C114_ascii : forall order e, (forall l, Permutation (order l) l) -> writable e -> Forall (fun c => c < 128) (tostring order e).
Proof.
  intros order e O W. unfold tostring, to_ascii. apply Forall_forall. intros c I1. apply in_flat_map in I1. destruct I1 as (x & _ & I1).
  destruct (x <? 128) eqn:E; [destruct I1 as [<-|[]]; now apply Z.ltb_lt|]. apply Z.ltb_ge in E. destruct (str_int_nonneg x) as (_ & Q & _); [lia|].
  rewrite forallb_forall in Q. apply in_app_or in I1. destruct I1 as [I1|I1]; [cbn in I1; lia|]. apply in_app_or in I1. destruct I1 as [I1|I1]; [|cbn in I1; lia].
  specialize (Q c I1). unfold ch_digit in Q. apply andb_true_iff in Q. rewrite !Z.leb_le in Q. lia.
Qed.
(** Events that are different as elements are shown differently. *)
Theorem C114_distinct : forall order a b, (forall l, Permutation (order l) l) -> writable a -> writable b -> tostring order a = tostring order b ->
  tag a = tag b /\ Permutation (attrib a) (attrib b).
Proof.
  intros order a b O A B E. pose proof (written_again order a O A) as X. pose proof (written_again order b O B) as Y. rewrite E in X.
  destruct (C112_unambiguous _ _ _ _ _ X Y) as [Q _]. injection Q as Q1 Q2. split; [exact Q1|].
  transitivity (order (attrib a)); [apply Permutation_sym, O|]. rewrite Q2. apply O.
Qed.
(** A carriage return in a value is written as a newline. *)
Theorem C114_carriage_return_refuted : exists e w v, tostring (fun l => l) e = w /\ fromstring w = Document (mkEvent (tag e) [(t_ "n0", v)]) [] /\ attrib e = [(t_ "n0", [65; 13])] /\ v = [65; 10].
Proof. exists (mkEvent (t_ "UN") [(t_ "n0", [65; 13])]). eexists. exists [65; 10]. split; [reflexivity|]. split; [vm_compute; reflexivity|split; reflexivity]. Qed.
Definition odd_event : event := mkEvent (t_ "UN") [(t_ "n0", t_ "<" ++ [34; 38; 10; 12354; 127828] ++ t_ "'>"); (t_ "m", [])].
Example C114_case : writable odd_event /\ tostring (fun l => rev l) odd_event = t_ "<UN m="""" n0=""&lt;&quot;&amp;&#10;&#12354;&#127828;'&gt;"" />" /\ base_str (fun l => l) odd_event = Ok (t_ "UNPARSED").
Proof.
  split; [|split; vm_compute; reflexivity]. split; [exists 85, [78]; split; [reflexivity|]; split; [unfold letter; lia|constructor; [left; unfold letter; lia|constructor]]|].
  split; [repeat (constructor; [cbn; intuition discriminate|]); constructor|].
  unfold odd_event. cbn [attrib]. constructor; [|constructor; [|constructor]]; cbn [fst snd].
  - split; [exists 110, [48]; split; [reflexivity|]; split; [unfold letter; lia|]; constructor; [right; left; unfold digit; lia|constructor]|].
    split; [discriminate|]. change (t_ "<" ++ [34; 38; 10; 12354; 127828] ++ t_ "'>") with [60; 34; 38; 10; 12354; 127828; 39; 62].
    repeat (apply Forall_cons; [unfold character; cbn [In]; split; lia|]). constructor.
  - split; [exists 109, []; split; [reflexivity|]; split; [unfold letter; lia|constructor]|]. split; [discriminate|constructor].
Qed.
Print Assumptions C114_again.
Print Assumptions C114_ascii.
Print Assumptions C114_distinct.
Print Assumptions C114_carriage_return_refuted.
