(** C84 and C85: the table of the raw events of a log. *)
From Verif Require Import Base Parse Text Event StateProofs Reader Table Spec_Table.
From Coq Require Import String List ZArith Lia Bool.
Import ListNotations.
Open Scope list_scope.
Open Scope Z_scope.

Lemma letter_iff c : ch_letter c = true <-> letter c.
Proof. unfold ch_letter, letter. rewrite orb_true_iff, !andb_true_iff, !Z.leb_le. tauto. Qed.
Lemma digit_iff c : ch_digit c = true <-> digit c.
Proof. unfold ch_digit, digit. rewrite andb_true_iff, !Z.leb_le. tauto. Qed.
Lemma digit_no_letter c : digit c -> ch_letter c = false.
Proof. intros D. destruct (ch_letter c) eqn:E; auto. apply letter_iff in E. unfold letter, digit in *. lia. Qed.

Lemma letters_run : forall s a b, span_letters s = (a, b) -> s = a ++ b /\ Forall letter a.
Proof.
  induction s as [|c s IH]; intros a b H; cbn [span_letters] in H; [injection H as <- <-; auto|].
  destruct (ch_letter c) eqn:C; [|injection H as <- <-; auto].
  destruct (span_letters s) as [a' b'] eqn:E. injection H as <- <-. destruct (IH _ _ eq_refl) as [-> F].
  split; [reflexivity|]. constructor; [now apply letter_iff|exact F].
Qed.
Lemma digits_run : forall s a b, span_digits s = (a, b) -> s = a ++ b /\ Forall digit a.
Proof.
  induction s as [|c s IH]; intros a b H; cbn [span_digits] in H; [injection H as <- <-; auto|].
  destruct (ch_digit c) eqn:C; [|injection H as <- <-; auto].
  destruct (span_digits s) as [a' b'] eqn:E. injection H as <- <-. destruct (IH _ _ eq_refl) as [-> F].
  split; [reflexivity|]. constructor; [now apply digit_iff|exact F].
Qed.
Lemma letters_stop : forall w d, Forall letter w -> match d with c :: _ => ch_letter c = false | [] => True end ->
  span_letters (w ++ d) = (w, d).
Proof.
  induction w as [|c w IH]; intros d F S.
  - destruct d as [|c d]; [reflexivity|]. cbn [app span_letters]. now rewrite S.
  - inversion F as [|? ? A B]; subst. cbn [app span_letters]. apply letter_iff in A. rewrite A, (IH d B S). reflexivity.
Qed.
Lemma digits_all : forall d, Forall digit d -> span_digits d = (d, []).
Proof. intros d F. apply span_digits_all. apply forallb_forall. intros x I. apply digit_iff. rewrite Forall_forall in F. auto. Qed.

Lemma numbered_found t w d : numbered t w d -> last_num t = Some (w, d).
Proof.
  intros (-> & W & FW & D & FD). unfold last_num. rewrite letters_stop; [|exact FW|destruct FD; [exact I|now apply digit_no_letter]].
  rewrite digits_all by exact FD. destruct w; [congruence|]. destruct d; [congruence|]. reflexivity.
Qed.
Lemma found_numbered t w d : ~ In 10 t -> last_num t = Some (w, d) -> numbered t w d.
Proof.
  intros N. unfold last_num. destruct (span_letters t) as [a b] eqn:A. destruct (letters_run _ _ _ A) as [-> FA].
  destruct (span_digits b) as [x y] eqn:B. destruct (digits_run _ _ _ B) as [-> FX].
  destruct a as [|a0 a]; [discriminate|]. destruct x as [|x0 x]; [discriminate|].
  destruct y as [|y0 y].
  - intros H. injection H as <- <-. rewrite app_nil_r. unfold numbered. repeat (split; [first [reflexivity|discriminate|assumption]|]). assumption.
  - intros H. exfalso.
    assert (y0 = 10 /\ y = []) as [-> ->].
    { revert H. clear. destruct y0 as [|p|p]; try discriminate. do 5 (try (destruct p as [p|p|]; try discriminate)); destruct y; try discriminate; auto. }
    apply N. rewrite !in_app_iff. right. right. now left.
Qed.
Lemma numbered_unique t w d w' d' : numbered t w d -> numbered t w' d' -> w = w' /\ d = d'.
Proof. intros A B. apply numbered_found in A. apply numbered_found in B. rewrite A in B. injection B. auto. Qed.
Lemma plain_none t : ~ In 10 t -> plain t -> last_num t = None.
Proof. intros N P. destruct (last_num t) as [[w d]|] eqn:E; auto. destruct (P w d). now apply found_numbered. Qed.
Lemma none_plain t : last_num t = None -> plain t.
Proof. intros E w d N. apply numbered_found in N. congruence. Qed.

Lemma put_new : forall d k v, ~ In k (map fst d) -> put d k v = d ++ [(k, v)].
Proof.
  induction d as [|[k' v'] d IH]; intros k v N; [reflexivity|]. cbn [put app]. cbn [map fst In] in N.
  rewrite text_eqb_neq by (intros ->; tauto). now rewrite IH by tauto.
Qed.
Lemma update_new : forall l d, NoDup (map fst l) -> (forall k, In k (map fst l) -> ~ In k (map fst d)) -> update d l = d ++ l.
Proof.
  unfold update. induction l as [|[k v] l IH]; intros d N D; cbn [fold_left fst snd]; [now rewrite app_nil_r|].
  cbn [map fst] in N. inversion N as [|? ? A B]; subst. rewrite put_new by (apply D; now left). rewrite IH; [now rewrite <- app_assoc|exact B|].
  intros x I J. rewrite map_app, in_app_iff in J. destruct J as [J|[<-|[]]]; [|contradiction]. apply (D x); [now right|exact J].
Qed.

Lemma rows_plain abstract i e : xml_element e -> plain (tag e) -> told i e (event_rows abstract i e).
Proof.
  intros (N & R & L) P. unfold event_rows. rewrite (plain_none _ L P). cbn [put].
  rewrite update_new; [exact (told_plain i e P)|exact N|].
  intros k I J. apply in_map_iff in I as ([k' v] & <- & I). cbn [map fst] in J. apply (R _ _ I). destruct J as [<-|[]]. now left.
Qed.
Lemma rows_numbered i e w d : xml_element e -> numbered (tag e) w d -> told i e (event_rows false i e).
Proof.
  intros (N & R & L) P. unfold event_rows. rewrite (numbered_found _ _ _ P).
  rewrite put_new by (cbn [map fst]; intros [F|[]]; discriminate F). cbn [app].
  rewrite update_new; [exact (told_numbered i e w d P)|exact N|].
  intros k I J. apply in_map_iff in I as ([k' v] & <- & I). cbn [fst] in J.
  apply (R _ _ I). destruct J as [<-|[<-|[]]]; now left.
Qed.

(** C84: without [abstract], the table tells every event of the log completely and in order. *)
Theorem C84_complete : forall events i, Forall xml_element events -> all_told i events (event_df_iter false i events).
Proof.
  induction events as [|e es IH]; intros i F; [constructor|]. inversion F as [|? ? A B]; subst. cbn [event_df_iter].
  constructor; [|now apply IH]. destruct (last_num (tag e)) as [[w d]|] eqn:E.
  - apply (rows_numbered i e w d); [exact A|]. apply found_numbered; [apply A|exact E].
  - apply rows_plain; [exact A|now apply none_plain].
Qed.
(** With it, the same for the other events; those with a numbered tag (draws and discards) are
    left out entirely, and their numbers skipped. *)
Theorem C84_abstract : forall events i, Forall xml_element events -> others_told i events (event_df_iter true i events).
Proof.
  induction events as [|e es IH]; intros i F; [constructor|]. inversion F as [|? ? A B]; subst. cbn [event_df_iter].
  destruct (last_num (tag e)) as [[w d]|] eqn:E.
  - replace (event_rows true i e) with (@nil row) by (unfold event_rows; now rewrite E).
    apply (others_skip i e es w d); [apply found_numbered; [apply A|exact E]|now apply IH].
  - apply others_next; [now apply none_plain|now apply rows_plain, none_plain|now apply IH].
Qed.

Lemma told_index i e rs : told i e rs -> Forall (fun r => row_index r = i) rs /\ rs <> [].
Proof.
  intros T. destruct T as [e P|e w d P].
  - split; [|discriminate]. constructor; [reflexivity|]. apply Forall_forall. intros r I. apply in_map_iff in I as (kv & <- & _). reflexivity.
  - split; [|discriminate]. constructor; [reflexivity|]. constructor; [reflexivity|]. apply Forall_forall. intros r I. apply in_map_iff in I as (kv & <- & _). reflexivity.
Qed.
Lemma all_later i es rs : all_told i es rs -> Forall (fun r => i <= row_index r) rs.
Proof.
  induction 1 as [|i e es rs more T A IH]; [constructor|]. apply Forall_app. split.
  - apply (Forall_impl _ (P := fun r => row_index r = i)); [intros; lia|]. now apply told_index in T.
  - eapply Forall_impl; [|exact IH]. cbn. intros; lia.
Qed.
Lemma rows_inj i w : forall l l', map (fun kv : text * text => mkRow i w (fst kv) (snd kv)) l = map (fun kv => mkRow i w (fst kv) (snd kv)) l' -> l = l'.
Proof.
  induction l as [|[k v] l IH]; intros [|[k' v'] l'] H; cbn [map fst snd] in H; try discriminate; [reflexivity|].
  injection H as -> -> H. now rewrite (IH _ H).
Qed.
Lemma told_inj i e e' rs rs' : told i e rs -> told i e' rs' -> rs = rs' -> e = e'.
Proof.
  intros [[t l] P|[t l] w d P] [[t' l'] P'|[t' l'] w' d' P'] E; cbn [tag attrib] in *.
  - injection E as <- _ E. now rewrite (rows_inj _ _ _ _ E).
  - injection E as _ F. discriminate F.
  - injection E as _ F. discriminate F.
  - injection E as <- <- _ _ E. destruct P as [-> _], P' as [-> _]. now rewrite (rows_inj _ _ _ _ E).
Qed.
Lemma cut_unique {A} (P : A -> Prop) : forall a b x y, Forall P a -> Forall P x -> Forall (fun r => ~ P r) b -> Forall (fun r => ~ P r) y ->
  a ++ b = x ++ y -> a = x /\ b = y.
Proof.
  induction a as [|h a IH]; intros b x y Fa Fx Fb Fy E.
  - destruct x as [|g x]; [auto|]. cbn [app] in E. subst b. inversion Fx; subst. inversion Fb; subst. contradiction.
  - destruct x as [|g x].
    + cbn [app] in E. subst y. inversion Fa; subst. inversion Fy; subst. contradiction.
    + cbn [app] in E. injection E as <- E. inversion Fa; subst. inversion Fx; subst. destruct (IH b x y) as [-> ->]; auto.
Qed.
Lemma all_told_inj : forall es es' i rs, all_told i es rs -> all_told i es' rs -> es = es'.
Proof.
  induction es as [|e es IH]; intros es' i rs A B.
  - inversion A; subst. inversion B as [|? ? ? rs more T]; subst; [reflexivity|].
    apply told_index in T as [_ T]. destruct rs; [congruence|discriminate].
  - inversion A as [|? ? ? r1 m1 T1 A1]; subst. inversion B as [E1 E2 E3|? e' ? r2 m2 T2 A2 E1 E2 E3]; subst.
    { apply told_index in T1 as [_ T1]. destruct r1; [congruence|discriminate]. }
    destruct (cut_unique (fun r => row_index r = i) r1 m1 r2 m2) as [<- <-].
    + now apply told_index in T1.
    + now apply told_index in T2.
    + eapply Forall_impl; [|exact (all_later _ _ _ A1)]. cbn. intros; lia.
    + eapply Forall_impl; [|exact (all_later _ _ _ A2)]. cbn. intros; lia.
    + auto.
    + rewrite (told_inj _ _ _ _ _ T1 T2 eq_refl), (IH _ _ _ A1 A2). reflexivity.
Qed.
(** C84: two logs with the same table are the same log. *)
Theorem C84_lossless : forall log log', Forall xml_element log -> Forall xml_element log' ->
  event_df_iter false 0 log = event_df_iter false 0 log' -> log = log'.
Proof.
  intros a b A B E. apply (all_told_inj a b 0 (event_df_iter false 0 a)); [now apply C84_complete|rewrite E; now apply C84_complete].
Qed.
(** With [abstract] two different logs can have the same table: the draws are not in it. *)
Theorem C84_abstract_lossy : exists log log', Forall xml_element log /\ Forall xml_element log' /\
  event_df_iter true 0 log = event_df_iter true 0 log' /\ log <> log'.
Proof.
  exists [mkEvent (t_ "T12") []], [mkEvent (t_ "U13") []].
  assert (X : forall s, forallb (fun c => negb (c =? 10)) s = true -> xml_element (mkEvent s [])).
  { intros s H. split; [constructor|]. split; [intros k v []|]. cbn [tag]. intros I. rewrite forallb_forall in H. apply H in I. discriminate. }
  split; [constructor; [now apply X|constructor]|]. split; [constructor; [now apply X|constructor]|]. split; [reflexivity|discriminate].
Qed.

(** A draw, a call and a win; the number of the call is 1 in both tables. *)
Definition tb_log : list event :=
  [mkEvent (t_ "T12") []; mkEvent (t_ "N") [(t_ "who", t_ "1"); (t_ "m", t_ "2312")]; mkEvent (t_ "D12") []; mkEvent (t_ "AGARI") [(t_ "who", t_ "0")]].
Example tb_xml : Forall xml_element tb_log.
Proof.
  assert (X : forall t l, forallb (fun c => negb (c =? 10)) t = true -> NoDup (map fst l) ->
    forallb (fun kv : text * text => forallb (fun c => negb (c =? 60)) (fst kv)) l = true -> xml_element (mkEvent t l)).
  { intros t l H N K. split; [exact N|]. split.
    - intros k v I J. cbn [attrib] in I. rewrite forallb_forall in K. apply K in I. cbn [fst] in I. rewrite forallb_forall in I. apply I in J. discriminate.
    - cbn [tag]. intros I. rewrite forallb_forall in H. apply H in I. discriminate. }
  repeat apply Forall_cons; [| | | |constructor]; apply X; try reflexivity; cbn [map fst].
  - constructor.
  - constructor; [intros [F|[]]; discriminate F|]. constructor; [intros []|constructor].
  - constructor.
  - constructor; [intros []|constructor].
Qed.
Example tb_rows : event_df_iter true 0 tb_log =
  [mkRow 1 (t_ "N") (t_ "<tag>") (t_ "N"); mkRow 1 (t_ "N") (t_ "who") (t_ "1"); mkRow 1 (t_ "N") (t_ "m") (t_ "2312");
   mkRow 3 (t_ "AGARI") (t_ "<tag>") (t_ "AGARI"); mkRow 3 (t_ "AGARI") (t_ "who") (t_ "0")].
Proof. vm_compute. reflexivity. Qed.
Example tb_full : length (event_df_iter false 0 tb_log) = 9%nat.
Proof. vm_compute. reflexivity. Qed.

(** ** C85 *)
Lemma rfind_go c : forall s n last, fold_left (fun a x => (fst a + 1, if x =? c then fst a else snd a)) s (n, last) =
  (n + Z.of_nat (length s), if existsb (fun x => x =? c) s then snd (fold_left (fun a x => (fst a + 1, if x =? c then fst a else snd a)) s (n, last)) else last).
Proof.
  induction s as [|x s IH]; intros n last; cbn [fold_left fst snd length existsb]; [f_equal; lia|].
  rewrite (IH (n + 1)). cbn [snd]. f_equal; [lia|]. destruct (x =? c); cbn [orb]; destruct (existsb _ s); reflexivity.
Qed.
Lemma rfind_none c s : ~ In c s -> rfind c s = -1.
Proof.
  intros N. unfold rfind. rewrite rfind_go. cbn [snd]. destruct (existsb (fun x => x =? c) s) eqn:E; [|reflexivity].
  apply existsb_exists in E as (x & I & E). apply Z.eqb_eq in E. subst. contradiction.
Qed.
Lemma rfind_last c a b : ~ In c b -> rfind c (a ++ c :: b) = Z.of_nat (length a).
Proof.
  intros N. unfold rfind. rewrite fold_left_app. destruct (fold_left _ a (0, -1)) as [n last] eqn:E.
  pose proof (rfind_go c a 0 (-1)) as G. rewrite E in G. apply (f_equal fst) in G. cbn [fst] in G.
  cbn [fold_left fst snd]. rewrite Z.eqb_refl, rfind_go. cbn [snd]. destruct (existsb (fun x => x =? c) b) eqn:X; [|lia].
  apply existsb_exists in X as (x & I & X). apply Z.eqb_eq in X. subst. contradiction.
Qed.
Lemma tail_dir dir name : (dir = [] \/ exists d, dir = d ++ [47]) -> ~ In 47 name -> path_tail (dir ++ name) = name.
Proof.
  intros [->|[d ->]] N; unfold path_tail.
  - cbn [app]. rewrite rfind_none by exact N. reflexivity.
  - rewrite <- app_assoc. cbn [app]. rewrite rfind_last by exact N. replace (Z.to_nat _) with (length (d ++ [47])) by (rewrite app_length; cbn [length]; lia).
    replace (d ++ 47 :: name) with ((d ++ [47]) ++ name) by now rewrite <- app_assoc. rewrite skipn_app, skipn_all, Nat.sub_diag. reflexivity.
Qed.
Lemma root_ext name ext : ~ In 47 name -> ~ In 47 ext -> ~ In 46 ext -> (exists c, In c name /\ c <> 46) -> path_root (name ++ 46 :: ext) = name.
Proof.
  intros N X D (c & I & C). unfold path_root. rewrite rfind_last by exact D. rewrite rfind_none.
  2: { rewrite in_app_iff. cbn [In]. intros [H|[H|H]]; [contradiction|discriminate|contradiction]. }
  replace (-1 <? Z.of_nat (length name)) with true by (symmetry; apply Z.ltb_lt; lia).
  replace (Z.to_nat (-1 + 1)) with 0%nat by reflexivity. rewrite Nat2Z.id, firstn_app, Nat.sub_diag, firstn_all. cbn [firstn skipn]. rewrite app_nil_r.
  replace (existsb _ name) with true; [reflexivity|]. symmetry. apply existsb_exists. exists c. split; [exact I|]. apply negb_true_iff, Z.eqb_neq, C.
Qed.
Lemma root_plain name : ~ In 46 name -> path_root name = name.
Proof.
  intros D. unfold path_root. rewrite (rfind_none 46) by exact D. destruct (rfind 47 name <? -1) eqn:E; [|reflexivity].
  exfalso. apply Z.ltb_lt in E. unfold rfind in E.
  assert (G : forall s n l, 0 <= n -> -1 <= l -> -1 <= snd (fold_left (fun a x => (fst a + 1, if x =? 47 then fst a else snd a)) s (n, l))).
  { clear. induction s as [|x s IH]; intros n l A B; cbn [fold_left fst snd]; [exact B|]. apply IH; [lia|]. destruct (x =? 47); lia. }
  pose proof (G name 0 (-1) ltac:(lia) ltac:(lia)). lia.
Qed.

(** C85: whatever folder the file is in, every row is marked with the file's name without its
    extension. *)
Theorem C85_log_id : forall dir name ext abstract events,
  (dir = [] \/ exists d, dir = d ++ [47]) ->
  ~ In 47 name -> (exists c, In c name /\ c <> 46) -> ~ In 47 ext -> ~ In 46 ext ->
  light_dataframe (dir ++ name ++ 46 :: ext) abstract events = map (fun r => (r, name)) (event_df_iter abstract 0 events).
Proof.
  intros dir name ext abstract events D N C X Y. unfold light_dataframe. rewrite tail_dir; [|exact D|].
  - now rewrite root_ext.
  - rewrite in_app_iff. cbn [In]. intros [H|[H|H]]; [contradiction|discriminate|contradiction].
Qed.
(** A file without extension is marked with its whole name. *)
Theorem C85_no_extension : forall dir name abstract events,
  (dir = [] \/ exists d, dir = d ++ [47]) -> ~ In 47 name -> ~ In 46 name ->
  light_dataframe (dir ++ name) abstract events = map (fun r => (r, name)) (event_df_iter abstract 0 events).
Proof.
  intros dir name abstract events D N X. unfold light_dataframe. rewrite tail_dir by auto. now rewrite root_plain.
Qed.
Example C85_case : map snd (light_dataframe (t_ "logs/2019.d/2019010100gm-0009-0000-abc.xml") true tb_log) =
  repeat (t_ "2019010100gm-0009-0000-abc") 5.
Proof. vm_compute. reflexivity. Qed.
Example C85_case_none : map snd (light_dataframe (t_ "logs/2019.d/2019010100gm-0009-0000-abc") true tb_log) =
  repeat (t_ "2019010100gm-0009-0000-abc") 5.
Proof. vm_compute. reflexivity. Qed.

Print Assumptions C84_complete.
Print Assumptions C84_abstract.
Print Assumptions C84_lossless.
Print Assumptions C84_abstract_lossy.
Print Assumptions C85_log_id.
Print Assumptions C85_no_extension.
