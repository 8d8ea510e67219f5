(** C71: every log of the usual form can be read, and no log that names an unknown tile. *)
From Verif Require Import Base Category Tile Parse Text Tenhou Event Stage Spec_Stage StageProofs Prop_Stage Reader Spec_Log StateProofs Prop_Meld Prop_Reader Spec_Read.
From Coq Require Import String List ZArith Lia Bool.
Import ListNotations.
Open Scope list_scope.
Open Scope Z_scope.

Lemma digits_bool s : digits s <-> s <> [] /\ forallb ch_digit s = true.
Proof.
  unfold digits. rewrite forallb_forall, Forall_forall. unfold ch_digit. split; intros [A B]; split; auto; intros x X; specialize (B x X); lia.
Qed.
Lemma number_text_reads s : number_text s -> exists n, py_number s = Ok n.
Proof.
  intros [(n & ->)|(sign & i & f & -> & S & Di & Df)]; [rewrite py_number_str; eauto|].
  apply digits_bool in Di, Df. destruct Di as [Ni Di]. destruct Df as [Nf Df].
  assert (Sp : split_on 46 (i ++ [46] ++ f) = [i; f]).
  { cbn [app]. rewrite split_on_app by (apply digits_no; auto). rewrite split_on_none by (apply digits_no; auto). reflexivity. }
  assert (B : forallb ch_digit (i ++ f) = true) by (rewrite forallb_app, Di, Df; reflexivity).
  destruct S as [->| ->].
  - cbn [app]. destruct i as [|c i]; [congruence|]. destruct (digit_not_sign _ _ Di) as (P & Q & _). unfold py_number.
    assert (W : exists n, match split_on 46 ((c :: i) ++ [46] ++ f) with
                  | [i] => match i with [] => Err ValueError
                           | _ => if forallb ch_digit i then Ok (num_of_digits false i []) else Err ValueError end
                  | [i; f] => match (i ++ f)%list with [] => Err ValueError
                              | _ => if forallb ch_digit (i ++ f) then Ok (num_of_digits false i f) else Err ValueError end
                  | _ => Err ValueError
                  end = Ok n) by (rewrite Sp, B; eexists; reflexivity).
    destruct W as [n W]. exists n. rewrite <- W. clear - P Q. cbn [app]. destruct c as [|p|p]; auto. do 6 (destruct p as [p|p|]; auto; try lia).
  - unfold py_number. change (t_ "-" ++ i ++ [46] ++ f) with (45 :: (i ++ [46] ++ f)). cbv beta iota zeta. rewrite Sp, B. destruct (i ++ f) eqn:E; [apply app_eq_nil in E; tauto|]. eauto.
Qed.
Lemma number_no_comma s : number_text s -> ~ In 44 s.
Proof.
  intros [(n & ->)|(sign & i & f & -> & S & Di & Df)]; [apply str_int_no_comma|].
  apply digits_bool in Di, Df. rewrite !in_app_iff. intros [X|[X|[X|X]]].
  - destruct S as [->| ->]; [destruct X|destruct X as [X|[]]; discriminate].
  - revert X. apply digits_no; [reflexivity|apply Di].
  - destruct X as [X|[]]; discriminate.
  - revert X. apply digits_no; [reflexivity|apply Df].
Qed.
Lemma numbers_text_reads s : numbers_text s -> exists l, number_list s = Ok l.
Proof.
  intros (l & N & F & ->). unfold number_list. change (t_ ",") with [44]. rewrite split_join; [|exact N|eapply Forall_impl; [|exact F]; apply number_no_comma].
  clear N. induction F as [|x l X F IH]; cbn [mapM]; [eauto|]. destruct (number_text_reads _ X) as [n ->]. destruct IH as [ns ->]. cbn [bindr]. eauto.
Qed.
Lemma zeros_val k ds : digits_val (repeat 48 k ++ ds) = digits_val ds.
Proof. induction k as [|k IH]; [reflexivity|]. cbn [repeat app]. rewrite <- IH. reflexivity. Qed.
Lemma span_fst : forall s a b, span_digits s = (a, b) -> s = a ++ b /\ forallb ch_digit a = true.
Proof.
  induction s as [|c s IH]; intros a b H; cbn [span_digits] in H; [injection H as <- <-; auto|].
  destruct (ch_digit c) eqn:C; [|injection H as <- <-; auto]. destruct (span_digits s) as [a' b']. injection H as <- <-.
  destruct (IH a' b' eq_refl) as [-> B]. cbn [app forallb]. rewrite C, B. auto.
Qed.
Lemma regex_full_tag l s c ds : regex_full l s = Some (c, ds) -> mem c l = true /\ digits ds /\ (s = c :: ds \/ s = c :: ds ++ [10]).
Proof.
  unfold regex_full. destruct s as [|x r]; [discriminate|]. destruct (mem x l) eqn:M; [|discriminate].
  destruct (span_digits r) as [a b] eqn:E. destruct (span_fst _ _ _ E) as [-> A]. intros H.
  assert (a = ds /\ x = c /\ a <> [] /\ (b = [] \/ b = [10])) as (-> & -> & N & B).
  { destruct a as [|y a]; [discriminate|]. destruct b as [|z [|]]; [injection H as <- <-| |]; auto.
    - split; [reflexivity|]. split; [reflexivity|]. split; [discriminate|auto].
    - destruct (Z.eq_dec z 10) as [->|Z]; [injection H as <- <-; split; [reflexivity|]; split; [reflexivity|]; split; [discriminate|auto]|].
      destruct z as [|p|p]; try discriminate. do 4 (destruct p as [p|p|]; try discriminate). congruence.
    - destruct z as [|p|p]; try discriminate. do 4 (destruct p as [p|p|]; try discriminate). }
  split; [exact M|]. split; [now apply digits_bool|]. destruct B as [->| ->]; [left; now rewrite app_nil_r|right; reflexivity].
Qed.
Lemma tile_ok n : 0 <= n < 136 -> exists t, tile_from_tenhou n = Ok t.
Proof.
  intros H. assert (G : forallb (fun i => match tile_from_tenhou (Z.of_nat i) with Ok _ => true | Err _ => false end) (seq 0 136) = true) by (vm_compute; reflexivity).
  rewrite forallb_forall in G. specialize (G (Z.to_nat n) ltac:(apply in_seq; lia)). rewrite Z2Nat.id in G by lia.
  destruct (tile_from_tenhou n); [eauto|discriminate].
Qed.
Lemma change_known l e c n : (forall x, mem x l = true -> In x letters) -> known_tile e -> tile_change l e = Some (c, n) -> 0 <= n < 136.
Proof.
  intros L K H. unfold tile_change in H. destruct (regex_full l (tag e)) as [[x ds]|] eqn:R; [|discriminate]. cbn [option_map fst snd] in H. injection H as _ <-.
  destruct (regex_full_tag _ _ _ _ R) as (M & D & T). destruct (K ds D) as (z & n & -> & N); [exists x; auto|].
  rewrite zeros_val. destruct (str_int_nonneg n ltac:(lia)) as (_ & _ & ->). exact N.
Qed.
Lemma draw_letters x : mem x DRAW_INDICATOR = true -> In x letters.
Proof. unfold mem, DRAW_INDICATOR. rewrite existsb_exists. intros (y & Y & E). apply Z.eqb_eq in E. subst. revert Y. vm_compute. tauto. Qed.
Lemma discard_letters x : mem x DISCARD_INDICATOR = true -> In x letters.
Proof. unfold mem, DISCARD_INDICATOR. rewrite existsb_exists. intros (y & Y & E). apply Z.eqb_eq in E. subst. revert Y. vm_compute. tauto. Qed.
Lemma known_event e : known_tile e -> new_event e = Ok e.
Proof.
  intros K. unfold new_event.
  destruct (tile_change DRAW_INDICATOR e) as [[c n]|] eqn:T; [destruct (tile_ok n (change_known _ _ _ _ draw_letters K T)) as [t ->]|]; cbn [bindr];
  (destruct (tile_change DISCARD_INDICATOR e) as [[c' n']|] eqn:T'; [destruct (tile_ok n' (change_known _ _ _ _ discard_letters K T')) as [t' ->]|]; reflexivity).
Qed.
Lemma known_events l : Forall known_tile l -> mapM new_event l = Ok l.
Proof. induction 1 as [|e l K F IH]; [reflexivity|]. cbn [mapM]. rewrite known_event, IH by exact K. reflexivity. Qed.

(** The deals of a log are found. *)
Definition starts (l : list event) : Prop := match l with [] => True | e :: _ => deals e end.
Lemma deals_dec e : deals e \/ ~ deals e.
Proof. destruct (is_game_init e) eqn:E; [left; now apply init_iff|right; intro D; apply init_iff in D; congruence]. Qed.
Lemma same_span : forall a c b d, a ++ b = c ++ d -> Forall (fun e => ~ deals e) a -> Forall (fun e => ~ deals e) c -> starts b -> starts d -> a = c /\ b = d.
Proof.
  induction a as [|x a IH]; intros [|y c] b d E A C B D; cbn [app] in E.
  - auto.
  - subst b. inversion C. contradiction.
  - subst d. inversion A. contradiction.
  - injection E as -> E. inversion A; inversion C; subst. destruct (IH c b d E) as [-> ->]; auto.
Qed.
Lemma chunks_start l : Forall chunk l -> starts (concat l).
Proof.
  destruct 1 as [|x l (i & o & -> & N & D & O) F]; [exact I|]. cbn [concat]. destruct i as [|e i]; [congruence|]. now inversion D.
Qed.
Lemma good_deal_chunk l : good_deal l -> chunk l.
Proof.
  intros (i & p & s & o & -> & D & _ & _ & _ & N & _). exists [i], p. split; [reflexivity|]. split; [discriminate|]. split; [constructor; auto|exact N].
Qed.
Lemma same_chunks : forall l m, concat l = concat m -> Forall chunk l -> Forall good_deal m -> l = m.
Proof.
  induction l as [|a l IH]; intros m E L M.
  - destruct M as [|b m (i & p & s & o & -> & _) _]; [reflexivity|discriminate].
  - inversion L as [|? ? (i & oth & -> & N & D & O) L']; subst. destruct i as [|e i]; [congruence|].
    destruct M as [|b m G M]; [discriminate|]. pose proof G as (j & p & s & w & -> & Dj & _ & _ & _ & Np & X).
    cbn [concat app] in E. injection E as <- E. inversion D as [|? ? De Di]; subst.
    assert (i = []) as ->.
    { destruct i as [|y i]; [reflexivity|]. exfalso. destruct p as [|z p]; [inversion X|]. cbn [app] in E. injection E as -> _. inversion Np; inversion Di; subst. contradiction. }
    cbn [app] in *. destruct (same_span oth p (concat l) (concat m) E O Np) as [-> E'].
    + now apply chunks_start.
    + apply chunks_start. eapply Forall_impl; [|exact M]. apply good_deal_chunk.
    + f_equal. now apply IH.
Qed.
Lemma groups_found head ds : head <> [] -> Forall (fun e => ~ deals e) head -> Forall good_deal ds ->
  event_groups (head ++ concat ds) = Ok (head :: ds).
Proof.
  intros N H D. destruct (groups_partition (head ++ concat ds)) as (gs & -> & P). apply partition_chunks in P. f_equal.
  destruct gs as [|[|e g] r]; [apply app_eq_nil in P; destruct P; congruence|destruct P|]. destruct P as (E & C & K).
  destruct K as [[De _]|K].
  - destruct head as [|x head]; [congruence|]. cbn [app] in E. injection E as <- E. inversion H. contradiction.
  - assert (Ch : Forall chunk ds) by (eapply Forall_impl; [|exact D]; apply good_deal_chunk).
    destruct (same_span _ _ _ _ E H K (chunks_start _ Ch) (chunks_start _ C)) as [<- E']. f_equal. apply same_chunks; auto.
Qed.
Lemma good_deal_reads l : good_deal l -> exists g, new_game l = Ok g.
Proof.
  intros (i & p & s & o & -> & D & Hs & Ns & Ho & N & X). unfold new_game. pose proof (first_end p) as F.
  destruct (first_end_index p) as [n|x].
  - cbn [bindr]. cbv zeta. unfold config_attr. rewrite config_cons, get_setattr. unfold deals in D. rewrite D, text_eqb_refl.
    unfold holds in Hs, Ho. rewrite Hs, Ho. cbn [bindr]. destruct (numbers_text_reads _ Ns) as [ns ->]. cbn [bindr]. rewrite py_int_str. cbn [bindr]. eauto.
  - exfalso. destruct F as [_ F]. apply Exists_exists in X. destruct X as (e & I & E). apply end_iff in E.
    assert (G : In e (filter is_game_end p)) by (apply filter_In; auto). rewrite F in G. destruct G.
Qed.

Theorem C71_reads : forall head ds events, good_log head ds events ->
  exists r, new_record events = Ok r /\ map g_events (r_games r) = ds.
Proof.
  intros head ds events (E & (Hh & (go & v & Fg & Hg & V) & (un & dan & rate & Fu & Hu & Hd & Nd & Hr & Nr)) & D & K & before & last & ow & El & Ho & No).
  unfold new_record. rewrite known_events by exact K. cbn [bindr]. unfold read_events.
  assert (Nh : head <> []) by (intros ->; inversion Fg). rewrite E, groups_found by auto. cbn [bindr]. cbv zeta. rewrite <- E, El, rev_unit.
  unfold config_attr. rewrite (config_first _ _ _ Fg). unfold holds in Hg, Hd, Hr, Ho. rewrite Hg. cbn [bindr]. rewrite py_int_str. cbn [bindr].
  destruct (new_game_type_ok v V) as (g & -> & _). cbn [bindr mapM]. rewrite (config_first _ _ _ Fu).
  destruct (Hu "n0"%string) as [n0 H0]; [cbn; tauto|]. destruct (Hu "n1"%string) as [n1 H1]; [cbn; tauto|]. destruct (Hu "n2"%string) as [n2 H2]; [cbn; tauto|].
  destruct (Hu "n3"%string) as [n3 H3]; [cbn; tauto|]. destruct (Hu "sx"%string) as [sx Hx]; [cbn; tauto|]. unfold holds in *.
  rewrite H0, H1, H2, H3. cbn [bindr]. rewrite Hd. cbn [bindr]. destruct (numbers_text_reads _ Nd) as [dans ->]. cbn [bindr].
  rewrite Hr. cbn [bindr]. destruct (numbers_text_reads _ Nr) as [rates ->]. cbn [bindr]. rewrite Hx. cbn [bindr].
  assert (G : exists gs, mapM new_game ds = Ok gs).
  { clear -D. induction D as [|l ds G D IH]; cbn [mapM]; [eauto|]. destruct (good_deal_reads _ G) as [x ->]. destruct IH as [xs ->]. cbn [bindr]. eauto. }
  destruct G as [gs G]. rewrite G. cbn [bindr]. unfold attr. rewrite Ho. cbn [bindr]. destruct (numbers_text_reads _ No) as [ows ->]. cbn [bindr].
  eexists. split; [reflexivity|]. cbn [r_games]. now apply games_events.
Qed.
(** A draw or discard of a tile that does not exist. *)
Theorem C71_rejects : forall events e letter zeros n, In e events -> In letter letters -> tag e = letter :: repeat 48 zeros ++ str_int n -> 136 <= n ->
  new_record events = Err IndexError.
Proof.
  intros events e letter zeros n I L T N. unfold new_record.
  assert (R : forall l, mem letter l = true -> tile_change l e = Some (index_of letter l, n)).
  { intros l M. unfold tile_change. rewrite T. cbn [regex_full]. rewrite M. destruct (str_int_nonneg n ltac:(lia)) as (A & B & C).
    assert (F : forallb ch_digit (repeat 48 zeros ++ str_int n) = true).
    { rewrite forallb_app, B, andb_true_r. clear. induction zeros; cbn; auto. }
    rewrite span_digits_all by exact F. destruct (repeat 48 zeros ++ str_int n) as [|c ds] eqn:E; [apply app_eq_nil in E; tauto|].
    cbn [option_map fst snd]. rewrite <- E, zeros_val, C. reflexivity. }
  assert (E0 : new_event e = Err IndexError).
  { unfold new_event.
    assert (Q : mem letter DRAW_INDICATOR = true \/ mem letter DISCARD_INDICATOR = true).
    { clear -L. vm_compute in L. repeat (destruct L as [<-|L]; [vm_compute; auto|]). destruct L. }
    assert (Dr : forall c k, tile_change DRAW_INDICATOR e = Some (c, k) -> k = n).
    { intros c k H. unfold tile_change in H. destruct (regex_full DRAW_INDICATOR (tag e)) as [[x ds]|] eqn:Rx; [|discriminate].
      pose proof (proj1 (regex_full_tag _ _ _ _ Rx)) as M. assert (x = letter).
      { destruct (regex_full_tag _ _ _ _ Rx) as (_ & _ & [K|K]); rewrite T in K; injection K as -> _; reflexivity. }
      subst x. rewrite T in Rx. specialize (R DRAW_INDICATOR M). unfold tile_change in R. rewrite T, Rx in R. cbn in R, H. congruence. }
    destruct (tile_change DRAW_INDICATOR e) as [[c k]|] eqn:D1.
    - rewrite (Dr c k eq_refl), C05_rejected by lia. reflexivity.
    - cbn [bindr]. destruct Q as [Q|Q]; [rewrite (R _ Q) in D1; discriminate|]. rewrite (R _ Q), C05_rejected by lia. reflexivity. }
  assert (G : mapM new_event events = Err IndexError); [|rewrite G; reflexivity].
  clear -I E0. assert (Er : forall x z, new_event x = Err z -> z = IndexError).
  { intros x z. unfold new_event. assert (TE : forall l c k, tile_change l x = Some (c, k) -> forall z, tile_from_tenhou k = Err z -> z = IndexError).
    { intros l c k H z' Z'. destruct (Z_le_gt_dec 136 k) as [K|K]; [rewrite C05_rejected in Z' by lia; congruence|].
      destruct (tile_ok k) as [t Et]; [|congruence]. split; [|lia]. unfold tile_change in H. destruct (regex_full l (tag x)) as [[y ds]|] eqn:Rx; [|discriminate]. cbn in H. injection H as _ <-.
      destruct (regex_full_tag _ _ _ _ Rx) as (_ & [_ D] & _). clear -D. unfold digits_val. assert (G : forall ds a, 0 <= a -> Forall (fun c => 48 <= c <= 57) ds -> 0 <= fold_left (fun a c => a * 10 + (c - 48)) ds a).
      { induction ds0 as [|y l IH]; intros a A F; cbn [fold_left]; [exact A|]. inversion F; subst. apply IH; [lia|auto]. }
      apply G; [lia|exact D]. }
    destruct (tile_change DRAW_INDICATOR x) as [[c k]|] eqn:D1.
    - destruct (tile_from_tenhou k) eqn:K; cbn [bindr]; [|intros [= <-]; eapply TE; eauto].
      destruct (tile_change DISCARD_INDICATOR x) as [[c' k']|] eqn:D2; [|discriminate].
      destruct (tile_from_tenhou k') eqn:K'; cbn [bindr]; [discriminate|]. intros [= <-]; eapply TE; eauto.
    - cbn [bindr]. destruct (tile_change DISCARD_INDICATOR x) as [[c' k']|] eqn:D2; [|discriminate].
      destruct (tile_from_tenhou k') eqn:K'; cbn [bindr]; [discriminate|]. intros [= <-]; eapply TE; eauto. }
  induction events as [|x l IH]; [destruct I|]. cbn [mapM]. destruct (new_event x) eqn:Ex; [|cbn [bindr]; f_equal; eauto].
  cbn [bindr]. destruct I as [->|I]; [congruence|]. rewrite IH by exact I. reflexivity.
Qed.

(** The log of Prop_Reader.v is of the usual form. *)
Lemma no_tile e : match tag e with c :: x :: _ => mem c letters && ch_digit x | _ => false end = false -> known_tile e.
Proof.
  intros H ds [N D] (l & L & T). exfalso. destruct ds as [|x ds]; [congruence|]. inversion D as [|? ? Dx _]; subst.
  assert (M : mem l letters = true) by (unfold mem; apply existsb_exists; exists l; split; [exact L|apply Z.eqb_refl]).
  assert (C : ch_digit x = true) by (unfold ch_digit; lia).
  destruct T as [T|T]; rewrite T in H; cbn [app] in H; rewrite M, C in H; discriminate.
Qed.
Lemma one_tile_tag e c n : tag e = c :: str_int n -> 0 <= n < 136 -> known_tile e.
Proof.
  intros T N ds D (l & L & [E|E]); rewrite T in E; injection E as _ E.
  - exists 0%nat, n. split; [symmetry; exact E|exact N].
  - exfalso. destruct (str_int_nonneg n ltac:(lia)) as (_ & B & _). apply (digits_no 10 _ eq_refl B). rewrite E. apply in_or_app. right. now left.
Qed.
Lemma ints_text l : l <> [] -> numbers_text (comma_list l).
Proof.
  intros N. exists (map str_int l). split; [destruct l; [congruence|discriminate]|]. split; [|reflexivity].
  apply Forall_forall. intros s S. apply in_map_iff in S. destruct S as (n & <- & _). left. eauto.
Qed.
Lemma decimal_text s i f : s = i ++ [46] ++ f -> digits i -> digits f -> number_text s.
Proof. intros -> A B. right. exists [], i, f. auto. Qed.
Lemma minus_text s i f : s = t_ "-" ++ i ++ [46] ++ f -> digits i -> digits f -> number_text s.
Proof. intros -> A B. right. exists (t_ "-"), i, f. auto. Qed.
Lemma digits_check s : match s with [] => false | _ => forallb ch_digit s end = true -> digits s.
Proof. intros H. apply digits_bool. destruct s; [discriminate|]. split; [discriminate|exact H]. Qed.
Example C71_case : good_log (firstn 4 ex_good) [firstn 3 (skipn 4 ex_good); skipn 7 ex_good] ex_good.
Proof.
  assert (Ow : numbers_text (t_ "250,-10.0,350,20.0,200,-5.0,200,-5.0")).
  { exists [t_ "250"; t_ "-10.0"; t_ "350"; t_ "20.0"; t_ "200"; t_ "-5.0"; t_ "200"; t_ "-5.0"]. split; [discriminate|]. split; [|reflexivity].
    constructor; [left; exists 250; reflexivity|]. constructor; [apply (minus_text _ (t_ "10") (t_ "0")); try reflexivity; now apply digits_check|].
    constructor; [left; exists 350; reflexivity|]. constructor; [apply (decimal_text _ (t_ "20") (t_ "0")); try reflexivity; now apply digits_check|].
    constructor; [left; exists 200; reflexivity|]. constructor; [apply (minus_text _ (t_ "5") (t_ "0")); try reflexivity; now apply digits_check|].
    constructor; [left; exists 200; reflexivity|]. constructor; [apply (minus_text _ (t_ "5") (t_ "0")); try reflexivity; now apply digits_check|]. constructor. }
  assert (Gd : forall p, Forall (fun e => ~ deals e) p -> Exists ends p -> good_deal (ex_deal_event :: p)).
  { intros p N X. exists ex_deal_event, p, (comma_list [0; 0; 0; 2; 5; 77]), 0. split; [reflexivity|]. split; [reflexivity|]. split; [reflexivity|].
    split; [apply ints_text; discriminate|]. split; [reflexivity|]. auto. }
  split; [reflexivity|]. split; [|split; [|split]].
  - split; [repeat (constructor; [discriminate|]); constructor|]. split.
    + exists ex_go, 9. split; [apply fw_later; [discriminate|apply fw_here; reflexivity]|]. split; [reflexivity|lia].
    + exists ex_un, (comma_list [10; 11; 12; 13]), (t_ "1500.00,1620.55,1700.00,1444.10").
      split; [do 2 (apply fw_later; [discriminate|]); apply fw_here; reflexivity|]. split; [|split; [reflexivity|split; [apply ints_text; discriminate|split; [reflexivity|]]]].
      * intros i I. repeat (destruct I as [<-|I]; [eexists; reflexivity|]). destruct I.
      * exists [t_ "1500.00"; t_ "1620.55"; t_ "1700.00"; t_ "1444.10"]. split; [discriminate|]. split; [|reflexivity].
        constructor; [apply (decimal_text _ (t_ "1500") (t_ "00")); try reflexivity; now apply digits_check|].
        constructor; [apply (decimal_text _ (t_ "1620") (t_ "55")); try reflexivity; now apply digits_check|].
        constructor; [apply (decimal_text _ (t_ "1700") (t_ "00")); try reflexivity; now apply digits_check|].
        constructor; [apply (decimal_text _ (t_ "1444") (t_ "10")); try reflexivity; now apply digits_check|]. constructor.
  - constructor; [|constructor; [|constructor]]; (apply Gd; [repeat (constructor; [discriminate|]); constructor|right; left; left; reflexivity]).
  - repeat (constructor; [first [apply no_tile; reflexivity | apply (one_tile_tag _ 84 5); [reflexivity|lia] | apply (one_tile_tag _ 85 9); [reflexivity|lia]]|]). constructor.
  - exists (firstn 10 ex_good), ex_win, (t_ "250,-10.0,350,20.0,200,-5.0,200,-5.0"). split; [reflexivity|]. split; [reflexivity|exact Ow].
Qed.
Example C71_rejects_case : new_record (ex_good ++ [ev "W136" []]) = Err IndexError.
Proof. apply (C71_rejects _ (ev "W136" []) 87 0 136); [apply in_or_app; right; now left|vm_compute; tauto|reflexivity|lia]. Qed.

Print Assumptions C71_reads.
Print Assumptions C71_rejects.
