(** A computed check that a log meets the conditions of the theorems about logs ([good_log] of Spec_Read.v, [proper]
    and [known] of Spec_Convert.v, and those of the CSV theorems), with the proof that the check can be relied on. It is used in
    Prop_Logs.v to show that the logs of tests/ meet them. *)
From Verif Require Import Base Tile Parse Text Tenhou Event Reader StateProofs Spec_Meld Spec_Log Value Spec_Play Prop_Hand Spec_Score Spec_Header Prop_Reader Spec_Read Spec_Convert
  Spec_Csv Spec_Seats.
From Coq Require Import String List ZArith Lia Bool.
Import ListNotations.
Open Scope list_scope.
Open Scope Z_scope.

(** ** Values *)
Definition opt_b {A} (o : option A) (f : A -> bool) : bool := match o with Some a => f a | None => false end.
Lemma opt_b_true {A} (o : option A) f : opt_b o f = true -> exists a, o = Some a /\ f a = true.
Proof. destruct o as [a|]; cbn [opt_b]; [eauto|discriminate]. Qed.
Definition text_is (a b : text) : bool := text_eqb a b.
Definition one_of (l : list text) (s : text) : bool := existsb (text_eqb s) l.
Lemma one_of_in l s : one_of l s = true <-> In s l.
Proof.
  unfold one_of. rewrite existsb_exists. split.
  - intros (x & I0 & E). apply text_eqb_iff in E. now subst.
  - intro I0. exists s. split; [exact I0|]. now apply text_eqb_iff.
Qed.
Definition canon (s : text) : option Z := match py_int s with Ok z => if text_eqb (str_int z) s then Some z else None | Err _ => None end.
Lemma canon_is s z : canon s = Some z -> s = str_int z.
Proof.
  unfold canon. destruct (py_int s) as [y|]; [|discriminate]. destruct (text_eqb (str_int y) s) eqn:E; [|discriminate].
  intro H. injection H as <-. apply text_eqb_iff in E. now symmetry.
Qed.
Definition int_attr (e : event) (name : text) : option Z := match lookup name (attrib e) with Some s => canon s | None => None end.
Lemma int_attr_is e name z : int_attr e name = Some z -> holds e name (str_int z).
Proof. unfold int_attr, holds. destruct (lookup name (attrib e)) as [s|]; [|discriminate]. intro H. apply canon_is in H. now subst. Qed.
Fixpoint all_canon (l : list text) : option (list Z) :=
  match l with
  | [] => Some []
  | s :: r => match canon s, all_canon r with Some z, Some zs => Some (z :: zs) | _, _ => None end
  end.
Definition ints (s : text) : option (list Z) :=
  match s with
  | [] => Some []
  | _ => match all_canon (split_on 44 s) with Some l => if text_eqb (comma_list l) s then Some l else None | None => None end
  end.
Lemma ints_is s l : ints s = Some l -> s = comma_list l.
Proof.
  unfold ints. destruct s as [|c s]; [intro H; injection H as <-; reflexivity|]. destruct (all_canon (split_on 44 (c :: s))) as [m|]; [|discriminate].
  destruct (text_eqb (comma_list m) (c :: s)) eqn:E; [|discriminate]. intro H. injection H as <-. apply text_eqb_iff in E. now symmetry.
Qed.
Definition ints_attr (e : event) (name : text) : option (list Z) := match lookup name (attrib e) with Some s => ints s | None => None end.
Lemma ints_attr_is e name l : ints_attr e name = Some l -> holds e name (comma_list l).
Proof. unfold ints_attr, holds. destruct (lookup name (attrib e)) as [s|]; [|discriminate]. intro H. apply ints_is in H. now subst. Qed.

Definition nonempty {A} (l : list A) : bool := match l with [] => false | _ => true end.
Lemma nonempty_is {A} (l : list A) : nonempty l = true -> l <> [].
Proof. destruct l; [discriminate|intros _ H; discriminate H]. Qed.
Definition digits_b (s : text) : bool := nonempty s && forallb ch_digit s.
Lemma digits_is s : digits_b s = true -> digits s.
Proof.
  unfold digits_b. intro H. apply andb_true_iff in H. destruct H as [N F]. split; [now apply nonempty_is|].
  apply Forall_forall. intros c I0. rewrite forallb_forall in F. specialize (F c I0). unfold ch_digit in F. lia.
Qed.
Definition decimal_b (s : text) : bool :=
  match split_on 46 s with [i; f] => digits_b i && digits_b f && text_eqb (i ++ [46] ++ f) s | _ => false end.
Lemma decimal_is s : decimal_b s = true -> exists i f, s = i ++ [46] ++ f /\ digits i /\ digits f.
Proof.
  unfold decimal_b. destruct (split_on 46 s) as [|i [|f [|]]]; try discriminate. intro H. apply andb_true_iff in H. destruct H as [H E].
  apply andb_true_iff in H. destruct H as [A B]. apply text_eqb_iff in E. exists i, f. split; [now symmetry|]. split; now apply digits_is.
Qed.
Definition number_b (s : text) : bool :=
  opt_b (canon s) (fun _ => true) || decimal_b s || match s with 45 :: r => decimal_b r | _ => false end.
Lemma number_is s : number_b s = true -> number_text s.
Proof.
  unfold number_b. rewrite !orb_true_iff. intros [[H|H]|H].
  - apply opt_b_true in H. destruct H as (z & E & _). left. exists z. now apply canon_is.
  - apply decimal_is in H. destruct H as (i & f & E & A & B). right. exists [], i, f. auto.
  - destruct s as [|c r]; [discriminate|]. assert (K : c = 45 /\ decimal_b r = true).
    { destruct c as [|p|p]; try discriminate. do 6 (destruct p as [p|p|]; try discriminate). auto. }
    destruct K as [-> K]. apply decimal_is in K. destruct K as (i & f & E & A & B). right. exists (t_ "-"), i, f. split; [rewrite E; reflexivity|auto].
Qed.
Definition at_least_b (k : Z) (s : text) : bool :=
  let l := split_on 44 s in nonempty l && (k <=? Z.of_nat (length l)) && forallb number_b l && text_eqb (join (t_ ",") l) s.
Lemma forallb_is {A} (f : A -> bool) (P : A -> Prop) l : (forall a, f a = true -> P a) -> forallb f l = true -> Forall P l.
Proof. intros H F. apply Forall_forall. intros a I0. apply H. rewrite forallb_forall in F. auto. Qed.
Lemma at_least_is k s : at_least_b k s = true -> at_least k s.
Proof.
  unfold at_least_b. cbv zeta. rewrite !andb_true_iff. intros [[[N L] F] E]. exists (split_on 44 s). split; [now apply nonempty_is|]. split; [lia|].
  split; [exact (forallb_is _ _ _ number_is F)|]. apply text_eqb_iff in E. now symmetry.
Qed.
Lemma numbers_is s : at_least_b 0 s = true -> numbers_text s.
Proof. intro H. apply at_least_is in H. destruct H as (l & N & _ & F & E). exists l. auto. Qed.
Definition between (lo hi : Z) (i : Z) : bool := (lo <=? i) && (i <? hi).
Definition valid_b : Z -> bool := between 0 136.
Lemma valid_is i : valid_b i = true -> valid_tile i.
Proof. unfold valid_b, between, valid_tile. lia. Qed.

(** ** Actions *)
Definition find_act (e : event) : option action :=
  if Event.has_tag e "INIT" then
    match ints_attr e (t_ "seed"), ints_attr e (t_ "hai0"), ints_attr e (t_ "hai1"), ints_attr e (t_ "hai2"), ints_attr e (t_ "hai3") with
    | Some s, Some h0, Some h1, Some h2, Some h3 =>
      Some (Deal (mkDeal (fun p => nth (Z.to_nat p) [h0; h1; h2; h3] []) (removelast s) (last s 0)))
    | _, _, _, _, _ => None
    end
  else if Event.has_tag e "N" then match int_attr e (t_ "who"), int_attr e (t_ "m") with Some p, Some v => Some (Call p v) | _, _ => None end
  else if Event.has_tag e "DORA" then option_map NewDora (int_attr e (t_ "hai"))
  else match tag e with
  | l :: (c :: _) as r =>
    if ch_digit c && between 84 88 l then option_map (Draw (l - 84)) (canon r)
    else if ch_digit c && between 68 72 l then option_map (Discard (l - 68)) (canon r) else Some Other
  | _ => Some Other
  end.
Definition tile_tag_b (s : text) : bool := match s with l :: c :: _ => (between 84 88 l || between 68 72 l) && ch_digit c | _ => false end.
Lemma tile_tag_is s : tile_tag_b s = true <-> Spec_Log.tile_tag s.
Proof.
  unfold Spec_Log.tile_tag. split.
  - destruct s as [|l [|c r]]; try discriminate. cbn [tile_tag_b]. unfold between, ch_digit. intro H. exists l, c, r. split; [reflexivity|]. lia.
  - intros (l & c & r & -> & L & C). cbn [tile_tag_b]. unfold between, ch_digit. lia.
Qed.
Definition holds_b (e : event) (name v : text) : bool := opt_b (lookup name (attrib e)) (text_eqb v).
Lemma holds_is e name v : holds_b e name v = true -> holds e name v.
Proof. intro H. apply opt_b_true in H. destruct H as (s & L & E). apply text_eqb_iff in E. unfold holds. now subst. Qed.
Lemma has_tag_is e s : Event.has_tag e s = true <-> tag e = t_ s.
Proof. unfold Event.has_tag. apply text_eqb_iff. Qed.
Lemma has_tag_isnt e s : Event.has_tag e s = false <-> tag e <> t_ s.
Proof. rewrite <- has_tag_is. destruct (Event.has_tag e s); split; congruence. Qed.
Definition four : list Z := [0; 1; 2; 3].
Definition writes_b (a : action) (e : event) : bool :=
  match a with
  | Deal d => Event.has_tag e "INIT" && holds_b e (t_ "seed") (comma_list (d_round d ++ [d_dora d])) &&
      forallb (fun p => holds_b e (t_ "hai" ++ str_int p) (comma_list (d_hands d p))) four
  | Draw p t => text_eqb (tag e) (draw_letter p :: str_int t)
  | Discard p t => text_eqb (tag e) (discard_letter p :: str_int t)
  | Call p v => Event.has_tag e "N" && holds_b e (t_ "who") (str_int p) && holds_b e (t_ "m") (str_int v)
  | NewDora t => Event.has_tag e "DORA" && holds_b e (t_ "hai") (str_int t)
  | Other => negb (Event.has_tag e "INIT") && negb (Event.has_tag e "N") && negb (Event.has_tag e "DORA") && negb (tile_tag_b (tag e))
  end.
Lemma in_four (P : Z -> Prop) : (forall p, In p four -> P p) -> forall p, 0 <= p < 4 -> P p.
Proof. intros H p L. apply H. assert (p = 0 \/ p = 1 \/ p = 2 \/ p = 3) as [-> | [-> | [-> | ->]]] by lia; cbn; auto. Qed.
Lemma writes_is a e : writes_b a e = true -> writes a e.
Proof.
  destruct a as [d|p t|p t|p v|t|]; cbn [writes_b writes]; rewrite ?andb_true_iff.
  - intros [[T H] F]. apply has_tag_is in T. apply holds_is in H. split; [exact T|]. split; [exact H|]. apply in_four. intros p I0. apply holds_is.
    rewrite forallb_forall in F. exact (F p I0).
  - intro H. now apply text_eqb_iff in H.
  - intro H. now apply text_eqb_iff in H.
  - intros [[T H] F]. apply has_tag_is in T. apply holds_is in H. apply holds_is in F. auto.
  - intros [T H]. apply has_tag_is in T. apply holds_is in H. auto.
  - intros [[[A B] C] D]. apply negb_true_iff in A, B, C, D. apply has_tag_isnt in A, B, C. split; [exact A|]. split; [exact B|]. split; [exact C|].
    rewrite <- tile_tag_is. rewrite D. discriminate.
Qed.
Definition field_b (v : Z) : bool :=
  match call_kind v with
  | CFlush => field v 10 6 <? 63
  | CTriplet | CAddedKan => field v 9 7 <? 102
  | CKan => high_byte v <? 136
  | _ => true
  end.
Definition legal_b (a : action) : bool :=
  match a with
  | Draw p t | Discard p t => between 0 4 p && valid_b t
  | Call p v => between 0 4 p && between 0 65536 v && field_b v
  | NewDora t => valid_b t
  | _ => true
  end.
Lemma legal_is a : legal_b a = true -> legal_action a.
Proof.
  destruct a as [d|p t|p t|p v|t|]; cbn [legal_b legal_action]; auto; unfold seat, valid_b, valid_tile, between; try lia.
  intro H. rewrite !andb_true_iff in H. destruct H as [[A B] F]. split; [lia|]. split; [lia|]. unfold field_b in F. unfold tile_field_ok.
  destruct (call_kind v); auto; lia.
Qed.
Fixpoint forall2_b {A B} (f : A -> B -> bool) (l : list A) (m : list B) : bool :=
  match l, m with [], [] => true | a :: l', b :: m' => f a b && forall2_b f l' m' | _, _ => false end.
Lemma forall2_is {A B} (f : A -> B -> bool) (P : A -> B -> Prop) : (forall a b, f a b = true -> P a b) -> forall l m, forall2_b f l m = true -> Forall2 P l m.
Proof.
  intro H. induction l as [|a l IH]; intros [|b m] F; try discriminate; [constructor|]. cbn [forall2_b] in F. apply andb_true_iff in F. constructor; [apply H, F|apply IH, F].
Qed.

(** ** Hands *)
Definition mem_b (x : Z) (l : list Z) : bool := existsb (Z.eqb x) l.
Lemma mem_is x l : mem_b x l = true <-> In x l.
Proof. unfold mem_b. rewrite existsb_exists. split; [intros (y & I0 & E); apply Z.eqb_eq in E; now subst|intro I0; exists x; split; [exact I0|apply Z.eqb_refl]]. Qed.
Fixpoint nodup_b (l : list Z) : bool := match l with [] => true | x :: r => negb (mem_b x r) && nodup_b r end.
Lemma nodup_is l : nodup_b l = true -> NoDup l.
Proof.
  induction l as [|x l IH]; intro H; [constructor|]. cbn [nodup_b] in H. apply andb_true_iff in H. destruct H as [H K]. constructor; [|auto].
  rewrite <- mem_is. destruct (mem_b x l); [discriminate|congruence].
Qed.
(** The tiles a call lays down. *)
Definition laid (v : Z) : list Z :=
  match call_kind v with
  | CFlush => map (chi_tile v) (filter (fun i => negb (i =? chi_position v)) [0; 1; 2])
  | CTriplet => map (pon_tile v) (filter (fun i => negb (i =? pon_position v)) [0; 1; 2])
  | CAddedKan => [added_tile v]
  | CKita => [high_byte v]
  | _ => filter (fun x => (source v =? 0) || negb (x =? high_byte v)) (map (fun i => 4 * (high_byte v / 4) + i) [0; 1; 2; 3])
  end.
Lemma in_three (f : Z -> Z) q x : In x (map f (filter (fun i => negb (i =? q)) [0; 1; 2])) <-> exists i, 0 <= i < 3 /\ i <> q /\ x = f i.
Proof.
  rewrite in_map_iff. split.
  - intros (i & E & I0). apply filter_In in I0. destruct I0 as [I0 N]. exists i. cbn [In] in I0. split; [lia|]. split; [lia|now symmetry].
  - intros (i & L & N & E). exists i. split; [now symmetry|]. apply filter_In. split; [cbn; lia|lia].
Qed.
Lemma laid_is v x : In x (laid v) <-> laid_down v x.
Proof.
  unfold laid, laid_down. destruct (call_kind v); try apply in_three; try (cbn [In]; intuition; fail).
  - rewrite filter_In, in_map_iff. split.
    + intros [(i & E & I0) F]. cbn [In] in I0. split; [|lia]. subst x. rewrite Z.mul_comm, Z.div_add_l by lia. rewrite (Z.div_small i 4) by lia. lia.
    + intros [E F]. split; [|lia]. exists (x mod 4). pose proof (Z.div_mod x 4 ltac:(lia)). pose proof (Z.mod_pos_bound x 4 ltac:(lia)). split; [rewrite <- E; lia|cbn [In]; lia].
  - rewrite filter_In, in_map_iff. split.
    + intros [(i & E & I0) F]. cbn [In] in I0. split; [|lia]. subst x. rewrite Z.mul_comm, Z.div_add_l by lia. rewrite (Z.div_small i 4) by lia. lia.
    + intros [E F]. split; [|lia]. exists (x mod 4). pose proof (Z.div_mod x 4 ltac:(lia)). pose proof (Z.mod_pos_bound x 4 ltac:(lia)). split; [rewrite <- E; lia|cbn [In]; lia].
Qed.
Definition without (l m : list Z) : list Z := filter (fun x => negb (mem_b x m)) l.
Lemma without_in x l m : In x (without l m) <-> In x l /\ ~ In x m.
Proof. unfold without. rewrite filter_In, negb_true_iff. rewrite <- (mem_is x m). destruct (mem_b x m); intuition congruence. Qed.
Definition hand_next (p : Z) (h : list Z) (a : action) : list Z :=
  match a with
  | Deal d => d_hands d p
  | Draw q t => if q =? p then t :: h else h
  | Discard q t => if q =? p then without h [t] else h
  | Call q v => if q =? p then without h (laid v) else h
  | _ => h
  end.
Lemma hand_next_in p h acts a : (forall t, In t h <-> in_hand p [] acts t) -> forall t, In t (hand_next p h a) <-> in_hand p [] (acts ++ [a]) t.
Proof.
  intros H t. rewrite in_hand_snoc, <- H. unfold touches. destruct a as [d|q x|q x|q v|x|]; cbn [hand_next puts takes].
  - destruct (in_dec Z.eq_dec t (d_hands d p)); tauto.
  - destruct (q =? p) eqn:E; [apply Z.eqb_eq in E|apply Z.eqb_neq in E]; cbn [In]; [|tauto]. destruct (Z.eq_dec x t); tauto.
  - destruct (q =? p) eqn:E; [apply Z.eqb_eq in E|apply Z.eqb_neq in E]; [|tauto]. rewrite without_in. cbn [In]. tauto.
  - destruct (q =? p) eqn:E; [apply Z.eqb_eq in E|apply Z.eqb_neq in E]; [|tauto]. rewrite without_in, laid_is. tauto.
  - tauto.
  - tauto.
Qed.
Definition same_b (a b : list Z) : bool := forallb (fun x => mem_b x b) a && forallb (fun x => mem_b x a) b.
Lemma same_is a b : same_b a b = true -> forall t, In t a <-> In t b.
Proof. unfold same_b. rewrite andb_true_iff, !forallb_forall. intros [A B] t. split; intro I0; apply mem_is; auto. Qed.
Definition shows_b (p : Z) (h : list Z) (e : event) : bool :=
  opt_b (int_attr e (t_ "fromWho")) (fun from => opt_b (ints_attr e (t_ "hai")) (fun l => nodup_b l &&
    (if from =? p then same_b l h else opt_b (int_attr e (t_ "machi")) (fun m => negb (mem_b m h) && same_b l (m :: h))))).
Lemma shows_is p h e hand : (forall t, In t h <-> hand t) -> shows_b p h e = true -> shows_hand p hand e.
Proof.
  intros H S0. apply opt_b_true in S0. destruct S0 as (from & Ef & S0). apply opt_b_true in S0. destruct S0 as (l & El & S0).
  apply andb_true_iff in S0. destruct S0 as [N S0]. exists from, l. split; [now apply int_attr_is|]. split; [now apply ints_attr_is|]. split; [now apply nodup_is|].
  destruct (from =? p) eqn:E.
  - left. split; [now apply Z.eqb_eq|]. intro t. rewrite (same_is _ _ S0 t). apply H.
  - right. split; [now apply Z.eqb_neq|]. apply opt_b_true in S0. destruct S0 as (m & Em & S0). apply andb_true_iff in S0. destruct S0 as [M S0].
    exists m. split; [now apply int_attr_is|]. split; [rewrite <- H, <- mem_is; destruct (mem_b m h); [discriminate|congruence]|].
    intro t. rewrite (same_is _ _ S0 t). cbn [In]. rewrite H. intuition.
Qed.
Definition fair_b (p : Z) (h : list Z) (a : action) (e : event) : bool :=
  match a with
  | Deal d => nodup_b (d_hands d p) && forallb valid_b (d_hands d p)
  | Draw q t => negb (q =? p) || negb (mem_b t h)
  | Discard q t => negb (q =? p) || mem_b t h
  | Call q v => negb (q =? p) || forallb (fun t => mem_b t h) (laid v)
  | NewDora _ => true
  | Other => negb (Event.has_tag e "AGARI") || opt_b (int_attr e (t_ "who")) (fun w => negb (w =? p) || shows_b p h e)
  end.
Lemma fair_is p h a e hand : (forall t, In t h <-> hand t) -> fair_b p h a e = true -> fair p hand a e.
Proof.
  intro H. destruct a as [d|q t|q t|q v|t|]; cbn [fair_b fair]; auto.
  - rewrite andb_true_iff. intros [N F]. split; [now apply nodup_is|exact (forallb_is _ _ _ valid_is F)].
  - intros B E. subst q. rewrite Z.eqb_refl in B. cbn in B. rewrite <- H, <- mem_is. destruct (mem_b t h); [discriminate|congruence].
  - intros B E. subst q. rewrite Z.eqb_refl in B. cbn in B. rewrite <- H, <- mem_is. exact B.
  - intros B E t L. subst q. rewrite Z.eqb_refl in B. cbn in B. rewrite <- H, <- mem_is. rewrite forallb_forall in B. apply B. now apply laid_is.
  - intros B T. apply has_tag_is in T. rewrite T in B. cbn in B. apply opt_b_true in B. destruct B as (w & Ew & B). exists w. split; [now apply int_attr_is|].
    intros ->. rewrite Z.eqb_refl in B. cbn in B. eapply shows_is; eassumption.
Qed.
Fixpoint fair_run (p : Z) (h : list Z) (acts : list action) (es : list event) : bool :=
  match acts, es with
  | a :: acts', e :: es' => fair_b p h a e && fair_run p (hand_next p h a) acts' es'
  | _, _ => true
  end.
Lemma fair_run_is p : forall acts es h pre, (forall t, In t h <-> in_hand p [] pre t) -> fair_run p h acts es = true ->
  forall before a after e, acts = before ++ a :: after -> nth_error es (length before) = Some e -> fair p (in_hand p [] (pre ++ before)) a e.
Proof.
  induction acts as [|b acts IH]; intros es h pre H F before a after e E N; [destruct before; discriminate E|]. destruct es as [|f es]; [destruct before; discriminate N|].
  cbn [fair_run] in F. apply andb_true_iff in F. destruct F as [F1 F2]. destruct before as [|c before]; cbn [app length nth_error] in *.
  - injection E as <- <-. injection N as <-. rewrite app_nil_r. eapply fair_is; eassumption.
  - injection E as <- E. replace (pre ++ b :: before) with ((pre ++ [b]) ++ before) by (rewrite <- app_assoc; reflexivity).
    eapply IH; [|exact F2|exact E|exact N]. apply hand_next_in. exact H.
Qed.
Lemma in_hand_none p t : ~ in_hand p [] [] t.
Proof. intros [(b & a & c & E & _)|[[] _]]. destruct b; discriminate E. Qed.

(** ** What events say *)
Definition if_tag (e : event) (s : string) (b : bool) : bool := if Event.has_tag e s then b else true.
Lemma if_tag_is e s b : if_tag e s b = true -> tag e = t_ s -> b = true.
Proof. unfold if_tag. intros H T. apply has_tag_is in T. now rewrite T in H. Qed.
Definition if_says (e : event) (name : text) (f : text -> bool) : bool := match lookup name (attrib e) with Some s => f s | None => true end.
Lemma if_says_is e name f (P : text -> Prop) : (forall s, f s = true -> P s) -> if_says e name f = true -> forall s, holds e name s -> P s.
Proof. unfold if_says, holds. intros Q H s L. rewrite L in H. auto. Qed.
Definition say_b (e : event) (name : text) (f : text -> bool) : bool := opt_b (lookup name (attrib e)) f.
Lemma say_is e name f (P : text -> Prop) : (forall s, f s = true -> P s) -> say_b e name f = true -> exists s, holds e name s /\ P s.
Proof. intros Q H. apply opt_b_true in H. destruct H as (s & L & F). exists s. split; [exact L|auto]. Qed.
Definition grades_b (s : text) : bool := opt_b (ints s) (fun l => (4 <=? Z.of_nat (length l)) && forallb (between 0 21) l).
Lemma between_is lo hi i : between lo hi i = true -> lo <= i < hi.
Proof. unfold between. lia. Qed.
Lemma grades_is s : grades_b s = true -> grades s.
Proof.
  intro H. apply opt_b_true in H. destruct H as (l & E & H). apply andb_true_iff in H. destruct H as [L F]. exists l. split; [lia|]. split; [|now apply ints_is].
  apply (forallb_is _ _ _ (fun i => between_is 0 21 i)) in F. eapply Forall_impl; [|exact F]. cbn. lia.
Qed.
Definition yaku_b (s : text) : bool := opt_b (ints s) (fun l => nonempty l && forallb (between 0 55) l).
Lemma yaku_is s : yaku_b s = true -> yaku_numbers s.
Proof.
  intro H. apply opt_b_true in H. destruct H as (l & E & H). apply andb_true_iff in H. destruct H as [L F]. exists l. split; [now apply nonempty_is|].
  split; [exact (forallb_is _ _ _ (fun i => between_is 0 55 i) F)|now apply ints_is].
Qed.
Definition four_parts_b (s : text) : bool :=
  let l := split_on 44 s in (4 <=? Z.of_nat (length l)) && forallb (fun x => negb (mem_b 44 x)) l && text_eqb (join (t_ ",") l) s.
Lemma four_parts_is s : four_parts_b s = true -> four_parts s.
Proof.
  unfold four_parts_b. cbv zeta. rewrite !andb_true_iff. intros [[L F] E]. exists (split_on 44 s). split; [exact (proj1 (Z.leb_le _ _) L)|]. split; [|apply text_eqb_iff in E; now symmetry].
  eapply forallb_is; [|exact F]. intros x H. cbn beta in H. rewrite <- mem_is. destruct (mem_b 44 x); [discriminate|congruence].
Qed.
Definition complete_b (n w : Z) (e : event) : bool :=
  if_tag e "GO" (opt_b (int_attr e (t_ "type")) (fun v => between 0 65536 v && (n =? if flag v 4 then 3 else 4) && (w =? if flag v 3 then 2 else 1))) &&
  if_tag e "SHUFFLE" (say_b e (t_ "seed") (fun _ => true)) &&
  if_tag e "TAIKYOKU" (opt_b (int_attr e (t_ "oya")) (fun _ => true)) &&
  if_tag e "UN" (if_says e (t_ "dan") grades_b && if_says e (t_ "rate") (at_least_b 4) && if_says e (t_ "sx") four_parts_b) &&
  if_tag e "INIT" (opt_b (ints_attr e (t_ "seed")) (fun l => match l with r :: _ :: _ :: _ => between 0 (4 * (w + 1)) r | _ => false end) &&
    opt_b (int_attr e (t_ "oya")) (fun _ => true) && say_b e (t_ "ten") (at_least_b n)) &&
  if_tag e "REACH" (opt_b (int_attr e (t_ "who")) (between 0 n) && say_b e (t_ "step") (fun _ => true)) &&
  if_tag e "BYE" (opt_b (int_attr e (t_ "who")) (fun _ => true)) &&
  if_tag e "AGARI" (opt_b (int_attr e (t_ "who")) (fun p => opt_b (int_attr e (t_ "fromWho")) (fun from => opt_b (ints_attr e (t_ "hai")) (fun hai =>
    nonempty hai && forallb valid_b hai && ((p =? from) || opt_b (int_attr e (t_ "machi")) (fun m => mem_b m hai)) &&
    say_b e (t_ "sc") (at_least_b (2 * n)) &&
    match lookup (t_ "yaku") (attrib e) with Some y => yaku_b y | None => say_b e (t_ "yakuman") yaku_b end && say_b e (t_ "ten") (at_least_b 2))))) &&
  if_tag e "RYUUKYOKU" (if_says e (t_ "type") (one_of draw_names) && if_says e (t_ "sc") (at_least_b (2 * n))) &&
  (negb (Event.has_tag e "AGARI" || Event.has_tag e "RYUUKYOKU") || if_says e (t_ "owari") (at_least_b (2 * n))).
Lemma complete_is n w e : complete_b n w e = true -> complete n w e.
Proof.
  unfold complete_b. rewrite !andb_true_iff. intros [[[[[[[[[GO SH] TA] UN] IN] RE] BY] AG] RY] EN]. unfold complete.
  split; [|split; [|split; [|split; [|split; [|split; [|split; [|split; [|split]]]]]]]].
  - intro T. apply (if_tag_is _ _ _ GO) in T. apply opt_b_true in T. destruct T as (v & E & T). rewrite !andb_true_iff in T. destruct T as [[A B] C].
    exists v. split; [now apply between_is|]. split; [now apply int_attr_is|]. lia.
  - intro T. apply (if_tag_is _ _ _ SH) in T. apply opt_b_true in T. destruct T as (s & E & _). exists s. exact E.
  - intro T. apply (if_tag_is _ _ _ TA) in T. apply opt_b_true in T. destruct T as (o & E & _). exists o. now apply int_attr_is.
  - intro T. apply (if_tag_is _ _ _ UN) in T. rewrite !andb_true_iff in T. destruct T as [[A B] C].
    split; [exact (if_says_is _ _ _ _ grades_is A)|]. split; [exact (if_says_is _ _ _ _ (at_least_is 4) B)|exact (if_says_is _ _ _ _ four_parts_is C)].
  - intro T. apply (if_tag_is _ _ _ IN) in T. rewrite !andb_true_iff in T. destruct T as [[A B] C]. split; [|split].
    + apply opt_b_true in A. destruct A as (l & E & A). destruct l as [|r [|h [|s l]]]; try discriminate. exists r, h, s, l. split; [now apply between_is|now apply ints_attr_is].
    + apply opt_b_true in B. destruct B as (o & E & _). exists o. now apply int_attr_is.
    + exact (say_is _ _ _ _ (at_least_is n) C).
  - intro T. apply (if_tag_is _ _ _ RE) in T. rewrite !andb_true_iff in T. destruct T as [A B]. apply opt_b_true in A. destruct A as (p & E & A).
    exists p. split; [now apply between_is|]. split; [now apply int_attr_is|]. apply opt_b_true in B. destruct B as (s & L & _). exists s. exact L.
  - intro T. apply (if_tag_is _ _ _ BY) in T. apply opt_b_true in T. destruct T as (o & E & _). exists o. now apply int_attr_is.
  - intro T. apply (if_tag_is _ _ _ AG) in T. apply opt_b_true in T. destruct T as (p & Ep & T). apply opt_b_true in T. destruct T as (from & Ef & T).
    apply opt_b_true in T. destruct T as (hai & Eh & T). rewrite !andb_true_iff in T. destruct T as [[[[[N V] M] S0] Y] Tn].
    apply (say_is _ _ _ _ (at_least_is 2)) in Tn.
    apply (say_is _ _ _ _ (at_least_is (2 * n))) in S0. destruct S0 as (sc & Hs & S0).
    assert (K : exists y, (holds e (t_ "yaku") y \/ (lookup (t_ "yaku") (attrib e) = None /\ holds e (t_ "yakuman") y)) /\ yaku_numbers y).
    { unfold holds. destruct (lookup (t_ "yaku") (attrib e)) as [y|] eqn:L.
      - exists y. split; [now left|now apply yaku_is].
      - apply (say_is _ _ _ _ yaku_is) in Y. destruct Y as (y & H & Y). exists y. split; [right; split; [reflexivity|exact H]|exact Y]. }
    destruct K as (y & H & Y0). exists p, from, hai, sc, y. split; [now apply int_attr_is|]. split; [now apply int_attr_is|]. split; [now apply nonempty_is|].
    split; [exact (forallb_is _ _ _ valid_is V)|]. split; [now apply ints_attr_is|]. split; [|auto].
    apply orb_true_iff in M. destruct M as [M|M]; [left; lia|right]. apply opt_b_true in M. destruct M as (m & Em & M). exists m. split; [now apply mem_is|now apply int_attr_is].
  - intro T. apply (if_tag_is _ _ _ RY) in T. rewrite !andb_true_iff in T. destruct T as [A B].
    split; [exact (if_says_is _ _ _ _ (fun s => proj1 (one_of_in draw_names s)) A)|exact (if_says_is _ _ _ _ (at_least_is (2 * n)) B)].
  - intros T. assert (K : Event.has_tag e "AGARI" || Event.has_tag e "RYUUKYOKU" = true) by (apply orb_true_iff; rewrite !has_tag_is; exact T).
    rewrite K in EN. cbn in EN. exact (if_says_is _ _ _ _ (at_least_is (2 * n)) EN).
Qed.
Definition at_table_b (n : Z) (a : action) : bool :=
  match a with
  | Deal d => valid_b (d_dora d) && forallb (fun p => negb (p <? n) || nonempty (d_hands d p)) four
  | Draw q _ | Discard q _ | Call q _ => q <? n
  | _ => true
  end.
Lemma at_table_is n a : n <= 4 -> at_table_b n a = true -> at_table n a.
Proof.
  intro N. destruct a as [d|q t|q t|q v|t|]; cbn [at_table_b at_table]; auto; try lia. rewrite andb_true_iff. intros [V F]. split; [now apply valid_is|].
  intros p P. apply nonempty_is. rewrite forallb_forall in F. assert (I0 : In p four) by (unfold four; cbn; lia). specialize (F p I0).
  destruct (p <? n) eqn:E; [exact F|lia].
Qed.
Fixpoint order_b (go init : bool) (es : list event) : bool :=
  match es with
  | [] => true
  | e :: r =>
    (go || negb (one_of [t_ "TAIKYOKU"; t_ "INIT"; t_ "AGARI"; t_ "RYUUKYOKU"] (tag e))) &&
    (init || negb (one_of [t_ "N"; t_ "DORA"; t_ "REACH"] (tag e) || tile_tag_b (tag e))) &&
    order_b (go || Event.has_tag e "GO") (init || Event.has_tag e "INIT") r
  end.
Lemma order_is : forall es go init pre, (go = true -> Spec_Convert.has_tag (t_ "GO") pre) -> (init = true -> Spec_Convert.has_tag (t_ "INIT") pre) ->
  order_b go init es = true -> forall before e after, es = before ++ e :: after ->
    (In (tag e) [t_ "TAIKYOKU"; t_ "INIT"; t_ "AGARI"; t_ "RYUUKYOKU"] -> Spec_Convert.has_tag (t_ "GO") (pre ++ before)) /\
    (In (tag e) [t_ "N"; t_ "DORA"; t_ "REACH"] \/ Spec_Log.tile_tag (tag e) -> Spec_Convert.has_tag (t_ "INIT") (pre ++ before)).
Proof.
  assert (W : forall t l m, Spec_Convert.has_tag t l -> Spec_Convert.has_tag t (l ++ m)) by (intros t l m (e & I0 & T); exists e; split; [apply in_or_app; now left|exact T]).
  induction es as [|f es IH]; intros go init pre G J O before e after E; [destruct before; discriminate E|].
  cbn [order_b] in O. rewrite !andb_true_iff in O. destruct O as [[A B] C]. destruct before as [|g before]; cbn [app] in E; injection E as <- E.
  - rewrite app_nil_r. split.
    + intro I0. apply one_of_in in I0. rewrite I0 in A. apply G. destruct go; [reflexivity|discriminate].
    + intro K. apply J. destruct init; [reflexivity|]. assert (Q : one_of [t_ "N"; t_ "DORA"; t_ "REACH"] (tag f) || tile_tag_b (tag f) = true).
      { apply orb_true_iff. rewrite one_of_in, tile_tag_is. exact K. } rewrite Q in B. discriminate B.
  - replace (pre ++ f :: before) with ((pre ++ [f]) ++ before) by (rewrite <- app_assoc; reflexivity).
    refine (IH _ _ (pre ++ [f]) _ _ C before e after E).
    + intro H. apply orb_true_iff in H. destruct H as [H|H]; [apply W; auto|]. apply has_tag_is in H. exists f. split; [apply in_or_app; right; now left|exact H].
    + intro H. apply orb_true_iff in H. destruct H as [H|H]; [apply W; auto|]. apply has_tag_is in H. exists f. split; [apply in_or_app; right; now left|exact H].
Qed.

(** ** The check of [proper]. *)
Fixpoint acts_of (es : list event) : option (list action) :=
  match es with
  | [] => Some []
  | e :: r => match find_act e, acts_of r with Some a, Some l => Some (a :: l) | _, _ => None end
  end.
Definition proper_b (n w : Z) (es : list event) : bool :=
  opt_b (acts_of es) (fun acts =>
    ((n =? 3) || (n =? 4)) && forallb legal_b acts && forall2_b writes_b acts es && forallb (complete_b n w) es && forallb (at_table_b n) acts &&
    order_b false false es && forallb (fun p => negb (p <? n) || fair_run p [] acts es) four).
Theorem proper_is n w es : proper_b n w es = true -> exists acts, proper n w acts es.
Proof.
  intro H. apply opt_b_true in H. destruct H as (acts & _ & H). exists acts. rewrite !andb_true_iff in H. destruct H as [[[[[[N L] W] C] A] O] F].
  assert (N' : n = 3 \/ n = 4) by lia. split; [exact N'|]. split; [split; [exact (forallb_is _ _ _ legal_is L)|exact (forall2_is _ _ writes_is _ _ W)]|].
  split; [exact (forallb_is _ _ _ (complete_is n w) C)|]. split; [refine (forallb_is _ _ _ (fun a => at_table_is n a _) A); lia|]. split.
  - intros before e after E. apply (order_is es false false []) with (before := before) (e := e) (after := after) in O; [exact O|discriminate|discriminate|exact E].
  - intros p P before a after e E Ne. rewrite forallb_forall in F. assert (I0 : In p four) by (unfold four; cbn; lia). specialize (F p I0).
    destruct (p <? n) eqn:Q; [|lia]. cbn in F. apply (fair_run_is p acts es [] []) with (before := before) (a := a) (after := after); [|exact F|exact E|exact Ne].
    intro t. cbn [In]. split; [intros []|intro K; exact (in_hand_none _ _ K)].
Qed.

(** ** The check of [good_log]. *)
Definition known_tile_b (e : event) : bool :=
  match tag e with
  | l :: r => if mem_b l letters && nonempty r && forallb (fun c => ch_digit c || (c =? 10)) r then opt_b (canon r) valid_b else true
  | [] => true
  end.
Lemma known_tile_is e : known_tile_b e = true -> known_tile e.
Proof.
  unfold known_tile_b. intros H ds [N D] (l & L & T).
  assert (A : forall x, In x ds -> ch_digit x = true) by (intros x I0; rewrite Forall_forall in D; specialize (D x I0); unfold ch_digit; lia).
  destruct T as [T|T]; rewrite T in H.
  - assert (K : mem_b l letters && nonempty ds && forallb (fun c => ch_digit c || (c =? 10)) ds = true).
    { rewrite !andb_true_iff. split; [split; [now apply mem_is|destruct ds; [congruence|reflexivity]]|]. apply forallb_forall. intros x I0. rewrite (A x I0). reflexivity. }
    rewrite K in H. apply opt_b_true in H. destruct H as (n & E & V). exists O, n. split; [now apply canon_is|now apply valid_is].
  - assert (K : mem_b l letters && nonempty (ds ++ [10]) && forallb (fun c => ch_digit c || (c =? 10)) (ds ++ [10]) = true).
    { rewrite !andb_true_iff. split; [split; [now apply mem_is|destruct ds; reflexivity]|]. apply forallb_forall. intros x I0. apply in_app_or in I0.
      destruct I0 as [I0|[<-|[]]]; [rewrite (A x I0); reflexivity|reflexivity]. }
    rewrite K in H. apply opt_b_true in H. destruct H as (n & E & V). apply canon_is in E. apply valid_is in V. exfalso.
    destruct (str_int_nonneg n (proj1 V)) as (_ & B & _). rewrite <- E in B. rewrite forallb_app in B. cbn in B. rewrite andb_false_r in B. discriminate B.
Qed.
Fixpoint first_tag (s : string) (l : list event) : option event :=
  match l with [] => None | e :: r => if Event.has_tag e s then Some e else first_tag s r end.
Lemma first_tag_is s l e : first_tag s l = Some e -> first_with (t_ s) l e.
Proof.
  induction l as [|x l IH]; cbn [first_tag]; [discriminate|]. destruct (Event.has_tag x s) eqn:T; intro H.
  - injection H as <-. apply fw_here. now apply has_tag_is.
  - apply fw_later; [now apply has_tag_isnt|auto].
Qed.
Definition deals_b (e : event) : bool := Event.has_tag e "INIT".
Lemma no_deals l : forallb (fun e => negb (deals_b e)) l = true -> Forall (fun e => ~ deals e) l.
Proof. apply forallb_is. intros e H. apply negb_true_iff in H. now apply has_tag_isnt in H. Qed.
Definition good_head_b (head : list event) : bool :=
  forallb (fun e => negb (deals_b e)) head &&
  opt_b (first_tag "GO" head) (fun go => opt_b (int_attr go (t_ "type")) (between 0 65536)) &&
  opt_b (first_tag "UN" head) (fun un => forallb (fun i => say_b un (t_ i) (fun _ => true)) ["n0"; "n1"; "n2"; "n3"; "sx"]%string &&
    say_b un (t_ "dan") (at_least_b 0) && say_b un (t_ "rate") (at_least_b 0)).
Lemma good_head_is head : good_head_b head = true -> good_head head.
Proof.
  unfold good_head_b. rewrite !andb_true_iff. intros [[D G] U]. split; [now apply no_deals|]. split.
  - apply opt_b_true in G. destruct G as (go & F & G). apply opt_b_true in G. destruct G as (v & E & G). exists go, v. split; [now apply first_tag_is|].
    split; [now apply int_attr_is|now apply between_is].
  - apply opt_b_true in U. destruct U as (un & F & U). rewrite !andb_true_iff in U. destruct U as [[A B] C].
    apply (say_is _ _ _ _ numbers_is) in B. destruct B as (dan & Hd & Nd). apply (say_is _ _ _ _ numbers_is) in C. destruct C as (rate & Hr & Nr).
    exists un, dan, rate. split; [now apply first_tag_is|]. split; [|auto]. intros i I0. rewrite forallb_forall in A. specialize (A i I0).
    apply opt_b_true in A. destruct A as (s & L & _). exists s. exact L.
Qed.
Definition good_deal_b (l : list event) : bool :=
  match l with
  | init :: playing => deals_b init && say_b init (t_ "seed") (at_least_b 0) && opt_b (int_attr init (t_ "oya")) (fun _ => true) &&
      forallb (fun e => negb (deals_b e)) playing && existsb (fun e => Event.has_tag e "AGARI" || Event.has_tag e "RYUUKYOKU") playing
  | [] => false
  end.
Lemma good_deal_is l : good_deal_b l = true -> good_deal l.
Proof.
  destruct l as [|init playing]; [discriminate|]. cbn [good_deal_b]. rewrite !andb_true_iff. intros [[[[D S0] O] P] E].
  apply (say_is _ _ _ _ numbers_is) in S0. destruct S0 as (seed & Hs & Ns). apply opt_b_true in O. destruct O as (east & Eo & _).
  exists init, playing, seed, east. split; [reflexivity|]. split; [now apply has_tag_is|]. split; [exact Hs|]. split; [exact Ns|]. split; [now apply int_attr_is|].
  split; [now apply no_deals|]. apply existsb_exists in E. destruct E as (e & I0 & E). apply Exists_exists. exists e. split; [exact I0|].
  apply orb_true_iff in E. rewrite !has_tag_is in E. exact E.
Qed.
Fixpoint deal_parts (es : list event) : list event * list (list event) :=
  match es with
  | [] => ([], [])
  | e :: r => let (h, ds) := deal_parts r in if deals_b e then ([], (e :: h) :: ds) else (e :: h, ds)
  end.
Lemma deal_parts_all es : es = fst (deal_parts es) ++ concat (snd (deal_parts es)).
Proof.
  induction es as [|e r IH]; [reflexivity|]. cbn [deal_parts]. destruct (deal_parts r) as [h ds]. cbn [fst snd] in IH. destruct (deals_b e); cbn [fst snd app concat]; rewrite IH at 1; reflexivity.
Qed.
Definition good_log_b (es : list event) : bool :=
  good_head_b (fst (deal_parts es)) && forallb good_deal_b (snd (deal_parts es)) && forallb known_tile_b es &&
  match rev es with e :: _ => say_b e (t_ "owari") (at_least_b 0) | [] => false end.
Lemma good_log_parts es : good_log_b es = true -> good_log (fst (deal_parts es)) (snd (deal_parts es)) es.
Proof.
  unfold good_log_b. rewrite !andb_true_iff. intros [[[H D] K] O]. split; [apply deal_parts_all|].
  split; [now apply good_head_is|]. split; [exact (forallb_is _ _ _ good_deal_is D)|]. split; [exact (forallb_is _ _ _ known_tile_is K)|].
  destruct (rev es) as [|e l] eqn:R; [discriminate|]. apply (say_is _ _ _ _ numbers_is) in O. destruct O as (s & Hs & Ns). exists (rev l), e, s.
  split; [|auto]. rewrite <- (rev_involutive es), R. reflexivity.
Qed.
Theorem good_log_is es : good_log_b es = true -> exists head ds, good_log head ds es.
Proof. intro G. eexists _, _. exact (good_log_parts _ G). Qed.

(** ** The other conditions. *)
Definition space_b (c : Z) : bool := mem_b c [9; 10; 11; 12; 13; 28; 29; 30; 31; 32; 133; 160; 5760; 8192; 8193; 8194; 8195; 8196; 8197; 8198; 8199; 8200; 8201; 8202;
  8232; 8233; 8239; 8287; 12288].
Definition known_b (e : event) : bool :=
  tile_tag_b (tag e) || one_of [t_ "GO"; t_ "SHUFFLE"; t_ "TAIKYOKU"; t_ "INIT"; t_ "N"; t_ "DORA"; t_ "BYE"; t_ "AGARI"; t_ "RYUUKYOKU"] (tag e) ||
  (Event.has_tag e "UN" && existsb (fun p => say_b e (t_ "n" ++ str_int p) (existsb (fun c => negb (space_b c)))) four) ||
  (Event.has_tag e "REACH" && (holds_b e (t_ "step") (t_ "1") || holds_b e (t_ "step") (t_ "2"))).
Lemma known_is e : known_b e = true -> known e.
Proof.
  unfold known_b. rewrite !orb_true_iff, !andb_true_iff. intros [[[H|H]|[T H]]|[T H]].
  - left. now apply tile_tag_is.
  - right. left. now apply one_of_in.
  - right. right. left. apply has_tag_is in T. split; [exact T|]. apply existsb_exists in H. destruct H as (p & I0 & H). exists p. split; [unfold four in I0; cbn in I0; unfold seat; lia|].
    apply opt_b_true in H. destruct H as (s & L & H). apply existsb_exists in H. destruct H as (c & Ic & H). exists s. split; [exact T|]. split; [exact L|]. exists c. split; [exact Ic|].
    unfold space_b in H. intro Sp. apply (mem_is c) in Sp. rewrite Sp in H. discriminate H.
  - right. right. right. apply has_tag_is in T. split; [exact T|]. apply orb_true_iff in H. destruct H as [H|H]; apply holds_is in H; auto.
Qed.
Definition unicode_b (s : text) : bool := forallb (fun c => between 0 55296 c || between 57344 1114112 c) s.
Definition line_b (s : text) : bool := negb (mem_b 13 s) && negb (mem_b 0 s).
Definition clean_b (unquote : text -> text) (e : event) : bool :=
  forallb (fun a => unicode_b (snd a) && line_b (snd a) && unicode_b (unquote (snd a)) && line_b (unquote (snd a))) (attrib e).
Lemma unicode_is s : unicode_b s = true -> Spec_Record.unicode s.
Proof. intro H. unfold Spec_Record.unicode. eapply forallb_is; [|exact H]. intros c. cbn beta. unfold between. lia. Qed.
Lemma line_is s : line_b s = true -> one_line_break s.
Proof. unfold line_b, one_line_break. rewrite andb_true_iff, !negb_true_iff, <- !mem_is. intros [A B]. rewrite A, B. split; discriminate. Qed.
Lemma clean_is unquote e : clean_b unquote e = true -> clean_event unquote e.
Proof.
  intro H. unfold clean_event. eapply forallb_is; [|exact H]. intros a. cbn beta. rewrite !andb_true_iff. intros [[[A B] C] D].
  split; [now apply unicode_is|]. split; [now apply line_is|]. split; [now apply unicode_is|now apply line_is].
Qed.
Definition seated_b (e : event) : bool :=
  negb (one_of [t_ "N"; t_ "REACH"; t_ "AGARI"; t_ "BYE"] (tag e)) || if_says e (t_ "who") (one_of [t_ "0"; t_ "1"; t_ "2"; t_ "3"]).
Lemma seated_is e : seated_b e = true -> seated e.
Proof.
  unfold seated_b, seated. intros H I0 s Hs. apply one_of_in in I0. rewrite I0 in H. cbn in H. apply one_of_in. exact (if_says_is _ _ _ (fun s => one_of _ s = true) (fun s E => E) H s Hs).
Qed.
