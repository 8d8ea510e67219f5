(** C37, C38, C39: replaying commands with the executor. *)
From Verif Require Import Base Parse Text Value Universe Transfer Spec_Transfer TransferProofs Spec_Universe StateProofs UniverseProofs ExecutorProofs Translator.
From Coq Require Import String List ZArith Lia Bool Permutation.
Import ListNotations.
Open Scope list_scope.
Open Scope Z_scope.

(** [list(GameExecutor(strict).execute(cmds))]: the snapshots obtained, the objects they
    live in and the exception ending the iteration, if any. (Coq needs a bound for the
    nesting of dictionaries; every large enough one gives the same result.) *)
Definition replay (strict : bool) (cmds : list command) (snaps : list nat) (h : edict) (err : option exn) : Prop :=
  exists N, forall fuel, (N <= fuel)%nat -> execute strict fuel cmds = (snaps, h, err).
(** The state shown by the [n]-th snapshot. *)
Definition snapshot (snaps : list nat) (h : edict) (n : nat) (T : tree key val) : Prop :=
  exists a, nth_error snaps n = Some a /\ reads h a T.
(** Every command can be executed after those before it. *)
Definition executable (cmds : list command) : Prop :=
  forall n c, nth_error cmds n = Some c -> can_do (firstn n cmds) c.

Lemma replay_det strict cmds s h e s' h' e' : replay strict cmds s h e -> replay strict cmds s' h' e' -> s = s' /\ h = h' /\ e = e'.
Proof.
  intros [N A] [M B]. specialize (A (N + M)%nat ltac:(lia)). specialize (B (N + M)%nat ltac:(lia)).
  rewrite A in B. injection B as -> -> ->. auto.
Qed.
Lemma progress_facts strict cs cmds n e : progress strict cs cmds n e ->
  (n <= length cmds)%nat /\ (e = None <-> n = length cmds) /\
  (forall i c, (i < n)%nat -> nth_error cmds i = Some c -> accepts strict (cs ++ firstn i cmds) c) /\
  (forall x, e = Some x -> exists c, nth_error cmds n = Some c /\ ~ accepts strict (cs ++ firstn n cmds) c /\
     (can_do (cs ++ firstn n cmds) c -> x = AssertionError)).
Proof.
  induction 1 as [cs|cs c r e N A|cs c r n e A P [L [D [F G]]]].
  - cbn. split; [lia|]. split; [tauto|]. split; [intros; lia|discriminate].
  - cbn [length firstn]. rewrite app_nil_r. split; [lia|]. split; [split; [discriminate|lia]|]. split; [intros; lia|].
    intros x E. injection E as <-. exists c. cbn. auto.
  - cbn [length]. split; [lia|]. split; [rewrite D; lia|]. split.
    + intros [|i] c' Hi E; cbn [nth_error firstn] in *.
      * injection E as <-. rewrite app_nil_r. exact A.
      * change (c :: firstn i r) with ([c] ++ firstn i r). rewrite app_assoc. apply F; [lia|exact E].
    + intros x E. destruct (G x E) as [c' [Q R]]. exists c'. cbn [nth_error firstn].
      change (c :: firstn n r) with ([c] ++ firstn n r). rewrite app_assoc. auto.
Qed.

(** ** C37 *)
(** Whatever the commands: the snapshots belong to the first commands, one each; the n-th
    shows the effect of exactly the first n commands and the n-th command's timestamp; and
    the iteration ends without exception exactly when there is one for every command. *)
Theorem C37_snapshots : forall strict cmds, exists snaps h err,
  replay strict cmds snaps h err /\
  (length snaps <= length cmds)%nat /\ (err = None <-> length snaps = length cmds) /\
  forall n, (n < length snaps)%nat -> exists T c,
    nth_error cmds n = Some c /\ snapshot snaps h n T /\ shows_state T (firstn (S n) cmds) (c_time c).
Proof.
  intros strict cmds. destruct (execute_spec strict cmds) as [snaps [h [err [R [P F]]]]].
  destruct (progress_facts _ _ _ _ _ P) as [L [D _]].
  exists snaps, h, err. split; [exact R|]. split; [exact L|]. split; [exact D|].
  intros n Hn. destruct (nth_error snaps n) as [a|] eqn:E; [|apply nth_error_None in E; lia].
  destruct (F n a E) as [T [c [A [B C]]]]. exists T, c. split; [exact A|]. split; [exists a; auto|exact C].
Qed.
(** Without strict mode the iteration stops only before a command that cannot be executed. *)
Theorem C37_stops : forall cmds snaps h e, replay false cmds snaps h (Some e) ->
  exists c, nth_error cmds (length snaps) = Some c /\ ~ can_do (firstn (length snaps) cmds) c.
Proof.
  intros cmds snaps h e R. destruct (execute_spec false cmds) as [s [h' [e' [R' [P _]]]]].
  destruct (replay_det _ _ _ _ _ _ _ _ R R') as [<- [<- <-]].
  destruct (progress_facts _ _ _ _ _ P) as [_ [_ [_ G]]]. destruct (G e eq_refl) as [c [A [B _]]].
  exists c. split; [exact A|]. intro C. apply B. split; [exact C|discriminate].
Qed.
Theorem C37_all : forall cmds, executable cmds -> exists snaps h, replay false cmds snaps h None /\ length snaps = length cmds.
Proof.
  intros cmds E. destruct (C37_snapshots false cmds) as [snaps [h [err [R [L [D _]]]]]].
  destruct err as [e|].
  - destruct (C37_stops _ _ _ _ R) as [c [A B]]. exfalso. apply B. apply E. exact A.
  - exists snaps, h. split; [exact R|]. apply D. reflexivity.
Qed.

(** ** C39 *)
(** Strict mode, on executable commands: complete if nothing is contradicted, otherwise it
    stops with AssertionError before the first contradicting command. *)
Theorem C39_strict : forall cmds, executable cmds -> exists snaps h err, replay true cmds snaps h err /\
  (forall i c, (i < length snaps)%nat -> nth_error cmds i = Some c -> ~ contradicts (firstn i cmds) c) /\
  ((err = None /\ length snaps = length cmds) \/
   (err = Some AssertionError /\ exists c, nth_error cmds (length snaps) = Some c /\ contradicts (firstn (length snaps) cmds) c)).
Proof.
  intros cmds E. destruct (execute_spec true cmds) as [snaps [h [err [R [P _]]]]].
  destruct (progress_facts _ _ _ _ _ P) as [_ [D [F G]]]. exists snaps, h, err. split; [exact R|].
  split; [intros i c Hi Q; apply (F i c Hi Q); reflexivity|].
  destruct err as [e|]; [right|left; split; [reflexivity|apply D; reflexivity]].
  destruct (G e eq_refl) as [c [Q [A B]]]. pose proof (E _ _ Q) as C. cbn [app] in *. rewrite (B C). split; [reflexivity|].
  exists c. split; [exact Q|]. unfold accepts in A.
  destruct C as [p [old [w [Ad [H [Ef Cm]]]]]]. destruct (c_update c) eqn:U; try (exfalso; apply A; split; [exists p, old, w; rewrite U; auto|];
    intros _ [X _]; congruence).
  split; [exact U|]. destruct old as [o|].
  - exists p, o. split; [exact Ad|]. split; [exact H|]. intro Ag. apply A. split; [exists p, (Some o), w; auto|].
    intros _ [_ [p' [o' [Ad' [H' N]]]]]. rewrite (addressed_det _ _ _ Ad' Ad) in H'.
    pose proof (holds_det _ _ _ _ H' H) as Q'. injection Q' as ->. exact (N Ag).
  - exfalso. apply A. split; [exists p, None, w; auto|]. intros _ [_ [p' [o' [Ad' [H' N]]]]].
    rewrite (addressed_det _ _ _ Ad' Ad) in H'. pose proof (holds_det _ _ _ _ H' H) as Q'. discriminate Q'.
Qed.
(** Without it, an asserted value is stored whatever was there. *)
Theorem C39_lenient : forall cmds, executable cmds -> exists snaps h, replay false cmds snaps h None /\
  forall n c, nth_error cmds n = Some c -> c_update c = U_ASSERT_EQUAL_OR_SET ->
  exists T p, snapshot snaps h n T /\ addressed c p /\ at_path key_eqb T (path_of p) = Some (TLeaf (c_value c)).
Proof.
  intros cmds E. destruct (C37_snapshots false cmds) as [snaps [h [err [R [L [D F]]]]]].
  destruct err as [e|].
  { destruct (C37_stops _ _ _ _ R) as [c [A B]]. exfalso. apply B. apply E. exact A. }
  exists snaps, h. split; [exact R|]. intros n c Q U.
  destruct (F n) as [T [c' [Q' [S0 [Sh _]]]]]. { rewrite (proj1 D eq_refl). apply nth_error_Some. congruence. }
  assert (c' = c) by congruence. subst c'.
  destruct (E _ _ Q) as [p [old [w [Ad [H [Ef _]]]]]].
  exists T, p. split; [exact S0|]. split; [exact Ad|].
  assert (St : firstn (S n) cmds = firstn n cmds ++ [c]).
  { clear - Q. revert n Q. induction cmds as [|d r IH]; intros [|n] Q; try discriminate; cbn in *; [injection Q as <-; reflexivity|].
    f_equal. apply IH. exact Q. }
  rewrite St in Sh. rewrite (Sh p (Some w) (addressed_real _ _ Ad)); [|eapply ha_here; eauto].
  unfold effect in Ef. rewrite U in Ef. subst w. reflexivity.
Qed.

(** ** C38 *)
(** As the translator addresses commands. *)
Definition well_addressed (c : command) : Prop :=
  match scope_of (c_prop c) with SPlayer => exists i, 0 <= i <= 3 /\ c_sub c = SId i | _ => c_sub c = sub_all end.
(** A command for a tile property carries a text, None or a list without inner lists. *)
Definition tile_value (c : command) : Prop := is_tiles (c_prop c) -> exists l, countable (c_value c) l.

Definition key_of (p : place) : sub * view := (match fst p with Some i => SId i | None => sub_all end, snd p).
Lemma sub_eqb_iff a b : sub_eqb a b = true <-> a = b.
Proof.
  destruct a, b; cbn; try (split; congruence).
  - rewrite text_eqb_iff. split; congruence.
  - rewrite Z.eqb_eq. split; congruence.
Qed.
Lemma ikey_eqb_iff (a b : sub * view) : sub_eqb (fst a) (fst b) && view_eqb (snd a) (snd b) = true <-> a = b.
Proof.
  rewrite andb_true_iff, sub_eqb_iff, view_eqb_iff. destruct a, b; cbn. split; [intros [-> ->]; reflexivity|]. intro E; injection E as -> ->. auto.
Qed.
Lemma iget_iput s k v k' : iget (iput s k v) k' = if sub_eqb (fst k) (fst k') && view_eqb (snd k) (snd k') then Some v else iget s k'.
Proof.
  induction s as [|[a x] s IH]; cbn [iput iget].
  - reflexivity.
  - destruct (sub_eqb (fst a) (fst k) && view_eqb (snd a) (snd k)) eqn:E; cbn [iget].
    + apply ikey_eqb_iff in E. subst a. destruct (sub_eqb (fst k) (fst k') && view_eqb (snd k) (snd k')); reflexivity.
    + destruct (sub_eqb (fst a) (fst k') && view_eqb (snd a) (snd k')) eqn:E'; [|exact IH].
      apply ikey_eqb_iff in E'. subst a. destruct (sub_eqb (fst k) (fst k') && view_eqb (snd k) (snd k')) eqn:E2; [|reflexivity].
      apply ikey_eqb_iff in E2. subst k'.
      assert (T : sub_eqb (fst k) (fst k) && view_eqb (snd k) (snd k) = true) by (apply ikey_eqb_iff; reflexivity). congruence.
Qed.
Lemma well_addressed_at c : well_addressed c -> exists p, addressed c p /\ key_of p = (c_sub c, c_prop c).
Proof.
  unfold well_addressed, addressed, key_of. destruct (scope_of (c_prop c)) eqn:Q.
  - intros E. exists (None, c_prop c). cbn. rewrite E. auto.
  - intros [i [L E]]. exists (Some i, c_prop c). cbn. rewrite E. eauto 6.
  - intros E. exists (None, c_prop c). cbn. rewrite E. auto.
Qed.
Definition mirrors (s : istate) (cs : list command) : Prop := forall p, real_place p -> holds_after cs p (iget s (key_of p)).
Lemma key_of_inj p q : real_place p -> real_place q -> key_of p = key_of q -> p = q.
Proof.
  unfold real_place, key_of. destruct p as [[i|] v], q as [[j|] w]; cbn; intros A B E; injection E; try discriminate; intros; subst; reflexivity.
Qed.
Lemma interpret_mirrors s cs c s' w : mirrors s cs -> well_addressed c -> interpret s c = Ok (s', w) ->
  mirrors s' (cs ++ [c]) /\ exists p, addressed c p /\ effect c (iget s (key_of p)) w /\ iget s' (key_of p) = Some w.
Proof.
  intros M W E. destruct (well_addressed_at c W) as [p [A K]]. unfold interpret in E. rewrite <- K in E.
  destruct (execute_new_value c (or_none (iget s (key_of p)))) as [x|] eqn:X; [|discriminate]. cbn [bindr] in E.
  apply (f_equal (fun r => match r with Ok y => y | Err _ => (s, w) end)) in E. injection E as <- <-.
  apply effect_iff in X. split.
  - intros q Rq. rewrite iget_iput. destruct (sub_eqb (fst (key_of p)) (fst (key_of q)) && view_eqb (snd (key_of p)) (snd (key_of q))) eqn:Q.
    + apply ikey_eqb_iff in Q. rewrite <- (key_of_inj _ _ (addressed_real _ _ A) Rq Q).
      eapply ha_here; [exact A|apply M; eapply addressed_real; exact A|exact X].
    + apply ha_other; [|apply M; exact Rq]. intro Aq. rewrite (addressed_det _ _ _ Aq A) in Q.
      assert (T : sub_eqb (fst (key_of p)) (fst (key_of p)) && view_eqb (snd (key_of p)) (snd (key_of p)) = true) by (apply ikey_eqb_iff; reflexivity). congruence.
  - exists p. split; [exact A|]. split; [exact X|]. rewrite iget_iput.
    assert (T : sub_eqb (fst (key_of p)) (fst (key_of p)) && view_eqb (snd (key_of p)) (snd (key_of p)) = true) by (apply ikey_eqb_iff; reflexivity). rewrite T. reflexivity.
Qed.

(** What a command does depends on four fields only. *)
Definition same_deed (c d : command) : Prop :=
  c_prop c = c_prop d /\ c_update c = c_update d /\ c_sub c = c_sub d /\ c_value c = c_value d.
(** [states_ok s cmds s']: running through [cmds] from [s], every state column is the value
    obtained. *)
Inductive states_ok : istate -> list command -> istate -> Prop :=
| so_nil s : states_ok s [] s
| so_cons s c r s1 s' : interpret s c = Ok (s1, c_state c) -> states_ok s1 r s' -> states_ok s (c :: r) s'.
Lemma interpret_deed s c d : same_deed c d -> interpret s c = interpret s d.
Proof.
  intros [A [B [C D]]]. unfold interpret, execute_new_value. rewrite A, B, C, D. reflexivity.
Qed.
Lemma with_states_ok : forall cmds s s' cmds', with_states s cmds = Ok (s', cmds') -> states_ok s cmds' s'.
Proof.
  induction cmds as [|c r IH]; intros s s' cmds' E; cbn [with_states] in E.
  - apply (f_equal (fun r => match r with Ok y => y | Err _ => (s', cmds') end)) in E. injection E as <- <-. constructor.
  - destruct (interpret s c) as [[s1 w]|] eqn:I0; cbn [bindr fst snd] in E; [|discriminate].
    destruct (with_states s1 r) as [[s2 r']|] eqn:W; cbn [bindr fst snd] in E; [|discriminate].
    apply (f_equal (fun r => match r with Ok y => y | Err _ => (s', cmds') end)) in E. injection E as <- <-.
    econstructor; [|apply IH; exact W].
    rewrite (interpret_deed s _ c); [exact I0|]. repeat split.
Qed.
Lemma states_ok_app s1 a s2 b s3 : states_ok s1 a s2 -> states_ok s2 b s3 -> states_ok s1 (a ++ b) s3.
Proof. induction 1; intro; cbn; [assumption|]. econstructor; eauto. Qed.
Lemma states_ok_time s a s' t : states_ok s a s' -> states_ok s (map (fun c => set_time c t) a) s'.
Proof.
  induction 1 as [|s c r s1 s' I0 S0 IH]; cbn; [constructor|]. econstructor; [|exact IH].
  rewrite (interpret_deed s _ c); [exact I0|]. repeat split.
Qed.

Definition stored_countable (cs : list command) : Prop :=
  forall p o, is_tiles (snd p) -> holds_after cs p (Some o) -> exists l, countable o l.
Lemma effect_countable c old w : is_tiles (c_prop c) -> (exists l, countable (c_value c) l) ->
  (forall o, old = Some o -> exists l, countable o l) -> effect c old w -> exists l, countable w l.
Proof.
  intros Ti Cv Co E. unfold effect in E.
  assert (NN : forall v l, countable v l -> as_num v = None).
  { intros v l [[-> _]|[Q _]]; [reflexivity|]. destruct Q; reflexivity. }
  assert (Lst : forall l m, countable (VList l) m -> Forall (fun x => forall k, x <> VList k) l).
  { intros l m [[Q _]|[Q F]]; [discriminate|]. inversion Q; subst. exact F. }
  destruct (c_update c).
  - subst w. exact Cv.
  - contradiction.
  - destruct E as [[s [t [-> [_ ->]]]]|[[l [m [-> [V ->]]]]|[o [x [y [-> [N _]]]]]]].
    + exists (map (fun c => VStr [c]) (s ++ t)). right. split; [constructor|].
      apply Forall_forall. intros z I0. apply in_map_iff in I0. destruct I0 as [ch [<- _]]. discriminate.
    + exists (l ++ m). right. split; [constructor|]. destruct (Co _ eq_refl) as [l' Cl], Cv as [m' Cm]. rewrite V in Cm.
      apply Forall_app. split; eapply Lst; eassumption.
    + destruct (Co _ eq_refl) as [l' Cl]. rewrite (NN _ _ Cl) in N. discriminate.
  - destruct E as [[_ [l [vs [n [-> [_ [Wo ->]]]]]]]|[_ [o [x [y [-> [N _]]]]]]].
    + exists n. right. split; [constructor|]. destruct (Co _ eq_refl) as [l' Cl]. apply Lst in Cl. clear - Cl Wo.
      induction Wo as [|a y b x r n _ _ Wo IH]; [exact Cl|]. apply IH. apply Forall_app in Cl. destruct Cl as [Ca Cb].
      apply Forall_app. split; [exact Ca|]. inversion Cb; assumption.
    + destruct (Co _ eq_refl) as [l' Cl]. rewrite (NN _ _ Cl) in N. discriminate.
  - destruct E as [[Ct ->]|[_ ->]].
    + exfalso. apply is_counter_iff in Ct. apply is_tiles_iff in Ti. destruct (c_prop c); discriminate.
    + exists []. right. split; constructor.
  - subst w. exact Cv.
Qed.

Lemma mirrors_nil : mirrors [] []. Proof. intros p _. constructor. Qed.
Lemma states_ok_replay : forall cmds s cs s', states_ok s cmds s' -> mirrors s cs -> Forall well_addressed cmds ->
  forall n c, nth_error cmds n = Some c -> exists p old, addressed c p /\ holds_after (cs ++ firstn n cmds) p old /\ effect c old (c_state c) /\
    (Forall tile_value cmds -> stored_countable cs -> c_update c = U_ASSERT_EQUAL_OR_SET -> forall o, old = Some o -> comparable (c_prop c) (c_value c) o).
Proof.
  induction cmds as [|d r IH]; intros s cs s' S0 M W n c Q; [destruct n; discriminate|].
  inversion S0 as [|? ? ? s1 ? I0 S1]; subst. inversion W as [|? ? Wd Wr]; subst.
  destruct (interpret_mirrors _ _ _ _ _ M Wd I0) as [M1 [p [A [Ef _]]]].
  assert (H0 : holds_after cs p (iget s (key_of p))) by (apply M; eapply addressed_real; exact A).
  destruct n as [|n]; cbn [nth_error firstn] in *.
  - injection Q as <-. rewrite app_nil_r. exists p, (iget s (key_of p)). split; [exact A|]. split; [exact H0|]. split; [exact Ef|].
    intros TV SC _ o O Ti. inversion TV as [|? ? Td _]; subst. split; [apply Td; exact Ti|].
    rewrite O in H0. apply (SC p o); [|exact H0]. destruct A as [-> _]. exact Ti.
  - destruct (IH s1 (cs ++ [d]) s' S1 M1 Wr n c Q) as [p' [old [A' [H' [E' C']]]]].
    exists p', old. split; [exact A'|]. change (d :: firstn n r) with ([d] ++ firstn n r). rewrite app_assoc.
    split; [exact H'|]. split; [exact E'|]. intros TV SC U o O. inversion TV as [|? ? Td Tr]; subst. apply C'; auto.
    intros q x Tq Hx. inversion Hx as [|cs0 c0 q0 v0 Nq Hq Eq|cs0 c0 q0 v0 w0 Aq Hq Eq' Eq]; subst.
    + apply app_inj_tail in Eq. destruct Eq as [-> ->]. apply (SC q x Tq Hq).
    + apply app_inj_tail in Eq. destruct Eq as [-> ->]. pose proof Aq as [Ep _]. rewrite Ep in Tq.
      apply (effect_countable d v0 x Tq (Td Tq)); [|exact Eq']. intros o' ->. apply (SC q o'); [rewrite Ep; exact Tq|exact Hq].
Qed.

Lemma states_shown : forall s cmds, states_ok [] cmds s -> Forall well_addressed cmds ->
  exists snaps h err, replay false cmds snaps h err /\
  (Forall tile_value cmds -> err = None /\ length snaps = length cmds) /\
  forall n c, (n < length snaps)%nat -> nth_error cmds n = Some c ->
  exists T p, snapshot snaps h n T /\ addressed c p /\ at_path key_eqb T (path_of p) = Some (TLeaf (c_state c)).
Proof.
  intros s cmds E W.
  destruct (C37_snapshots false cmds) as [snaps [h [err [R [L [D F]]]]]].
  pose proof (states_ok_replay cmds [] [] s E mirrors_nil W) as SR.
  exists snaps, h, err. split; [exact R|]. split.
  - intro TV. assert (N : err = None); [|split; [exact N|apply D; exact N]].
    destruct err as [e|]; [|reflexivity]. destruct (C37_stops _ _ _ _ R) as [c [A B]]. exfalso. apply B.
    destruct (SR _ _ A) as [p [old [Ad [H [Ef C]]]]]. exists p, old, (c_state c). split; [exact Ad|]. split; [exact H|]. split; [exact Ef|].
    apply C; [exact TV|]. intros q o _ X. inversion X as [|? ? ? ? ? ? Q|? ? ? ? ? ? ? ? Q]; destruct cs; discriminate.
  - intros n c Hn Q. destruct (F n Hn) as [T [c' [Q' [Sn [Sh _]]]]]. assert (c' = c) by congruence. subst c'.
    destruct (SR _ _ Q) as [p [old [Ad [H [Ef _]]]]]. exists T, p. split; [exact Sn|]. split; [exact Ad|].
    assert (St : firstn (S n) cmds = firstn n cmds ++ [c]).
    { clear - Q. revert n Q. induction cmds as [|d r IH]; intros [|n] Q; try discriminate; cbn in *; [injection Q as <-; reflexivity|].
      f_equal. apply IH. exact Q. }
    rewrite St in Sh. rewrite (Sh p (Some (c_state c)) (addressed_real _ _ Ad)); [reflexivity|].
    eapply ha_here; [exact Ad| |exact Ef]. exact H.
Qed.

(** Commands whose state columns were filled by running the interpreter along them: the n-th
    snapshot of a replay shows the n-th state column where the command is addressed to. The
    replay without strict mode is complete if tile properties get values that can be
    counted, as the translator's always are (C38_record). *)
Theorem C38_replay : forall raw s cmds, with_states [] raw = Ok (s, cmds) -> Forall well_addressed cmds ->
  exists snaps h err, replay false cmds snaps h err /\
  (Forall tile_value cmds -> err = None /\ length snaps = length cmds) /\
  forall n c, (n < length snaps)%nat -> nth_error cmds n = Some c ->
  exists T p, snapshot snaps h n T /\ addressed c p /\ at_path key_eqb T (path_of p) = Some (TLeaf (c_state c)).
Proof. intros raw s cmds E. apply (states_shown s cmds). eapply with_states_ok. exact E. Qed.


Lemma states_executable s cmds : states_ok [] cmds s -> Forall well_addressed cmds -> Forall tile_value cmds -> executable cmds.
Proof.
  intros E W TV n c Q. destruct (states_ok_replay cmds [] [] s E mirrors_nil W n c Q) as [p [old [Ad [H [Ef C]]]]].
  exists p, old, (c_state c). split; [exact Ad|]. split; [exact H|]. split; [exact Ef|]. apply C; [exact TV|].
  intros q o _ X. inversion X as [|? ? ? ? ? ? Q'|? ? ? ? ? ? ? ? Q']; destruct cs; discriminate.
Qed.

(** Commands for a player and for the deal; the third one contradicts the first two, as
    the hand is three tiles by then. *)
Definition tiles_ (l : list string) : val := VList (map (fun s => VStr (t_ s)) l).
Definition ex_cmds : list command :=
  [mkCmd PV_hand U_REPLACE (SId 2) (tiles_ ["1m"; "2m"]%string) (Some 0) (tiles_ ["1m"; "2m"]%string) None;
   mkCmd PV_hand U_ADD (SId 2) (tiles_ ["3m"]%string) (Some 1) (tiles_ ["1m"; "2m"; "3m"]%string) None;
   mkCmd PV_hand U_ASSERT_EQUAL_OR_SET (SId 2) (tiles_ ["3m"; "1m"]%string) (Some 1) (tiles_ ["3m"; "1m"]%string) None;
   mkCmd GV_wind U_REPLACE sub_all (VInt 1) (Some 2) (VInt 1) None].
Example ex_states : exists s, states_ok [] ex_cmds s.
Proof. eexists. repeat (econstructor; [reflexivity|]). constructor. Qed.
Example ex_addressed : Forall well_addressed ex_cmds.
Proof. repeat constructor; cbn; try (exists 2; split; [lia|reflexivity]). Qed.
Example ex_tiles : Forall tile_value ex_cmds.
Proof.
  assert (G : forall l, exists m, countable (tiles_ l) m).
  { intro l. eexists. right. split; [constructor|]. apply Forall_forall. intros x I0. apply in_map_iff in I0. destruct I0 as [y [<- _]]. discriminate. }
  repeat constructor; intro Ti; try apply G. apply is_tiles_iff in Ti. discriminate.
Qed.
Example C37_example : executable ex_cmds.
Proof. destruct ex_states as [s E]. exact (states_executable s _ E ex_addressed ex_tiles). Qed.
Example C38_example : exists s, with_states [] (map (fun c => set_state c VNone) ex_cmds) = Ok (s, ex_cmds).
Proof. eexists. vm_compute. reflexivity. Qed.
Example C39_example : forall snaps h err, replay true ex_cmds snaps h err -> length snaps = 2%nat /\ err = Some AssertionError.
Proof.
  intros snaps h err [N R]. specialize (R (N + 20)%nat ltac:(lia)). replace (N + 20)%nat with (20 + N)%nat in R by lia.
  vm_compute in R. injection R as <- _ <-. split; reflexivity.
Qed.
Print Assumptions C37_snapshots.
Print Assumptions C37_stops.
Print Assumptions C37_all.
Print Assumptions C39_strict.
Print Assumptions C39_lenient.
Print Assumptions C38_replay.
