From Verif Require Import Base Tile TileSet Spec_Tile TileSetFacts TileSetOps Parse Spec_Parse.
From Coq Require Import List ZArith Lia Bool Permutation Sorted.
Import ListNotations.
Open Scope Z_scope.

Lemma ch_digit_iff : forall c, ch_digit c = true <-> digit c.
Proof. intros. unfold ch_digit, digit. rewrite andb_true_iff, !Z.leb_le. tauto. Qed.
Lemma ch_1to7_iff : forall c, ch_1to7 c = true <-> honor_digit c.
Proof. intros. unfold ch_1to7, honor_digit. rewrite andb_true_iff, !Z.leb_le. tauto. Qed.
Lemma bool_false : forall b (P : Prop), (b = true <-> P) -> ~ P -> b = false.
Proof. intros [] P H N; auto. exfalso. apply N, H. auto. Qed.

Lemma plus_then_stop : forall X Y run c rest,
  (forall d, In d run -> Y d = false) -> X c = false ->
  plus_then X Y (run ++ c :: rest) =
  if negb (Nat.eqb (length run) 0) && forallb X run && Y c then Some (run, c, rest) else None.
Proof.
  intros X Y. induction run as [|d run IH]; intros c rest D Hc; cbn [app plus_then length Nat.eqb negb andb forallb]; [now rewrite Hc|].
  destruct (X d) eqn:Hd; cbn [andb]; [|now auto].
  rewrite IH by (auto; intros; apply D; right; auto). destruct run as [|e run].
  - cbn [app length Nat.eqb negb andb forallb]. destruct (Y c); auto.
  - cbn [length Nat.eqb negb andb forallb app]. rewrite (D e) by (right; left; auto).
    destruct (X e && forallb X run && Y c); auto.
Qed.
Lemma plus_then_digits : forall X Y run, (forall d, In d run -> Y d = false) -> plus_then X Y run = None.
Proof.
  intros X Y. induction run as [|d run IH]; intros D; auto. cbn [plus_then]. destruct (X d); auto.
  rewrite IH by (intros; apply D; right; auto). destruct run as [|e run]; auto. rewrite (D e); auto. right; left; auto.
Qed.
Lemma digit_not_suit : forall d, digit d -> ch_suit d = false.
Proof. unfold digit, ch_suit. intros. destruct (Z.eqb_spec d 109), (Z.eqb_spec d 112), (Z.eqb_spec d 115); auto; lia. Qed.
Lemma digit_not_honor : forall d, digit d -> ch_honor d = false.
Proof. unfold digit, ch_honor. intros. destruct (Z.eqb_spec d 122); auto; lia. Qed.
Lemma nondigit_1to7 : forall c, ~ digit c -> ch_1to7 c = false.
Proof. intros c N. apply (bool_false _ (honor_digit c)); [apply ch_1to7_iff|]. unfold digit, honor_digit in *. lia. Qed.
Lemma nondigit_digit : forall c, ~ digit c -> ch_digit c = false.
Proof. intros c N. apply (bool_false _ (digit c)); [apply ch_digit_iff|auto]. Qed.

Lemma match_at_seg : forall run c rest, Forall digit run -> ~ digit c ->
  match_at (run ++ c :: rest) =
  if negb (Nat.eqb (length run) 0) then
    if ch_suit c then Some (run, c, rest)
    else if forallb ch_1to7 run && ch_honor c then Some (run, c, rest) else None
  else None.
Proof.
  intros run c rest F N. unfold match_at. rewrite Forall_forall in F.
  rewrite !plus_then_stop by (auto using digit_not_suit, digit_not_honor, nondigit_1to7, nondigit_digit).
  assert (A : forallb ch_digit run = true) by (apply forallb_forall; intros; apply ch_digit_iff; auto).
  rewrite A. destruct (negb (Nat.eqb (length run) 0)); cbn [andb]; destruct (ch_suit c); auto.
Qed.
Lemma match_at_digits : forall run, Forall digit run -> match_at run = None.
Proof.
  intros run F. rewrite Forall_forall in F. unfold match_at. rewrite !plus_then_digits; auto using digit_not_suit, digit_not_honor.
Qed.

(** the digits kept from a run that ends with [c] *)
Fixpoint kept (run : list Z) (c : Z) : list (text * Z) :=
  match run with
  | [] => []
  | _ :: r => if ch_suit c then [(run, c)]
              else if forallb ch_1to7 run && ch_honor c then [(run, c)] else kept r c
  end.

Lemma find_groups_seg : forall run c rest fuel, Forall digit run -> ~ digit c ->
  (length (run ++ c :: rest) < fuel)%nat ->
  exists f', (length rest < f')%nat /\ find_groups fuel (run ++ c :: rest) = kept run c ++ find_groups f' rest.
Proof.
  induction run as [|d run IH]; intros c rest fuel F N L.
  - destruct fuel as [|f]; [cbn in L; lia|]. exists f. split; [cbn in L; lia|].
    cbn [app find_groups kept]. change (c :: rest) with ([] ++ c :: rest). now rewrite match_at_seg.
  - destruct fuel as [|f]; [cbn in L; lia|].
    change ((d :: run) ++ c :: rest) with (d :: (run ++ c :: rest)) in *. cbn [find_groups].
    pose proof (match_at_seg (d :: run) c rest F N) as M. cbn [length Nat.eqb negb app] in M. rewrite M. clear M.
    cbn [length app] in L. rewrite app_length in L. cbn [length] in L. inversion F as [|? ? Fd Fr]; subst.
    cbn [kept]. destruct (ch_suit c); [exists f; split; [lia|reflexivity]|].
    destruct (forallb ch_1to7 (d :: run) && ch_honor c); [exists f; split; [lia|reflexivity]|].
    apply IH; auto. rewrite app_length. cbn [length]. lia.
Qed.
Lemma find_groups_digits : forall run fuel, Forall digit run -> find_groups fuel run = [].
Proof.
  induction run as [|d run IH]; intros [|f] F; auto. cbn [find_groups]. rewrite match_at_digits by auto.
  inversion F; subst. auto.
Qed.

Definition tiles_of_groups (gs : list (text * Z)) : list tile :=
  flat_map (fun g => map (fun d => tile_of_digit d (color_of (snd g))) (fst g)) gs.
Lemma tiles_of_groups_app : forall a b, tiles_of_groups (a ++ b) = tiles_of_groups a ++ tiles_of_groups b.
Proof. intros. apply flat_map_app. Qed.

Lemma find_groups_write : forall segs left fuel, Forall segment_ok segs -> Forall digit left ->
  (length (write segs left) < fuel)%nat ->
  find_groups fuel (write segs left) = flat_map (fun g => kept (fst g) (snd g)) segs.
Proof.
  induction segs as [|[run c] segs IH]; intros left fuel F L Hf; [now apply find_groups_digits|].
  inversion F as [|? ? [Fd Fc] Fr]; subst. unfold write in *. cbn [flat_map fst snd] in *.
  rewrite <- !app_assoc in *. cbn [app] in *.
  destruct (find_groups_seg run c _ fuel Fd Fc Hf) as (f' & Lf & ->). f_equal. now apply IH.
Qed.

Lemma tile_of_digit_eq : forall d c, tile_of_digit d c = digit_tile c d.
Proof. intros. unfold tile_of_digit, digit_tile. destruct (d =? 48); auto. Qed.
Lemma map_tile_of_digit : forall ds c, map (fun d => tile_of_digit d c) ds = map (digit_tile c) ds.
Proof. intros. apply map_ext. intros. apply tile_of_digit_eq. Qed.

Lemma kept_suit : forall run l c, suit_letter l c -> tiles_of_groups (kept run l) = map (digit_tile c) run.
Proof.
  intros run l c S. destruct run as [|d run]; auto. cbn [kept].
  assert (ch_suit l = true /\ color_of l = c) as [E1 E2] by (destruct S; auto).
  rewrite E1. unfold tiles_of_groups. cbn [flat_map fst snd]. rewrite app_nil_r, E2. apply map_tile_of_digit.
Qed.
Lemma kept_honor : forall ds, Forall honor_digit ds -> tiles_of_groups (kept ds 122) = map (digit_tile Cz) ds.
Proof.
  intros ds F. destruct ds as [|d ds]; auto. cbn [kept]. change (ch_suit 122) with false.
  replace (forallb ch_1to7 (d :: ds)) with true.
  - cbn [andb]. change (ch_honor 122) with true. cbn [tiles_of_groups]. unfold tiles_of_groups. cbn [flat_map fst snd].
    rewrite app_nil_r. apply map_tile_of_digit.
  - symmetry. apply forallb_forall. rewrite Forall_forall in F. intros. apply ch_1to7_iff. auto.
Qed.
Lemma kept_junk : forall junk ds, (forall pre x, junk = pre ++ [x] -> ~ honor_digit x) ->
  kept (junk ++ ds) 122 = kept ds 122.
Proof.
  induction junk as [|j junk IH]; intros ds J; auto. cbn [app kept]. change (ch_suit 122) with false.
  replace (forallb ch_1to7 (j :: junk ++ ds)) with false.
  - cbn [andb]. apply IH. intros pre x E. apply (J (j :: pre) x). now rewrite E.
  - symmetry. destruct (exists_last (l := j :: junk)) as (pre & x & E); [discriminate|].
    change (j :: junk ++ ds) with ((j :: junk) ++ ds). rewrite E, !forallb_app. cbn [forallb].
    rewrite (bool_false (ch_1to7 x) _ (ch_1to7_iff x) (J _ _ E)). now rewrite andb_false_r.
Qed.
Lemma kept_other : forall ds l, l <> 109 -> l <> 112 -> l <> 115 -> l <> 122 -> kept ds l = [].
Proof.
  induction ds as [|d ds IH]; intros l A B C D; auto. cbn [kept].
  replace (ch_suit l) with false by (unfold ch_suit; destruct (Z.eqb_spec l 109), (Z.eqb_spec l 112), (Z.eqb_spec l 115); auto; contradiction).
  replace (ch_honor l) with false by (symmetry; now apply Z.eqb_neq). rewrite andb_false_r. auto.
Qed.
Lemma kept_spec : forall g ts, segment_tiles g ts -> tiles_of_groups (kept (fst g) (snd g)) = ts.
Proof.
  intros g ts H. destruct H; cbn [fst snd].
  - now apply kept_suit.
  - rewrite kept_junk by auto. now apply kept_honor.
  - now rewrite kept_other.
Qed.

Theorem parse_write : forall segs left tss, Forall segment_ok segs -> Forall digit left ->
  Forall2 segment_tiles segs tss -> tiles_from_string (write segs left) = concat tss.
Proof.
  intros segs left tss F L S. unfold tiles_from_string. rewrite find_groups_write by auto.
  change (tiles_of_groups (flat_map (fun g => kept (fst g) (snd g)) segs) = concat tss).
  induction S as [|g ts segs tss H S IH]; auto. cbn [flat_map concat]. rewrite tiles_of_groups_app.
  rewrite (kept_spec _ _ H), IH; auto. now inversion F.
Qed.

Lemma digit_dec : forall c, digit c \/ ~ digit c.
Proof. intros. unfold digit. lia. Qed.
Theorem segments_exist : forall s, exists segs left, s = write segs left /\ Forall segment_ok segs /\ Forall digit left.
Proof.
  induction s as [|c s (segs & left & E & F & L)]; [exists [], []; auto|].
  destruct (digit_dec c) as [D|D].
  - destruct segs as [|[ds l] segs].
    + exists [], (c :: left). split; [now rewrite E|]. auto.
    + exists ((c :: ds, l) :: segs), left. inversion F as [|? ? [A B] C]; subst. split; [reflexivity|].
      split; auto. constructor; auto. split; cbn [fst snd] in *; auto.
  - exists (([], c) :: segs), left. split; [now rewrite E|]. split; auto. constructor; auto. split; cbn; auto.
Qed.
Lemma honor_split : forall ds, exists junk hs, ds = junk ++ hs /\ Forall honor_digit hs /\
  (forall pre x, junk = pre ++ [x] -> ~ honor_digit x).
Proof.
  induction ds as [|d ds (junk & hs & E & F & J)].
  - exists [], []. split; [auto|split; [auto|]]. intros [|] x H; discriminate.
  - destruct junk as [|j junk].
    + assert (D : honor_digit d \/ ~ honor_digit d) by (unfold honor_digit; lia). destruct D as [D|D].
      * exists [], (d :: hs). split; [now rewrite E|split; [auto|]]. intros [|] x H; discriminate.
      * exists [d], hs. split; [now rewrite E|split; [auto|]]. intros pre x H. destruct pre as [|p pre].
        -- inversion H. now subst.
        -- inversion H. destruct pre; discriminate.
    + exists (d :: j :: junk), hs. split; [now rewrite E|split; [auto|]]. intros pre x H. destruct pre as [|p pre]; [discriminate|].
      inversion H. eapply J; eauto.
Qed.
Theorem segment_tiles_exist : forall g, exists ts, segment_tiles g ts.
Proof.
  intros [ds l]. destruct (Z.eq_dec l 109) as [->|]; [eexists; apply ST_suit; constructor|].
  destruct (Z.eq_dec l 112) as [->|]; [eexists; apply ST_suit; constructor|].
  destruct (Z.eq_dec l 115) as [->|]; [eexists; apply ST_suit; constructor|].
  destruct (Z.eq_dec l 122) as [->|]; [|eexists; now apply ST_other].
  destruct (honor_split ds) as (junk & hs & -> & F & J). eexists. now apply ST_honor.
Qed.
Lemma segments_tiles_exist : forall segs, exists tss, Forall2 segment_tiles segs tss.
Proof.
  induction segs as [|g segs (tss & F)]; [exists []; auto|]. destruct (segment_tiles_exist g) as (ts & S).
  exists (ts :: tss). auto.
Qed.
Lemma segment_tiles_legal : forall g ts, segment_ok g -> segment_tiles g ts -> Forall legal_tile ts.
Proof.
  intros g ts [D _] S. destruct S as [ds l c S|junk ds F J|]; cbn [fst] in D.
  - apply Forall_map. eapply Forall_impl; [|exact D]. intros d Hd. unfold digit_tile, digit in *.
    destruct (Z.eqb_spec d 48); destruct S; cbn; try discriminate; lia.
  - apply Forall_map. eapply Forall_impl; [|exact F]. intros d Hd. unfold digit_tile, honor_digit in *.
    destruct (Z.eqb_spec d 48); cbn; lia.
  - constructor.
Qed.
Theorem parse_legal : forall s, Forall legal_tile (tiles_from_string s).
Proof.
  intros s. destruct (segments_exist s) as (segs & left & -> & F & L). destruct (segments_tiles_exist segs) as (tss & S).
  rewrite (parse_write _ _ _ F L S). clear L. induction S as [|g ts segs tss H S IH]; [constructor|].
  inversion F; subst. cbn [concat]. apply Forall_app. split; [eapply segment_tiles_legal; eauto|auto].
Qed.
Theorem parse_app : forall a c b, ~ digit c ->
  tiles_from_string ((a ++ [c]) ++ b) = tiles_from_string (a ++ [c]) ++ tiles_from_string b.
Proof.
  intros a c b N. destruct (segments_exist (a ++ [c])) as (sa & la & Ea & Fa & La).
  destruct (segments_exist b) as (sb & lb & Eb & Fb & Lb).
  assert (la = []) as ->.
  { destruct la as [|x la]; auto. exfalso. destruct (exists_last (l := x :: la)) as (pre & y & Ey); [discriminate|].
    unfold write in Ea. rewrite Ey, app_assoc in Ea. apply app_inj_tail in Ea. destruct Ea as [_ ->].
    rewrite Ey in La. apply Forall_app in La. destruct La as [_ La]. inversion La. contradiction. }
  destruct (segments_tiles_exist sa) as (ta & Sa). destruct (segments_tiles_exist sb) as (tb & Sb).
  rewrite Ea, Eb. rewrite (parse_write sa [] ta), (parse_write sb lb tb) by auto.
  rewrite <- concat_app. unfold write. rewrite app_nil_r, app_assoc, <- flat_map_app.
  apply (parse_write (sa ++ sb) lb (ta ++ tb)); auto.
  - apply Forall_app; auto.
  - apply Forall2_app; auto.
Qed.

(** ** printing *)
Definition digit_of (t : tile) : Z := 48 + tnumber t.
Lemma str_digit : forall t, legal_tile t -> str_int (tnumber t) = [digit_of t].
Proof.
  intros t L. unfold digit_of.
  assert (R : 0 <= tnumber t <= 9) by (destruct t as [n []|[]]; cbn in *; try lia; congruence).
  unfold str_int. destruct (Z.ltb_spec (tnumber t) 0); [lia|]. cbn [digits_of].
  destruct (Z.ltb_spec (tnumber t) 10); [auto|lia].
Qed.
Lemma digit_tile_of : forall t, legal_tile t -> digit_tile (tcolor t) (digit_of t) = t.
Proof.
  intros [n c|c] L; unfold digit_tile, digit_of; cbn [tnumber tcolor].
  - assert (n <> 0) by (destruct c; cbn in L; lia). destruct (Z.eqb_spec (48 + n) 48); [lia|]. f_equal. lia.
  - reflexivity.
Qed.
Definition entry_digits (e : tile * Z) : list Z := repeat (digit_of (fst e)) (Z.to_nat (snd e)).
Lemma concat_repeat1 : forall (d : Z) n, concat (repeat [d] n) = repeat d n.
Proof. induction n; cbn; auto. now f_equal. Qed.

Lemma groupby_key : forall A K (eqb : K -> K -> bool) (key : A -> K) l k g,
  (forall a b, eqb a b = true <-> a = b) -> In (k, g) (groupby eqb key l) -> Forall (fun x => key x = k) g.
Proof.
  intros A K eqb key l k g E. revert k g. induction l as [|x l IH]; intros k g H; [destruct H|].
  cbn [groupby] in H. destruct (groupby eqb key l) as [|[k' g'] gs] eqn:Q.
  - destruct H as [H|[]]. inversion H; subst. auto.
  - destruct (eqb (key x) k') eqn:EQ.
    + apply E in EQ. destruct H as [H|H]; [|apply IH; right; auto]. inversion H; subst. constructor; auto.
      apply IH. left. congruence.
    + destruct H as [H|H]; [inversion H; subst; auto|]. apply IH. auto.
Qed.
Lemma groupby_concat : forall A K (eqb : K -> K -> bool) (key : A -> K) l,
  flat_map snd (groupby eqb key l) = l.
Proof.
  intros. induction l as [|x l IH]; auto. cbn [groupby]. destruct (groupby eqb key l) as [|[k g] gs]; cbn in *; subst; auto.
  destruct (eqb (key x) k); reflexivity.
Qed.

Definition print_seg (g : color * list (tile * Z)) : segment := (flat_map entry_digits (snd g), letter_of (fst g)).
Lemma letter_nondigit : forall c, ~ digit (letter_of c).
Proof. intros []; unfold digit; cbn; lia. Qed.
Lemma digit_of_digit : forall t, legal_tile t -> digit (digit_of t).
Proof.
  intros [n []|[]] L; unfold digit, digit_of in *; cbn [tnumber legal_tile legal_kind fst snd] in *; try lia; contradiction.
Qed.

Lemma gen_str_write : forall s, Forall (fun e => legal_tile (fst e)) s ->
  gen_str s = write (map print_seg (groupby color_eqb (fun e => tcolor (fst e)) s)) [].
Proof.
  intros s L. unfold gen_str, write. rewrite app_nil_r.
  assert (L' : Forall (fun g => Forall (fun e => legal_tile (fst e)) (snd g)) (groupby color_eqb (fun e => tcolor (fst e)) s)).
  { apply Forall_forall. intros [k g] I. apply Forall_forall. intros e Ie. rewrite Forall_forall in L. apply L.
    rewrite <- (groupby_concat _ _ color_eqb (fun e => tcolor (fst e)) s). apply in_flat_map. exists (k, g). auto. }
  induction L' as [|[k g] gs Lg L' IH]; auto. cbn [flat_map map fst snd print_seg]. rewrite IH. f_equal. f_equal.
  cbn [snd] in Lg. clear IH L' L. induction Lg as [|e g Le Lg IH]; auto. cbn [flat_map].
  rewrite IH, (str_digit _ Le), concat_repeat1. reflexivity.
Qed.
Lemma map_repeat : forall A B (f : A -> B) x n, map f (repeat x n) = repeat (f x) n.
Proof. induction n; cbn; auto. now f_equal. Qed.
Lemma seg_tiles_print : forall k g, Forall (fun e => legal_tile (fst e)) g -> Forall (fun e => tcolor (fst e) = k) g ->
  segment_ok (print_seg (k, g)) /\ segment_tiles (print_seg (k, g)) (tiles g).
Proof.
  intros k g L C.
  assert (D : map (digit_tile k) (flat_map entry_digits g) = tiles g).
  { unfold tiles. rewrite flat_map_concat_map, concat_map, map_map, flat_map_concat_map. f_equal. apply map_ext_in.
    intros e I. rewrite Forall_forall in L, C. unfold entry_digits. rewrite map_repeat. f_equal.
    rewrite <- (C e I). apply digit_tile_of. auto. }
  assert (DD : Forall digit (flat_map entry_digits g)).
  { apply Forall_forall. intros d I. apply in_flat_map in I. destruct I as (e & Ie & I). apply repeat_spec in I. subst d.
    rewrite Forall_forall in L. apply digit_of_digit; auto. }
  split; [split; [exact DD|apply letter_nondigit]|].
  unfold print_seg. cbn [fst snd]. rewrite <- D. destruct k; try (apply ST_suit; constructor).
  apply (ST_honor [] (flat_map entry_digits g)); [|intros [|] x H; discriminate].
  apply Forall_forall. intros d I. apply in_flat_map in I. destruct I as (e & Ie & I). apply repeat_spec in I. subst d.
  rewrite Forall_forall in L, C. specialize (L e Ie). specialize (C e Ie). unfold honor_digit, digit_of.
  destruct (fst e) as [n c|c]; cbn [tnumber tcolor legal_tile] in *; subst; cbn [legal_kind fst snd] in *; [lia|contradiction].
Qed.
Lemma parse_gen_str : forall s, Forall (fun e => legal_tile (fst e)) s -> tiles_from_string (gen_str s) = tiles s.
Proof.
  intros s L. rewrite gen_str_write by auto.
  set (gs := groupby color_eqb (fun e => tcolor (fst e)) s).
  assert (P : Forall (fun g => segment_ok (print_seg g) /\ segment_tiles (print_seg g) (tiles (snd g))) gs).
  { apply Forall_forall. intros [k g] I. cbn [snd]. apply seg_tiles_print.
    - apply Forall_forall. intros e Ie. rewrite Forall_forall in L. apply L.
      rewrite <- (groupby_concat _ _ color_eqb (fun e => tcolor (fst e)) s). apply in_flat_map. exists (k, g). auto.
    - eapply (groupby_key _ _ color_eqb (fun e => tcolor (fst e))); [apply color_eqb_eq|exact I]. }
  rewrite (parse_write _ _ (map (fun g => tiles (snd g)) gs)).
  - rewrite <- flat_map_concat_map. replace (tiles s) with (tiles (flat_map snd gs)) by (unfold gs; now rewrite groupby_concat).
    unfold tiles. clear. induction gs as [|g gs IH]; auto. cbn [flat_map]. rewrite flat_map_app. now f_equal.
  - apply Forall_map. eapply Forall_impl; [|exact P]. intros g H; apply H.
  - constructor.
  - clear -P. induction P; cbn; constructor; auto. apply H.
Qed.

(** ** back to a set *)
Lemma put_new : forall s t v, ~ In (view t) (kinds_of s) -> put s t v = s ++ [(t, v)].
Proof.
  induction s as [|[t' v'] s IH]; intros t v N; auto. cbn [put]. destruct (tile_eqb t' t) eqn:E.
  - exfalso. apply N. left. unfold kview. cbn [fst]. now apply tile_eqb_eq.
  - cbn [app]. f_equal. apply IH. intros I. apply N. right. auto.
Qed.
Lemma put_last : forall s t v w, ~ In (view t) (kinds_of s) -> put (s ++ [(t, v)]) t w = s ++ [(t, w)].
Proof.
  induction s as [|[t' v'] s IH]; intros t v w N; cbn [app put].
  - replace (tile_eqb t t) with true; auto. symmetry. now apply tile_eqb_eq.
  - destruct (tile_eqb t' t) eqn:E.
    + exfalso. apply N. left. unfold kview. cbn [fst]. now apply tile_eqb_eq.
    + f_equal. apply IH. intros I. apply N. right. auto.
Qed.
Lemma getk_last : forall s t v, ~ In (view t) (kinds_of s) -> getk (s ++ [(t, v)]) (view t) = v.
Proof.
  induction s as [|[t' v'] s IH]; intros t v N; cbn [app getk]; [now rewrite kind_eqb_refl|].
  destruct (kind_eqb (view t') (view t)) eqn:E.
  - exfalso. apply N. left. now apply kind_eqb_eq.
  - apply IH. intros I. apply N. right. auto.
Qed.
Lemma fold_repeat : forall n s t v, ~ In (view t) (kinds_of s) ->
  fold_left (fun a t => put a t (get a t + 1)) (repeat t n) (s ++ [(t, v)]) = s ++ [(t, v + Z.of_nat n)].
Proof.
  induction n as [|n IH]; intros s t v N; cbn [repeat fold_left].
  - now replace (v + Z.of_nat 0) with v by lia.
  - unfold get. rewrite getk_last, put_last, IH by auto. do 3 f_equal. lia.
Qed.
Lemma of_tiles_tiles_aux : forall r s, wf (s ++ r) ->
  fold_left (fun a t => put a t (get a t + 1)) (tiles r) s = s ++ keep_positive r.
Proof.
  induction r as [|[t v] r IH]; intros s W; [now rewrite app_nil_r|].
  unfold tiles. cbn [flat_map fst snd]. fold (tiles r). rewrite fold_left_app.
  assert (N : ~ In (view t) (kinds_of s)).
  { unfold wf, kinds_of in W. rewrite map_app in W. cbn [map] in W. apply NoDup_remove_2 in W. rewrite in_app_iff in W.
    intros I. apply W. left. exact I. }
  assert (W' : wf (s ++ r)).
  { unfold wf, kinds_of in *. rewrite map_app in *. cbn [map] in W. now apply NoDup_remove_1 in W. }
  unfold keep_positive. cbn [filter snd]. fold (keep_positive r). destruct (Z.ltb_spec 0 v) as [P|P].
  - replace (Z.to_nat v) with (S (Z.to_nat (v - 1))) by lia. cbn [repeat fold_left].
    rewrite put_new by auto. unfold get. rewrite getk_notin by auto. rewrite fold_repeat by auto.
    replace (0 + 1 + Z.of_nat (Z.to_nat (v - 1))) with v by lia.
    rewrite IH; [now rewrite <- app_assoc|]. unfold wf, kinds_of in *. rewrite !map_app in *. cbn [map] in *.
    rewrite <- app_assoc. exact W.
  - replace (Z.to_nat v) with 0%nat by lia. cbn [repeat fold_left]. now apply IH.
Qed.
Lemma of_tiles_tiles : forall r, wf r -> of_tiles (tiles r) = keep_positive r.
Proof. intros r W. unfold of_tiles. now rewrite (of_tiles_tiles_aux r []). Qed.

Lemma sort_ins_last : forall s e, sorted (s ++ [e]) -> sort_ins e s = s ++ [e].
Proof.
  induction s as [|e' s IH]; intros e H; auto. cbn [sort_ins app].
  unfold sorted in H. cbn [app] in H. unfold kinds_of in H. cbn [map] in H. inversion H as [|? ? A B]; subst.
  rewrite Forall_forall in B.
  assert (Q : kind_lt (kview e') (kview e)) by (apply B; rewrite map_app, in_app_iff; right; left; auto).
  unfold tile_ltb. destruct (kind_ltb (view (fst e)) (view (fst e'))) eqn:X.
  - exfalso. apply (kind_lt_irrefl (kview e)). eapply kind_lt_trans; [exact X|exact Q].
  - f_equal. apply IH. exact A.
Qed.
Lemma re_sort_id_aux : forall r s, sorted (s ++ r) -> fold_left (fun a e => sort_ins e a) r s = s ++ r.
Proof.
  induction r as [|e r IH]; intros s H; cbn [fold_left]; [now rewrite app_nil_r|].
  rewrite sort_ins_last, IH, <- app_assoc; auto.
  - now rewrite <- app_assoc.
  - clear IH. revert H. unfold sorted, kinds_of. rewrite !map_app. cbn [map]. generalize (map kview s). intros l.
    induction l as [|k l IH]; intros H; cbn [app] in *; [repeat constructor|]. inversion H as [|? ? A B]; subst. constructor; auto.
    rewrite Forall_forall in *. intros x I. apply B. rewrite in_app_iff in *. cbn in *. tauto.
Qed.
Lemma re_sort_id : forall s, sorted s -> re_sort s = s.
Proof. intros. now apply (re_sort_id_aux s []). Qed.

Theorem parse_str : forall s, wf s -> Forall (fun e => legal_tile (fst e)) s ->
  tile_set_from_string (ts_str s) = keep_positive (re_sort s).
Proof.
  intros s W L. unfold tile_set_from_string, ts_str. rewrite parse_gen_str.
  - rewrite of_tiles_tiles by now apply wf_re_sort. apply re_sort_id. apply sorted_filter. now apply re_sort_sorted.
  - apply Forall_forall. rewrite Forall_forall in L. intros e I. apply L. eapply Permutation_in; [apply re_sort_perm|exact I].
Qed.
