(** C09-C10: text. Final statements. *)
From Verif Require Import Base Tile TileSet Spec_Tile TileSetFacts TileSetOps Parse Spec_Parse ParseProofs Spec_Win Spec_Hand WinProofs WaitingTop.
From Coq Require Import List ZArith Lia Bool Permutation.
Import ListNotations.
Open Scope Z_scope.

(** A set of tiles a player can construct: legal tile objects, one entry per face. *)
Definition tile_set (s : tset) : Prop :=
  NoDup (map (fun e => view (fst e)) s) /\ Forall (fun e => legal_tile (fst e)) s.

(** C09. *)
Theorem C09_print_parse : forall s, tile_set s -> Forall (fun e => 0 < snd e) s ->
  ts_eqb (tile_set_from_string (ts_str s)) s = true /\
  Permutation (tile_set_from_string (ts_str s)) s.
Proof.
  intros s [W L] P. rewrite parse_str by auto.
  assert (K : keep_positive (re_sort s) = re_sort s).
  { assert (P' : Forall (fun e => 0 < snd e) (re_sort s)).
    { rewrite Forall_forall in *. intros e I. apply P. eapply Permutation_in; [apply re_sort_perm|exact I]. }
    unfold keep_positive. clear - P'. induction P' as [|e r H P' IH]; auto. cbn [filter]. apply Z.ltb_lt in H. now rewrite H, IH. }
  rewrite K. split; [|apply re_sort_perm].
  apply ts_eqb_spec; auto using wf_re_sort.
  - unfold allpos. rewrite Forall_forall in *. intros e I. apply P. eapply Permutation_in; [apply re_sort_perm|exact I].
  - intros k. now apply getk_re_sort.
Qed.
(** With zero or negative entries: they are not printed, the counts of the others survive. *)
Theorem C09_print_parse_any : forall s k, tile_set s ->
  face_count (tile_set_from_string (ts_str s)) k = Z.max 0 (face_count s k).
Proof.
  intros s k [W L]. rewrite parse_str by auto.
  rewrite !face_count_getk by (try apply wf_filter; try apply wf_re_sort; auto).
  rewrite getk_keep_positive by now apply wf_re_sort. now rewrite getk_re_sort.
Qed.
Definition c09_set : tset := [(Plain 7 Cz, 2); (Aka Cp, 2); (Plain 6 Cp, 1); (Plain 1 Cm, 3); (Plain 5 Cs, 1)].
(** It prints as "111m006p5s77z". *)
Example C09_example : tile_set c09_set /\ Forall (fun e => 0 < snd e) c09_set /\
  ts_str c09_set = [49;49;49;109;48;48;54;112;53;115;55;55;122].
Proof.
  split; [split; [repeat constructor; cbn; intuition congruence|repeat constructor; cbn; try lia; discriminate]|].
  split; [repeat constructor|vm_compute; reflexivity].
Qed.

(** C10. Every text is a sequence of segments ... *)
Theorem C10_segments : forall s, exists segs left_over,
  s = write segs left_over /\ Forall segment_ok segs /\ Forall digit left_over.
Proof. exact segments_exist. Qed.
Theorem C10_segment_meaning : forall g, exists ts, segment_tiles g ts.
Proof. exact segment_tiles_exist. Qed.
(** ... and parsing it gives what the segments denote, in order. *)
Theorem C10_parse : forall segs left_over tss, Forall segment_ok segs -> Forall digit left_over ->
  Forall2 segment_tiles segs tss -> tiles_from_string (write segs left_over) = concat tss.
Proof. exact parse_write. Qed.
Theorem C10_only_legal_tiles : forall s, Forall legal_tile (tiles_from_string s).
Proof. exact parse_legal. Qed.
(** Parsing distributes over concatenation after any character that is not a digit. *)
Theorem C10_concatenation : forall a c b, ~ digit c ->
  tiles_from_string ((a ++ [c]) ++ b) = tiles_from_string (a ++ [c]) ++ tiles_from_string b.
Proof. exact parse_app. Qed.
(** The parsed set holds, for every face, the number of tiles listed. *)
Theorem C10_parsed_set : forall s k,
  hand_ok (tile_set_from_string s) /\ face_count (tile_set_from_string s) k = count_kind k (faces (tiles_from_string s)).
Proof.
  intros s k. unfold tile_set_from_string.
  assert (W : wf (of_tiles (tiles_from_string s))) by apply wf_of_tiles.
  assert (W' : wf (re_sort (of_tiles (tiles_from_string s)))) by now apply wf_re_sort.
  split.
  - apply good_hand_ok. split; [exact W'|]. split.
    + apply legal_re_sort, legal_of_tiles. pose proof (parse_legal s) as L. eapply Forall_impl; [|exact L].
      intros [n c|[]] H; cbn in *; try lia; auto; congruence.
    + intros j. rewrite getk_re_sort by auto. rewrite getk_of_tiles, occ_count. unfold count_kind.
      apply sumZ_nonneg. intros. destruct (same_kind _ _); lia.
  - rewrite face_count_getk by auto. rewrite getk_re_sort by auto. rewrite getk_of_tiles, occ_count. reflexivity.
Qed.
(** "12x0m 8917z5" : the segments 12x, 0m, " ", 8917z and the left-over 5. *)
Example C10_example :
  let segs := [([49;50], 120); ([48], 109); ([], 32); ([56;57;49;55], 122)] in
  Forall segment_ok segs /\
  Forall2 segment_tiles segs [[]; [Aka Cm]; []; [Plain 1 Cz; Plain 7 Cz]] /\
  tiles_from_string (write segs [53]) = [Aka Cm; Plain 1 Cz; Plain 7 Cz].
Proof.
  cbv zeta. split; [repeat constructor; unfold digit; cbn; lia|]. split.
  - constructor; [apply ST_other; lia|]. constructor; [apply (ST_suit [48] 109 Cm SLm)|].
    constructor; [apply ST_other; lia|]. constructor; [|constructor].
    apply (ST_honor [56;57] [49;55]); [repeat constructor; unfold honor_digit; lia|].
    intros pre x E. destruct pre as [|a [|b [|]]]; inversion E; subst; unfold honor_digit; lia.
  - vm_compute. reflexivity.
Qed.

Print Assumptions C09_print_parse.
Print Assumptions C09_print_parse_any.
Print Assumptions C10_parse.
Print Assumptions C10_segments.
Print Assumptions C10_only_legal_tiles.
Print Assumptions C10_concatenation.
Print Assumptions C10_parsed_set.
