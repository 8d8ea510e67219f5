(** C130, C131: the Unicode character of a tile; the tile after a tile.

    C130 in English: [to_unicode_tile] (mahjong/tenhou_record_check.py 44-51) turns a tile into its character in the
    Unicode block "Mahjong Tiles".  The specification below is the table of the Unicode standard, written out by
    the names of the characters and independent of the code's arithmetic. *)
From Coq Require Import List ZArith Lia Bool.
Import ListNotations.
From Verif Require Import Base Category Tile Checker.
Open Scope Z_scope.

(** The names that the Unicode standard gives the characters of the block. *)
Inductive unicode_name :=
  | EAST_WIND | SOUTH_WIND | WEST_WIND | NORTH_WIND | RED_DRAGON | GREEN_DRAGON | WHITE_DRAGON
  | OF_CHARACTERS (n : Z) | OF_BAMBOOS (n : Z) | OF_CIRCLES (n : Z).

(** The block: U+1F000 MAHJONG TILE EAST WIND ... U+1F006 WHITE DRAGON, U+1F007 ONE OF CHARACTERS ...,
    U+1F010 ONE OF BAMBOOS ..., U+1F019 ONE OF CIRCLES ... U+1F021 NINE OF CIRCLES. *)
Definition code_point (u : unicode_name) : Z :=
  match u with
  | EAST_WIND => 0x1F000 | SOUTH_WIND => 0x1F001 | WEST_WIND => 0x1F002 | NORTH_WIND => 0x1F003
  | RED_DRAGON => 0x1F004 | GREEN_DRAGON => 0x1F005 | WHITE_DRAGON => 0x1F006
  | OF_CHARACTERS n => 0x1F007 + (n - 1)
  | OF_BAMBOOS n => 0x1F010 + (n - 1)
  | OF_CIRCLES n => 0x1F019 + (n - 1)
  end.

(** Which name belongs to a tile: [m] are the characters, [p] the circles, [s] the bamboos; the honours 1z to 7z
    are east, south, west, north, white, green, red. *)
Inductive depicts : tile -> unicode_name -> Prop :=
  | d_m : forall n, 1 <= n <= 9 -> depicts (Plain n Cm) (OF_CHARACTERS n)
  | d_p : forall n, 1 <= n <= 9 -> depicts (Plain n Cp) (OF_CIRCLES n)
  | d_s : forall n, 1 <= n <= 9 -> depicts (Plain n Cs) (OF_BAMBOOS n)
  | d_1z : depicts (Plain 1 Cz) EAST_WIND
  | d_2z : depicts (Plain 2 Cz) SOUTH_WIND
  | d_3z : depicts (Plain 3 Cz) WEST_WIND
  | d_4z : depicts (Plain 4 Cz) NORTH_WIND
  | d_5z : depicts (Plain 5 Cz) WHITE_DRAGON
  | d_6z : depicts (Plain 6 Cz) GREEN_DRAGON
  | d_7z : depicts (Plain 7 Cz) RED_DRAGON
  (** a red five is a five of its suit *)
  | d_red_m : depicts (Aka Cm) (OF_CHARACTERS 5)
  | d_red_p : depicts (Aka Cp) (OF_CIRCLES 5)
  | d_red_s : depicts (Aka Cs) (OF_BAMBOOS 5).

(** The tiles of the game: one to nine in the three suits, one to seven of honours, a red five in each suit. *)
Definition tile_exists (t : tile) : Prop :=
  match t with
  | Plain n Cz => 1 <= n <= 7
  | Plain n _ => 1 <= n <= 9
  | Aka c => c <> Cz
  end.

(** The table leaves out no tile and gives none two names. *)
Lemma depicts_total : forall t, tile_exists t -> exists u, depicts t u.
Proof.
  intros [n c|c] W; cbn [tile_exists] in W.
  - destruct c; try (eexists; constructor; exact W).
    assert (N : n = 1 \/ n = 2 \/ n = 3 \/ n = 4 \/ n = 5 \/ n = 6 \/ n = 7) by lia.
    destruct N as [-> |[-> |[-> |[-> |[-> |[-> | ->]]]]]]; eexists; constructor.
  - destruct c; try (eexists; constructor). now destruct W.
Qed.
Lemma depicts_one : forall t u v, depicts t u -> depicts t v -> u = v.
Proof. intros t u v A B. destruct A; inversion B; subst; reflexivity || lia. Qed.

(** Every tile that is not a red five becomes the character of the standard. *)
Theorem C130_plain : forall n c, tile_exists (Plain n c) -> exists u, depicts (Plain n c) u /\ to_unicode_tile (Plain n c) = Ok (code_point u).
Proof.
  intros n c W. destruct (depicts_total _ W) as [u D]. exists u. split; [exact D|].
  assert (N : 1 <= n <= 9 -> n = 1 \/ n = 2 \/ n = 3 \/ n = 4 \/ n = 5 \/ n = 6 \/ n = 7 \/ n = 8 \/ n = 9) by lia.
  inversion D; subst; try reflexivity;
    (destruct N as [E|[E|[E|[E|[E|[E|[E|[E|E]]]]]]]]; [assumption|subst n; reflexivity..]).
Qed.

(** No character stands for two of the 34 kinds. *)
Theorem C130_injective : forall n c n' c' x,
  tile_exists (Plain n c) -> tile_exists (Plain n' c') ->
  to_unicode_tile (Plain n c) = Ok x -> to_unicode_tile (Plain n' c') = Ok x -> n = n' /\ c = c'.
Proof.
  intros n c n' c' x W W' H H'. destruct (depicts_total _ W) as [u D]. destruct (depicts_total _ W') as [u' D'].
  destruct (C130_plain _ _ W) as (v & V & E). destruct (C130_plain _ _ W') as (v' & V' & E').
  rewrite (depicts_one _ _ _ V D) in E. rewrite (depicts_one _ _ _ V' D') in E'. rewrite E in H. rewrite E' in H'. clear E E' V V' v v'.
  assert (E : code_point u = code_point u') by congruence. clear H H' x.
  inversion D; subst; inversion D'; subst; cbn [code_point] in E; split; try reflexivity; lia.
Qed.

(** What is lost of the claim for all tiles: the number of a red five is 0, and the index of the position before
    the suit's first lies in the group before.  The red five of characters becomes the white dragon, that of
    bamboos the nine of characters, that of circles the nine of bamboos. *)
Theorem C130_red :
  to_unicode_tile (Aka Cm) = Ok (code_point WHITE_DRAGON) /\
  to_unicode_tile (Aka Cs) = Ok (code_point (OF_CHARACTERS 9)) /\
  to_unicode_tile (Aka Cp) = Ok (code_point (OF_BAMBOOS 9)).
Proof. repeat split; reflexivity. Qed.
Theorem C130_refuted : exists t u, depicts t u /\ to_unicode_tile t <> Ok (code_point u) /\
  exists t', t' <> t /\ to_unicode_tile t' = to_unicode_tile t.
Proof.
  exists (Aka Cm), (OF_CHARACTERS 5). repeat split; [constructor|discriminate|].
  exists (Plain 5 Cz). split; [discriminate|reflexivity].
Qed.

(** C131, the next tile: [Tile.next] and [AkaTile.next] (mahjong/tile/definition.py 77-79, 145-147).  In a suit a tile is
    followed by the next number, a red five by the six; the nine and the honours have no next tile. *)
Definition face_number (t : tile) : Z := match t with Plain n _ => n | Aka _ => 5 end.
Definition colour_of (t : tile) : color := match t with Plain _ c => c | Aka c => c end.
Theorem C131_next : forall t, tile_exists t ->
  (forall t', tile_next t = Some t' <->
     colour_of t <> Cz /\ face_number t < 9 /\ t' = Plain (face_number t + 1) (colour_of t)) /\
  (tile_next t = None <-> colour_of t = Cz \/ face_number t = 9) /\
  (forall t', tile_next t = Some t' -> tile_exists t').
Proof.
  intros t W. unfold tile_next, is_suit, tcolor.
  destruct t as [n c|c]; cbn [face_number colour_of tile_exists] in *.
  - destruct c; cbn [andb]; destruct (Z.ltb_spec n 9) as [L|L]; (split; [|split]); intros;
      try split; intros; cbn [tile_exists] in *; try discriminate;
      repeat match goal with
      | [ H : _ /\ _ |- _ ] => destruct H
      | [ H : Some _ = Some _ |- _ ] => injection H as H; subst
      | [ H : _ \/ _ |- _ ] => destruct H
      end; subst; cbn [tile_exists]; try congruence; try lia; auto;
      try (repeat split; [discriminate|lia]); try (right; lia).
  - assert (X : forall c, (match c with Cz => false | _ => true end && (0 <? 9)) = negb (match c with Cz => true | _ => false end))
      by (intros []; reflexivity).
    rewrite X. destruct c; try congruence; cbn [negb];
      (split; [intros t'; split; [intros H; injection H as <-; repeat split; discriminate|intros (_ & _ & ->); reflexivity]|]);
      (split; [split; [discriminate|intros [H|H]; discriminate]|intros t' H; injection H as <-; cbn [tile_exists]; lia]).
Qed.

Example C130_case : depicts (Plain 7 Cz) RED_DRAGON /\ to_unicode_tile (Plain 7 Cz) = Ok 0x1F004 /\
  to_unicode_tile (Plain 1 Cp) = Ok 0x1F019 /\ tile_next (Aka Cs) = Some (Plain 6 Cs) /\ tile_next (Plain 9 Cm) = None.
Proof. repeat split; try reflexivity; constructor. Qed.

Print Assumptions C130_plain.
Print Assumptions C130_injective.
Print Assumptions C130_red.
Print Assumptions C130_refuted.
Print Assumptions C131_next.
