(** Specification vocabulary for the discard report: hands as sets of physical tiles, unseen
    tiles, the patterns a player may aim for, and what a row of the report ought to say.
    Nothing here refers to the checker. *)
From Coq Require Import String.
From Verif Require Import Base Tile Parse Text Tenhou Event State Spec_Tile Spec_Win Spec_Waiting Spec_Meld Spec_Log.
From Coq Require Import List ZArith.
Import ListNotations.
Open Scope list_scope.
Open Scope Z_scope.

(** How many tiles of each face a set of physical tiles has. *)
Definition hand_counts (hand : list Z) : counts := fun k => count_kind k (map face hand).

(** The shapes a player with [melds] melds on the table may complete: a pair and the
    remaining melds, or seven pairs if nothing is on the table. *)
Definition shapes_for (melds : Z) : list shape :=
  Standard 1 (4 - melds) :: (if melds =? 0 then [DistinctPairs 7] else []).

(** It is the player's turn to discard tile [t]: distinct physical tiles, 14 together with
    three for each meld. *)
Definition to_discard (hand : list Z) (melds t : Z) : Prop :=
  NoDup hand /\ Forall valid_tile hand /\ 0 <= melds <= 4 /\
  Z.of_nat (length hand) = 14 - 3 * melds /\ In t hand.
Definition no_red_five (hand : list Z) : Prop := forall t, In t hand -> ~ red_number t.
(** The hand has no red five whose face is among the useful ones. (A red five is shown as such and
    then counted as another tile, see C55.) *)
Definition reds_useless (hand : list Z) (useful : kind -> Prop) : Prop :=
  forall t, In t hand -> red_number t -> ~ useful (face t).
(** Nor is one useful after any discard that keeps the distance to one of the shapes. *)
Definition reds_idle (ss : list shape) (hand : list Z) : Prop :=
  forall s k, In s ss -> keeps_distance true s (hand_counts hand) k ->
    reds_useless hand (advances true s (without (hand_counts hand) k)).

(** The text of a face, e.g. 5p; a five may also be shown as a red five, 0p. *)
Definition face_text (k : kind) : text := str_int (snd k) ++ [letter_of (fst k)].
Definition names (s : text) (k : kind) : Prop :=
  s = face_text k \/ (snd k = 5 /\ fst k <> Cz /\ s = face_text (fst k, 0)).

(** [n] is the number of physical tiles, among those for which [unseen] holds, that have
    one of the faces. *)
Definition counts_unseen (unseen : Z -> Prop) (faces : list kind) (n : Z) : Prop :=
  exists l, NoDup l /\ (forall t, In t l <-> unseen t /\ valid_tile t /\ In (face t) faces) /\ Z.of_nat (length l) = n.

(** A list of faces, shown in order: [lists shown faces]. *)
Definition in_order (ks : list kind) : Prop :=
  forall a b before between after, ks = before ++ a :: between ++ b :: after -> kind_ltb a b = true.
Definition lists (shown : list text) (ks : list kind) : Prop := in_order ks /\ Forall2 names shown ks.

(** The distance to the nearest of several shapes, and the faces that advance the hand
    towards one of the nearest. *)
Definition best_distance (ss : list shape) (h : counts) (n : nat) : Prop :=
  (exists s, In s ss /\ distance true s h n) /\ forall s m, In s ss -> distance true s h m -> (n <= m)%nat.
Definition best_advances (ss : list shape) (h : counts) (j : kind) : Prop :=
  exists s n, In s ss /\ best_distance ss h n /\ distance true s h n /\ advances true s h j.

(** What the report says about discarding face [k] is right: it names the face, the
    distance of the remaining hand (less one) and, in order, the tiles that advance it. *)
Definition right_row (ss : list shape) (hand : list Z) (k : kind) (discard : list text) (step : Z) (useful : list text) : Prop :=
  (exists x, discard = [x] /\ names x k) /\
  (exists n, best_distance ss (without (hand_counts hand) k) n /\ step = Z.of_nat n - 1) /\
  (exists ks, lists useful ks /\ forall j, In j ks <-> best_advances ss (without (hand_counts hand) k) j).
(** The number of unseen tiles that advance the hand after discarding face [k]. *)
Definition right_count (ss : list shape) (hand : list Z) (unseen : Z -> Prop) (k : kind) (count : Z) : Prop :=
  exists ks, (forall j, In j ks <-> best_advances ss (without (hand_counts hand) k) j) /\ counts_unseen unseen ks count.

(** The hand is complete. *)
Definition complete (hand : list Z) (melds : Z) : Prop :=
  exists s, In s (shapes_for melds) /\ wins s (hand_counts hand).

(** Melds on the table; kita tiles are not among them. *)
Definition table_melds (melds : list meld) : Z :=
  Z.of_nat (length (filter (fun x => match m_class x with CKita => false | _ => true end) melds)).
(** Seat [p] with this hand and these melds discards tile [t], and event [e] says so. *)
Definition discards (e : event) (p : Z) (hand : list Z) (melds : list meld) (t : Z) : Prop :=
  seat p /\ to_discard hand (table_melds melds) t /\ writes (Discard p t) e /\
  Forall (fun x => Forall valid_tile (m_self x ++ m_borrowed x)) melds.
(** The player sees neither in the hand nor on the table. *)
Definition hidden (hand : list Z) (invisible : list inv) (t : Z) : Prop := In (ITile t) invisible /\ ~ In t hand.

(** The player never discards twice in a row: a draw or a call comes between. *)
Definition takes_turns (p : Z) (acts : list action) : Prop :=
  forall before after t t', acts <> before ++ Discard p t :: Discard p t' :: after.
(** The discards of [p], each with the events before it. *)
Fixpoint discard_points (p : Z) (before : list event) (acts : list action) (es : list event) : list (list event * event) :=
  match acts, es with
  | a :: acts', e :: es' =>
    (match a with Discard q _ => if q =? p then [(before, e)] else [] | _ => [] end)
      ++ discard_points p (before ++ [e]) acts' es'
  | _, _ => []
  end.
Definition somebody_declared_riichi (es : list event) : Prop := exists e, In e es /\ tag e = t_ "REACH".

(** The pictures of the report page: 0m to 9m, 0p to 9p, 0s to 9s and 1z to 7z. *)
Definition picture (s : text) : Prop :=
  exists n c, s = str_int n ++ [letter_of c] /\ (if color_eqb c Cz then 1 <= n <= 7 else 0 <= n <= 9).

(** The text of a physical tile: its face, or 0 and the suit for a red five. *)
Definition tile_text (t : Z) (s : text) : Prop :=
  (red_number t /\ s = face_text (fst (face t), 0)) \/ (~ red_number t /\ s = face_text (face t)).
