(** Specification vocabulary: what happens at the table, how Tenhou writes it down, and
    what each tracked quantity ought to be. Nothing here refers to the scanners. *)
From Verif Require Import Base Tile Parse Text Tenhou Event Spec_Meld.
From Coq Require Import String List ZArith.
Import ListNotations.
Open Scope list_scope.
Open Scope Z_scope.

(** ** Actions. Seats are 0..3, tiles are Tenhou numbers. *)
Record deal := mkDeal {
  d_hands : Z -> list Z;     (* the tiles dealt to each seat *)
  d_round : list Z;          (* round, honba, sticks, two dice *)
  d_dora : Z }.              (* the first dora indicator *)
Inductive action :=
| Deal (d : deal)
| Draw (p t : Z)
| Discard (p t : Z)
| Call (p code : Z)          (* chi, pon, kan, kita; the code holds the tiles *)
| NewDora (t : Z)
| Other.                     (* riichi declarations, wins, draws, connection events, ... *)

(** ** How an action is written. Numbers in decimal, lists with commas. *)
Definition comma_list (l : list Z) : text := join (t_ ",") (map str_int l).
Definition draw_letter (p : Z) : Z := 84 + p.      (* T U V W *)
Definition discard_letter (p : Z) : Z := 68 + p.   (* D E F G *)
(** A letter of the eight followed by a digit. *)
Definition tile_tag (s : text) : Prop :=
  exists l c r, s = l :: c :: r /\ (84 <= l <= 87 \/ 68 <= l <= 71) /\ 48 <= c <= 57.
Definition holds (e : event) (name : text) (v : text) : Prop := lookup name (attrib e) = Some v.

Definition writes (a : action) (e : event) : Prop :=
  match a with
  | Deal d => tag e = t_ "INIT" /\ holds e (t_ "seed") (comma_list (d_round d ++ [d_dora d])) /\
              forall p, 0 <= p < 4 -> holds e (t_ "hai" ++ str_int p) (comma_list (d_hands d p))
  | Draw p t => tag e = draw_letter p :: str_int t
  | Discard p t => tag e = discard_letter p :: str_int t
  | Call p v => tag e = t_ "N" /\ holds e (t_ "who") (str_int p) /\ holds e (t_ "m") (str_int v)
  | NewDora t => tag e = t_ "DORA" /\ holds e (t_ "hai") (str_int t)
  | Other => tag e <> t_ "INIT" /\ tag e <> t_ "N" /\ tag e <> t_ "DORA" /\ ~ tile_tag (tag e)
  end.

Definition seat (p : Z) : Prop := 0 <= p < 4.
Definition legal_action (a : action) : Prop :=
  match a with
  | Deal d => True
  | Draw p t | Discard p t => seat p /\ valid_tile t
  | Call p v => seat p /\ 0 <= v < 65536 /\ tile_field_ok v
  | NewDora t => valid_tile t
  | Other => True
  end.
(** A log of a table: legal actions, each written as an event. *)
Definition log (acts : list action) (es : list event) : Prop :=
  Forall legal_action acts /\ Forall2 writes acts es.
(** The seat is dealt tiles in every deal (a fourth seat may be empty). *)
Definition plays (p : Z) (acts : list action) : Prop := forall d, In (Deal d) acts -> d_hands d p <> [].

(** ** Hands: which actions put tile [t] into the hand of [p], which take it out. *)
Definition puts (p t : Z) (a : action) : Prop :=
  match a with
  | Deal d => In t (d_hands d p)
  | Draw q x => q = p /\ x = t
  | _ => False
  end.
Definition takes (p t : Z) (a : action) : Prop :=
  match a with
  | Deal d => ~ In t (d_hands d p)
  | Discard q x => q = p /\ x = t
  | Call q v => q = p /\ laid_down v t
  | _ => False
  end.
Definition touches (p t : Z) (a : action) : Prop := puts p t a \/ takes p t a.
(** The last action touching the tile put it into the hand; tiles nobody touched are
    where they were. *)
Definition in_hand (p : Z) (start : list Z) (acts : list action) (t : Z) : Prop :=
  (exists before a after, acts = before ++ a :: after /\ puts p t a /\ Forall (fun b => ~ touches p t b) after)
  \/ (In t start /\ Forall (fun b => ~ touches p t b) acts).

(** ** Since the last deal. [last_deal acts d after]: the last deal of [acts] is [d], and
    [after] is what followed. *)
Definition is_deal (a : action) : Prop := match a with Deal _ => True | _ => False end.
Definition no_deal (acts : list action) : Prop := Forall (fun a => ~ is_deal a) acts.
Definition last_deal (acts : list action) (d : deal) (after : list action) : Prop :=
  exists before, acts = before ++ Deal d :: after /\ no_deal after.

Definition discards_of (p : Z) (acts : list action) : list Z :=
  flat_map (fun a => match a with Discard q t => if q =? p then [t] else [] | _ => [] end) acts.
Definition new_doras (acts : list action) : list Z :=
  flat_map (fun a => match a with NewDora t => [t] | _ => [] end) acts.
Definition calls_of (p : Z) (acts : list action) : list Z :=
  flat_map (fun a => match a with Call q v => if q =? p then [v] else [] | _ => [] end) acts.

(** The actions that show a tile to the whole table, other than the dora indicator of the
    deal: a discard, a call that lays it down, a new dora indicator. *)
Definition shows (t : Z) (a : action) : Prop :=
  match a with
  | Discard _ x => x = t
  | Call _ v => laid_down v t
  | NewDora x => x = t
  | _ => False
  end.

(** ** Melds. [decoded v m]: the meld object [m] made by seat [p] stands for the code. *)
Definition decoded (p v : Z) (m : meld) : Prop :=
  m_class m = call_kind v /\
  (forall x, In x (m_self m) <-> laid_down v x) /\ NoDup (m_self m) /\
  (forall x, In x (m_borrowed m) <-> taken v x) /\ NoDup (m_borrowed m) /\
  m_from m = (p + source v) mod 4.
(** An added kan [a] fits the pon [m]: all their tiles have the same face. *)
Definition fits (m a : meld) : Prop :=
  m_class m = CTriplet /\ m_class a = CAddedKan /\
  forall x y, In x (m_self m) -> In y (m_self a) -> face x = face y.
(** The kan made of the pon [m] and the added tile of [a]. *)
Definition grown (m a k : meld) : Prop :=
  m_class k = CKanFromTriplet /\
  (forall x, In x (m_self k) <-> In x (m_self m) \/ In x (m_self a)) /\
  m_borrowed k = m_borrowed m /\ m_from k = m_from m.
(** What a meld becomes by the later calls: the first fitting added kan, if any, turns
    it into a kan. *)
Inductive becomes : meld -> list meld -> meld -> Prop :=
| becomes_end : forall m, becomes m [] m
| becomes_skip : forall m a later m', ~ fits m a -> becomes m later m' -> becomes m (a :: later) m'
| becomes_kan : forall m a later k, fits m a -> grown m a k -> becomes m (a :: later) k.
(** The melds on the table after a sequence of calls: one per call that is not an added
    kan, in order. *)
Inductive table_melds : list meld -> list meld -> Prop :=
| tm_nil : table_melds [] []
| tm_added : forall a later r, m_class a = CAddedKan -> table_melds later r -> table_melds (a :: later) r
| tm_call : forall m later m' r, m_class m <> CAddedKan -> becomes m later m' -> table_melds later r ->
    table_melds (m :: later) (m' :: r).
