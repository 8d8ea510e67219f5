(** Model of mahjong/record/state.py. *)
From Verif Require Import Base Category Tile Parse Text Tenhou Event.
From Coq Require Import String List ZArith Lia Bool.
Import ListNotations.
Open Scope list_scope.
Open Scope Z_scope.

(** state.py 174-180: the elements of an [InvisibleTiles] set are tile numbers, and for
    three players also tuples. *)
Inductive inv := ITile (t : Z) | ITuple (a b c : Z).
Definition inv_eqb (x y : inv) : bool :=
  match x, y with
  | ITile a, ITile b => a =? b
  | ITuple a b c, ITuple a' b' c' => (a =? a') && (b =? b') && (c =? c')
  | _, _ => false
  end.
(** [s - set(l)] for a set of such elements and a list of numbers. *)
Definition inv_minus (s : list inv) (l : list Z) : list inv :=
  filter (fun x => negb (existsb (fun t => inv_eqb x (ITile t)) l)) s.

(** The state objects: PlayerHand (66-76), PlayerMeld (91-98), DiscardTiles (136-140),
    DoraIndicators (156-160), InvisibleTiles (170-181; [None] when the constructor leaves
    the set undefined) and GameStateCollection (46-54). A player is an index. *)
Inductive gstate :=
| SHand (player : Z) (hand : list Z)
| SMeld (player : Z) (meld_list : list meld)
| SDiscard (player : Z) (discard_tiles : list Z)
| SDora (dora_indicators : list Z)
| SInvisible (player_num : Z) (invisible_tiles : option (list inv))
| SCollection (states : list (text * gstate)).

(** state.py 171-181 [InvisibleTiles(player_num)]. *)
Definition initial_invisible (player_num : Z) : option (list inv) :=
  if player_num =? 4 then Some (map ITile (zrange 0 136))
  else if player_num =? 3 then
    Some (flat_map (fun num => map (fun i => ITuple 0 num i) [0; 1; 2; 3]) [1 - 1; 9 - 1] ++
          map ITile (zrange 36 136))
  else None.

(** state.py 147-154 [DoraIndicators.scan]; [None] is [return self]. *)
Definition dora_scan (doras : list Z) (e : event) : res (option (list Z)) :=
  if is_game_init e then
    do s <- attr e (t_ "seed"); do seed_list <- int_list s; do d <- py_nth seed_list (-1); Ok (Some [d])
  else if is_dora_indicator_event e then
    do h <- attr e (t_ "hai"); do d <- py_int h; Ok (Some (doras ++ [d]))
  else Ok None.

(** state.py 78-88 [PlayerHand.scan]. *)
Definition hand_scan (p : Z) (hand : list Z) (e : event) : res (option (list Z)) :=
  if is_game_init e then
    do h <- attr e (t_ "hai" ++ str_int p); do l <- int_list h; Ok (Some (set_of l))
  else
  do dr <- is_draw p e;
  if dr then do t <- draw_tile_index p e; Ok (Some (set_union hand [t])) else
  do di <- is_discard p e;
  if di then do t <- discard_tile_index p e; Ok (Some (set_minus hand [t])) else
  do op <- player_open_hand p e;
  if op then do m <- meld_from e; Ok (Some (set_minus hand (m_self m))) else
  Ok None.

(** state.py 105-108: one element of the rebuilt list. *)
Definition upgrade (added item : meld) : res meld :=
  match m_class item with
  | CTriplet => do b <- is_triplet_of_added_kan item added;
                Ok (if b then kan_from_triplet item added else item)
  | _ => Ok item
  end.
(** state.py 100-114 [PlayerMeld.scan]. *)
Definition meld_scan (p : Z) (melds : list meld) (e : event) : res (option (list meld)) :=
  do op <- player_open_hand p e;
  if op then
    do m <- meld_from e;
    match m_class m with
    | CAddedKan => do l <- mapM (upgrade m) melds; Ok (Some l)
    | _ => Ok (Some (melds ++ [m]))
    end
  else if is_game_init e then Ok (Some [])
  else Ok None.

(** state.py 125-130 [DiscardTiles.scan]. *)
Definition discard_scan (p : Z) (l : list Z) (e : event) : res (option (list Z)) :=
  do di <- is_discard p e;
  if di then do t <- discard_tile_index p e; Ok (Some (l ++ [t]))
  else if is_game_init e then Ok (Some [])
  else Ok None.

(** [self._invisible_tiles - set(l)]; the set may be [None]. *)
Definition opt_minus (s : option (list inv)) (l : list Z) : res (list inv) :=
  match s with Some x => Ok (inv_minus x l) | None => Err TypeError end.
(** state.py 183-197 [InvisibleTiles.scan]. The inner option is the set, [None] outside
    is [return self]. *)
Definition invisible_scan (n : Z) (s : option (list inv)) (e : event) : res (option (list inv)) :=
  if is_game_init e then
    do d <- dora_scan [] e;
    do r <- opt_minus (initial_invisible n) (match d with Some l => l | None => [] end); Ok (Some r)
  else
  match discard_value e with
  | Some t =>
    if negb (t =? 0) then do r <- opt_minus s [t]; Ok (Some r)
    else if is_open_hand e then do m <- meld_from e; do r <- opt_minus s (m_self m); Ok (Some r)
    else if is_dora_indicator_event e then
      do d <- dora_scan [] e; do r <- opt_minus s (match d with Some l => l | None => [] end); Ok (Some r)
    else Ok None
  | None =>
    if is_open_hand e then do m <- meld_from e; do r <- opt_minus s (m_self m); Ok (Some r)
    else if is_dora_indicator_event e then
      do d <- dora_scan [] e; do r <- opt_minus s (match d with Some l => l | None => [] end); Ok (Some r)
    else Ok None
  end.

(** [scan] of every class: the new state and whether it is a new object. 60-63:
    [GameStateCollection.scan] always builds a new one. *)
Definition wrap {A} (mk : A -> gstate) (old : gstate) (x : res (option A)) : res (gstate * bool) :=
  do o <- x; Ok (match o with Some a => (mk a, true) | None => (old, false) end).
Fixpoint scan (s : gstate) (e : event) : res (gstate * bool) :=
  match s with
  | SHand p h => wrap (SHand p) s (hand_scan p h e)
  | SMeld p l => wrap (SMeld p) s (meld_scan p l e)
  | SDiscard p l => wrap (SDiscard p) s (discard_scan p l e)
  | SDora l => wrap SDora s (dora_scan l e)
  | SInvisible n i => wrap (fun r => SInvisible n (Some r)) s (invisible_scan n i e)
  | SCollection l =>
    do l' <- (fix go (l : list (text * gstate)) : res (list (text * gstate)) :=
                match l with
                | [] => Ok []
                | (k, x) :: r => do y <- scan x e; do ys <- go r; Ok ((k, fst y) :: ys)
                end) l;
    Ok (SCollection l', true)
  end.

(** [is_key_event]: 26-27 (the objects have no [__eq__], so [!=] compares identity), 48-49,
    120-121, 142-143, 166-167. *)
Fixpoint is_key_event (s : gstate) (e : event) : res bool :=
  match s with
  | SHand _ _ | SInvisible _ _ => do r <- scan s e; Ok (snd r)
  | SMeld p _ => do op <- player_open_hand p e; if op then Ok true else Ok (is_game_init e)
  | SDiscard p _ => do di <- is_discard p e; if di then Ok true else Ok (is_game_init e)
  | SDora _ => Ok (is_game_init e || is_dora_indicator_event e)
  | SCollection l =>
    (fix any (l : list (text * gstate)) : res bool :=
       match l with
       | [] => Ok false
       | (_, x) :: r => do k <- is_key_event x e; if k then Ok true else any r
       end) l
  end.

(** 35-43 [passed_events] over [with_key_events]: the key test is made on [self], the
    state before the first event. *)
Fixpoint key_events (self cur : gstate) (es : list event) : res gstate :=
  match es with
  | [] => Ok cur
  | e :: r =>
    do k <- is_key_event self e;
    if k then do s <- scan cur e; key_events self (fst s) r else key_events self cur r
  end.
Definition passed_events (self : gstate) (es : list event) : res gstate := key_events self self es.

(** 29-33 [with_events]: the states after each event, here the list of all of them. *)
Fixpoint with_events (s : gstate) (es : list event) : res (list gstate) :=
  match es with
  | [] => Ok []
  | e :: r => do s' <- scan s e; do l <- with_events (fst s') r; Ok (fst s' :: l)
  end.

(** A state that the constructors can make: an undefined set only for a player number
    that is neither 3 nor 4. *)
Fixpoint constructed (s : gstate) : Prop :=
  match s with
  | SInvisible n None => initial_invisible n = None
  | SCollection l => (fix go (l : list (text * gstate)) : Prop :=
                        match l with [] => True | (_, x) :: r => constructed x /\ go r end) l
  | _ => True
  end.
