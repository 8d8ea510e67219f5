(** Model of mahjong/tenhou_record_check.py 28-34, 44-51, 62-122 and 201-317: the analysis
    of a player's discards. Not modelled: reading the log, the templates, file names and
    the log messages (125-198). *)
From Verif Require Import Base Category Tile TileSet Win Waiting Parse Text Tenhou Event State.
From Coq Require Import String List ZArith QArith Lia Bool.
Import ListNotations.
Open Scope list_scope.
Open Scope Z_scope.

(** tenhou_record_check.py 28-29 [n_a_r]: the product over [range(n, n - r, -1)]. *)
Definition n_a_r (n r : Z) : Z := fold_left Z.mul (map (fun i => n - Z.of_nat i) (seq 0 (Z.to_nat r))) 1.
(** 32-34 [n_c_r]; the true division gives a float, here the exact quotient. *)
Definition n_c_r (n r : Z) : res Q :=
  let r := Z.min r (n - r) in
  if n_a_r r r =? 0 then Err ZeroDivisionError
  else Ok (inject_Z (n_a_r n r) / inject_Z (n_a_r r r))%Q.

(** 37 [UNICODE_TILE_ORDER] = "zmsp", 39 [UNICODE_HONOR_ORDER], 41 [TILE_CATEGORY]. *)
Definition unicode_suit (c : color) : Z := match c with Cz => 0 | Cm => 1 | Cs => 2 | Cp => 3 end.
Definition UNICODE_HONOR_ORDER : list Z := [0; 1; 2; 3; 4; 7; 6; 5].
Definition TILE_CATEGORY : res mixedcat :=
  do honor <- new_subcat [7]; do suit <- new_subcat [9]; new_mixed [honor; suit; suit; suit].
(** 44-51 [to_unicode_tile]: the code point; [chr] rejects numbers outside 0..0x10ffff. *)
Definition to_unicode_tile (t : tile) : res Z :=
  do number <- match tcolor t with
               | Cz => do h <- py_nth UNICODE_HONOR_ORDER (tnumber t); Ok (h - 1)
               | _ => Ok (tnumber t - 1)
               end;
  do c <- TILE_CATEGORY;
  do index <- mixed_index c [unicode_suit (tcolor t); number];
  let code := 126976 + index in
  if (code <? 0) || (1114111 <? code) then Err ValueError else Ok code.

(** 62-69 [ReasoningItem] before [norm]; a Python set of tiles is a list without two
    equal tiles (Waiting.v). *)
Record item := mkItem { ri_discard : tile; ri_step : Z; ri_useful : list tile; ri_count : Z }.
(** 71-75 [norm]: the same item with texts; [sorted] of a set of tiles. *)
Record shown := mkShown { sh_discard : list text; sh_step : Z; sh_useful : list text; sh_count : Z }.
Fixpoint insert_tile (t : tile) (l : list tile) : list tile :=
  match l with
  | [] => [t]
  | x :: r => if tile_ltb t x then t :: l else x :: insert_tile t r
  end.
Definition sorted_tiles (l : list tile) : list tile := fold_left (fun a t => insert_tile t a) l [].
Definition norm (i : item) : shown :=
  mkShown [tile_str (ri_discard i)] (ri_step i) (map tile_str (sorted_tiles (ri_useful i))) (ri_count i).

(** 97-103 [reduce_useful]; [|] of two sets. *)
Definition reduce_useful (x y : item) : item :=
  if ri_step y <? ri_step x then y
  else if ri_step x =? ri_step y
       then mkItem (ri_discard x) (ri_step x) (set_update (ri_useful x) (ri_useful y)) 0
       else x.

(** 110-111 and 315-316: the sum over the useful tiles of
    [len(set(tile_to_tenhou_range(tile)) & invisible)]. *)
Definition inv_mem (n : Z) (s : list inv) : bool := existsb (fun x => inv_eqb x (ITile n)) s.
Definition copies (invisible : list inv) (t : tile) : res Z :=
  do r <- tile_to_tenhou_range t;
  Ok (Z.of_nat (length (filter (fun n => inv_mem n invisible) (set_of r)))).
Definition useful_count (invisible : list inv) (useful : list tile) : res Z :=
  do l <- mapM (copies invisible) useful; Ok (sumZ (fun x => x) l).

(** 106-111 [reasoning_merge]. *)
Definition reasoning_merge (l : list item) (invisible : list inv) : res item :=
  match l with
  | [] => Err TypeError
  | x :: r =>
    let m := fold_left reduce_useful r x in
    do step <- min_list (map ri_step l);
    do c <- useful_count invisible (ri_useful m);
    Ok (mkItem (ri_discard x) step (ri_useful m) c)
  end.

(** 114-115 [reasoning_key], with tuple comparison. *)
Definition key_of (x : item) : Z * Z := (ri_step x, - ri_count x).
Definition key_ltb (a b : Z * Z) : bool := (fst a <? fst b) || ((fst a =? fst b) && (snd a <? snd b)).
Definition key_eqb (a b : Z * Z) : bool := (fst a =? fst b) && (snd a =? snd b).

(** [l.sort(key=reasoning_key)], which is stable. *)
Fixpoint sort_insert (x : item) (l : list item) : list item :=
  match l with
  | [] => [x]
  | y :: r => if key_ltb (key_of x) (key_of y) then x :: l else y :: sort_insert x r
  end.
Definition sort_items (l : list item) : list item := fold_left (fun a x => sort_insert x a) l [].

(** 239-240: the first group of [groupby]; StopIteration when there is none. *)
Fixpoint take_key (k : Z * Z) (l : list item) : list item :=
  match l with
  | x :: r => if key_eqb (key_of x) k then x :: take_key k r else []
  | [] => []
  end.
Definition first_group (l : list item) : res (list item) :=
  match l with [] => Err StopIteration | x :: _ => Ok (take_key (key_of x) l) end.

(** 314-317 [convert_to_reasoning]. *)
Definition convert_to_reasoning (invisible : list inv) (t : tile) (useful : list tile) (step : Z) : res item :=
  do c <- useful_count invisible useful; Ok (mkItem t step useful c).

(** 297-302 [one_win_reasoning]. The hand is sorted in place by [borrowed_limit]
    (reasoning.py 51) before the search starts, and stays so. *)
Definition one_win_reasoning (hand : tset) (invisible : list inv) (win : pattern) : res (list item) :=
  do rows <- h_batch win (re_sort hand) true;
  mapM (fun r => convert_to_reasoning invisible (fst (fst r)) (snd r) (snd (fst r))) rows.

(** 307-311 [reasoning_discards]; the new hand is sorted in place likewise. *)
Definition reasoning_discards (hand : tset) (invisible : list inv) (t : tile) (win : pattern) : res item :=
  let hand_temp := ts_sub hand (of_tiles [t]) in
  do r <- h_both win (re_sort hand_temp) true;
  convert_to_reasoning invisible t (snd r) (fst r).

(** [zip] of all the lists: as many tuples as the shortest list has elements. *)
Fixpoint zip_with_rest {A} (first : list A) (others : list (list A)) : list (list A) :=
  match first with
  | [] => []
  | x :: r =>
    if forallb (fun l => match l with [] => false | _ => true end) others
    then (x :: flat_map (fun l => match l with [] => [] | y :: _ => [y] end) others)
         :: zip_with_rest r (map (@tl A) others)
    else []
  end.
Definition zip_star {A} (ll : list (list A)) : list (list A) :=
  match ll with [] => [] | first :: others => zip_with_rest first others end.

(** [n ** e] for integers, and [a / b]: exact numbers instead of floats. *)
Definition py_pow (n e : Z) : res Q :=
  if 0 <=? e then Ok (inject_Z (n ^ e))
  else if n =? 0 then Err ZeroDivisionError else Ok (/ inject_Z (n ^ (- e)))%Q.
Definition py_div (a : Z) (b : Q) : res Q :=
  if Qeq_bool b 0 then Err ZeroDivisionError else Ok (inject_Z a / b)%Q.

(** 78-88 [RoundReasoning], with the attributes set at 285-288. *)
Record round := mkRound {
  rr_hand : list text; rr_melds : list (list text);
  rr_choice : shown; rr_expected : list shown; rr_merged : list shown;
  rr_wrong_rate : Q; rr_somebody_richii : bool;
  rr_extra : list (text * list shown) }.

(** The [value] of the three kinds of state used here ([value] properties of state.py, e.g. 67-69). *)
Definition hand_value (s : gstate) : list Z := match s with SHand _ h => h | _ => [] end.
Definition meld_value (s : gstate) : list meld := match s with SMeld _ l => l | _ => [] end.
Definition invisible_value (s : gstate) : option (list inv) := match s with SInvisible _ i => i | _ => None end.

(** 226: melds that are not Kita. *)
Definition is_kita (m : meld) : bool := match m_class m with CKita => true | _ => false end.
Definition meld_count (l : list meld) : Z := Z.of_nat (length (filter (fun m => negb (is_kita m)) l)).
(** 229-232; NormalTypeWin(pairs=1, melds) (win.py 104) and UniquePairs(pairs=7) (win.py 131). *)
Definition win_types (melds : Z) : list pattern :=
  NormalTypeWin 1 (4 - melds) :: (if melds =? 0 then [UniquePairs 7 []] else []).

(** 227: TileSet(tile_from_tenhou(index) for index in hand_state.value). *)
Definition hand_tiles (hand : list Z) : res tset := do l <- mapM tile_from_tenhou hand; Ok (of_tiles l).

(** 233-240: the merged rows and the expected ones. [win_reasonings] is a generator
    (292-294), used up by [zip(star)]. *)
Definition merged_rows (hand : tset) (invisible : list inv) (wins : list pattern) : res (list item) :=
  do win_reasonings <- mapM (one_win_reasoning hand invisible) wins;
  do merged <- mapM (fun l => reasoning_merge l invisible) (zip_star win_reasonings);
  Ok (sort_items merged).

(** 241-246: the row of the tile that was discarded. *)
Definition choice_row (hand : tset) (invisible : list inv) (t : tile) (wins : list pattern) : res item :=
  do l <- mapM (reasoning_discards hand invisible t) wins; reasoning_merge l invisible.

(** 252-261: the rate. *)
Definition wrong_rate (unseen : Z) (expected choice : item) : res Q :=
  do seq_count <- py_pow unseen (ri_step choice - ri_step expected);
  do correct <- py_div (ri_count choice) (inject_Z (ri_count expected) * seq_count);
  Ok (1 - correct)%Q.

(** 224-289 [discard_reasoning]. The loops at 249 and 285 iterate over the generator
    [win_reasonings] again, which is exhausted, so nothing is sorted or set there:
    [zip(reasoning_names, [])] below. *)
Definition reasoning_names : list text := [t_ "normal_reasonings"; t_ "seven_pair_reasonings"].
Definition discard_reasoning (e : event) (hand_state invisible_state : gstate) (player : Z) (meld_state : gstate) : res round :=
  do invisible <- opt_minus (invisible_value invisible_state) (hand_value hand_state);
  let melds := meld_value meld_state in
  do hand <- hand_tiles (hand_value hand_state);
  let wins := win_types (meld_count melds) in
  do merged <- merged_rows hand invisible wins;
  do expected <- first_group merged;
  do index <- discard_tile_index player e;
  do your_tile <- tile_from_tenhou index;
  do choice <- choice_row (re_sort hand) invisible your_tile wins;
  do best <- py_nth expected 0;
  do wrong <- wrong_rate (Z.of_nat (length invisible)) best choice;
  do meld_strs <- mapM (fun m => mapM (fun x => do t <- tile_from_tenhou x; Ok (tile_str t))
                                      (m_self m ++ m_borrowed m)) melds;
  let exhausted : list (list item) := [] in
  Ok (mkRound (map tile_str (tiles (re_sort hand))) meld_strs (norm choice) (map norm expected) (map norm merged)
              wrong false
              (map (fun nr => (fst nr, map norm (snd nr))) (combine reasoning_names exhausted))).

(** 209-221 [game_reasoning], a generator consumed by [list] (206): a StopIteration raised
    inside it becomes a RuntimeError (PEP 479, Python 3.7). *)
Definition in_generator {A} (x : res A) : res A :=
  match x with Err StopIteration => Err RuntimeError | _ => x end.
(** The three states carried along. *)
Record states := mkStates { st_hand : gstate; st_invisible : gstate; st_meld : gstate }.
Definition pass_states (s : states) (es : list event) : res states :=
  do h <- passed_events (st_hand s) es;
  do i <- passed_events (st_invisible s) es;
  do m <- passed_events (st_meld s) es;
  Ok (mkStates h i m).
(** 212-221: the loop body for one group; the rows yielded, the states and the flag after. *)
Definition game_group (player : Z) (s : states) (richii discarded : bool) (group : list event) : res (list round * states * bool) :=
  let richii := richii || existsb is_richii group in
  do rows <- (if discarded then
                match group with
                | [] => Err IndexError
                | e :: _ =>
                  do r <- discard_reasoning e (st_hand s) (st_invisible s) player (st_meld s);
                  Ok [mkRound (rr_hand r) (rr_melds r) (rr_choice r) (rr_expected r) (rr_merged r) (rr_wrong_rate r)
                              richii (rr_extra r)]
                end
              else Ok []);
  do s' <- pass_states s group;
  Ok (rows, s', richii).
(** 211: [groupby(game.events, player.is_discard)]. The key of the first event after a group
    is computed before the body runs for that group. *)
Fixpoint game_loop (player : Z) (s : states) (richii discarded : bool) (group : list event) (es : list event) : res (list round) :=
  match es with
  | [] => do r <- in_generator (game_group player s richii discarded group); Ok (fst (fst r))
  | e :: rest =>
    do d <- is_discard player e;
    if eqb d discarded then game_loop player s richii discarded (group ++ [e]) rest
    else do r <- in_generator (game_group player s richii discarded group);
         do more <- game_loop player (snd (fst r)) (snd r) d [e] rest;
         Ok (fst (fst r) ++ more)
  end.
Definition game_reasoning (player : Z) (s : states) (es : list event) : res (list round) :=
  match es with
  | [] => Ok []
  | e :: rest => do d <- is_discard player e; game_loop player s false d [e] rest
  end.

(** 201-206 [game_reason_list]: fresh states for a player of a game with that many players. The
    message of line 202 contains the text of the game; [analyses] (Report.v) makes it just before. *)
Definition fresh_states (player players : Z) : states :=
  mkStates (SHand player []) (SInvisible players (initial_invisible players)) (SMeld player []).
Definition game_reason_list (events : list event) (player players : Z) : res (list round) :=
  game_reasoning player (fresh_states player players) events.

(** 121-122 [find_in_list]. *)
Definition find_in_list {A} (l : list A) (key : A -> bool) : option A := find key l.
