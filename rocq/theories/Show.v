(** Model of the texts by which records, deals, players, settings, melds and events are shown:
    mahjong/record/reader.py 82-113 and 162-176, player.py 20-30, utils/value/gametype.py 23-24, 74-84,
    utils/value/meld.py 96-105 and utils/event.py 102-103, 114-150. *)
From Verif Require Import Base Category Tile TileSet Parse Text Tenhou Event Reader Url Value Const TenhouCommands Paifu.
From Coq Require Import String List ZArith Bool.
Import ListNotations.
Open Scope list_scope.
Open Scope Z_scope.

(** ** Formatting *)
(** [a / b] rounded to the nearest integer, to the even one when both are as near. *)
Definition round_div (a b : Z) : Z :=
  let q := a / b in
  let r := 2 * (a mod b) in
  if r <? b then q else if b <? r then q + 1 else if Z.even q then q else q + 1.
(** ["%.<p>f" % n]. Simplified: the number is the exact decimal; if it has more than [p] decimals,
    Python rounds the nearest double instead, which can differ when the exact decimal lies
    half-way. *)
Definition fixed (p : nat) (n : num) : text :=
  let a := Z.abs (num_m n) in
  let k := num_k n in
  let q := if (k <=? p)%nat then a * p10 (p - k) else round_div a (p10 (k - p)) in
  let f := str_int (q mod p10 p) in
  (if num_m n <? 0 then t_ "-" else []) ++ str_int (q / p10 p) ++ t_ "." ++ repeat 48 (p - length f) ++ f.
(** ["%d" % n]: a float is cut off towards zero. *)
Definition cut_off (n : num) : text := str_int (Z.quot (num_m n) (p10 (num_k n))).
(** [t % args] for a template whose only conversions are [%s]: TypeError unless there are as
    many of them as arguments. *)
Fixpoint percent (t : text) (args : list text) : res text :=
  match t with
  | [] => match args with [] => Ok [] | _ => Err TypeError end
  | c :: r =>
    if c =? 37 then
      match r with
      | 115 :: r' => match args with [] => Err TypeError | a :: args' => do s <- percent r' args'; Ok (a ++ s) end
      | _ => Err ValueError
      end
    else do s <- percent r args; Ok (c :: s)
  end.

(** ** gametype.py 23-24, 74-84 *)
Definition if_value (condition : bool) (value_if_true : text) : text := if condition then value_if_true else [].
Definition COUNT_NAMES : text := [38646; 19968; 20108; 19977; 22235].
Definition WIND_COUNT_NAMES : text := [95; 26481; 21335; 35199; 21271].
Definition game_type_str (g : game_type) : res text :=
  do count <- py_nth COUNT_NAMES (player_count g);
  do level <- py_nth (if with_tips g then LEVELS_TIPS else LEVELS) (play_level g);
  do winds <- py_nth WIND_COUNT_NAMES (play_wind_count g);
  Ok ([count] ++ [level] ++ [winds] ++
      if_value (allow_tanyao_open g) [21936] ++ if_value (has_aka_dora g) [36196] ++
      if_value (speed_up g) [36895] ++ if_value (show_discard_shadow g) [26263] ++
      if_value (with_tips g) (31069 :: str_int (tips_count g))).

(** ** player.py 20-30: a grade that is a float cannot index a list. *)
Definition level_str (p : player) : res text :=
  match pl_level p with NInt i => py_nth RANKS i | NDec _ _ => Err TypeError end.
Definition player_str (p : player) : res text :=
  do level <- level_str p;
  Ok (player_name p ++ t_ " " ++ level ++ t_ " R" ++ fixed 2 (pl_rate p)).

(** ** reader.py 82-101 [end_stringify]. For other events it returns None, which [",".join]
    answers with TypeError. *)
Definition end_stringify (players : list player) (e : event) : res text :=
  if is_somebody_win_game e then
    do w <- attr e (t_ "who"); do who <- py_int w;
    do f <- attr e (t_ "fromWho"); do from_who <- py_int f;
    do ten <- attr e (t_ "ten"); do l <- number_list ten; do score <- py_nth l 1;
    do winner <- py_nth players who;
    if who =? from_who then Ok (player_name winner ++ [58; 12484; 12514; 40] ++ cut_off score ++ t_ ")")
    else do loser <- py_nth players from_who;
         Ok (player_name winner ++ t_ "<-" ++ player_name loser ++ [58; 12525; 12531; 40] ++ cut_off score ++ t_ ")")
  else if is_nobody_win_game e then
    do type_of_draw <- match lookup (t_ "type") (attrib e) with
                       | Some t => match lookup t DRAWN_TYPES with Some r => Ok r | None => Err KeyError end
                       | None => Ok []
                       end;
    Ok (join (t_ " ") [[27969; 23616]; type_of_draw])
  else Err TypeError.
(** 103-110 [TenhouGame.__str__]. *)
Definition WIND_NAMES : text := [26481; 21335; 35199; 21271].
Definition game_caption (gt : game_type) (players : list player) (g : game) : res text :=
  do pi <- game_index gt g;
  do wind <- py_nth WIND_NAMES (fst pi);
  do sub <- sub_game_index g;
  do ends <- mapM (end_stringify players) (g_end_events g);
  Ok ([wind] ++ str_int (snd pi + 1) ++ [23616] ++ cut_off sub ++ [26412; 32] ++ join (t_ ",") ends).
(** 112-113, 175-176 [__repr__] of a deal and a record. *)
Definition in_brackets (s : text) : text := t_ "<" ++ s ++ t_ ">".

(** reader.py 162-173 [TenhouRecord.__str__]. [sort(key=..., reverse=True)] keeps the order of
    equal scores. *)
Definition standing := (player * num * num)%type.
Definition standing_score (s : standing) : num := snd (fst s).
Fixpoint zip3 {A B C} (a : list A) (b : list B) (c : list C) : list (A * B * C) :=
  match a, b, c with x :: a', y :: b', z :: c' => (x, y, z) :: zip3 a' b' c' | _, _, _ => [] end.
Fixpoint insert_standing (x : standing) (l : list standing) : list standing :=
  match l with
  | [] => [x]
  | y :: r => if num_ltb (standing_score y) (standing_score x) then x :: l else y :: insert_standing x r
  end.
Definition sort_standings (l : list standing) : list standing := fold_left (fun a x => insert_standing x a) l [].
Fixpoint standing_texts (i : Z) (l : list standing) : list text :=
  match l with
  | [] => []
  | (p, _, end_point) :: r =>
    (str_int (i + 1) ++ [20301; 58] ++ player_name p ++ t_ "(" ++ fixed 1 end_point ++ t_ ")") :: standing_texts (i + 1) r
  end.
Definition record_str (r : record) : res text :=
  let player_scores := zip3 (r_players r) (r_end_score r) (r_end_point r) in
  do ty <- game_type_str (r_type r);
  Ok (ty ++ t_ " " ++ join (t_ ",") (standing_texts 0 (sort_standings player_scores))).

(** ** meld.py 70-71, 96-105. [set_order]: the order in which a set of integers is iterated. *)
Definition class_name (c : mclass) : text :=
  match c with
  | CFlush => t_ "Flush" | CTriplet => t_ "Triplet" | CAddedKan => t_ "TenhouAddedKan" | CKan => t_ "TenhouKan" | CKita => t_ "Kita"
  | CKanFromTriplet => t_ "KanFromTriplet"
  end.
Definition tile_set_from_tenhou (ints : list Z) : res tset := do ts <- mapM tile_from_tenhou ints; Ok (of_tiles ts).
Definition meld_str (set_order : list Z -> list Z) (m : meld) : res text :=
  do self_tile <- tile_set_from_tenhou (set_order (m_self m));
  do borrow <- tile_set_from_tenhou (set_order (m_borrowed m));
  Ok (t_ "'" ++ class_name (m_class m) ++ t_ "' using '" ++ ts_str self_tile ++ t_ "' to get '" ++ ts_str borrow ++
      t_ "' from player " ++ str_int (m_from m)).

(** ** event.py 114-150 [base_str]. ["UNPARSED".format(...)] has no placeholders. The score of a
    win is printed as [number_list] reads it. *)
Definition base_str (set_order : list Z -> list Z) (e : event) : res text :=
  match tile_change DRAW_INDICATOR e with
  | Some (player, n) => do s <- one_tile n; Ok (t_ "player " ++ str_int player ++ t_ " draw " ++ s)
  | None =>
  match tile_change DISCARD_INDICATOR e with
  | Some (player, n) => do s <- one_tile n; Ok (t_ "player " ++ str_int player ++ t_ " discard " ++ s)
  | None =>
    if is_open_hand e then
      do who <- attr e (t_ "who"); do item <- meld_from e; do s <- meld_str set_order item;
      Ok (t_ "player " ++ who ++ t_ " claimed " ++ s)
    else if is_richii e then do who <- attr e (t_ "who"); Ok (t_ "player " ++ who ++ t_ " richii")
    else if is_dora_indicator_event e then
      do hai <- attr e (t_ "hai"); do n <- py_int hai; do s <- one_tile n; Ok (t_ "new dora indicator " ++ s)
    else if is_somebody_win_game e then
      do winner <- attr e (t_ "who"); do loser <- attr e (t_ "fromWho");
      do ten <- attr e (t_ "ten"); do l <- number_list ten; do score <- py_nth l 1;
      Ok (t_ "player " ++ winner ++ t_ " win " ++ Json.num_repr score ++ t_ " from player " ++ loser)
    else if is_nobody_win_game e then
      do reason <- match lookup (t_ "type") (attrib e) with
                   | Some t => match lookup t DRAWN_TYPES with Some r => Ok r | None => Err KeyError end
                   | None => Ok []
                   end;
      Ok (t_ "no body win " ++ reason)
    else Ok (t_ "UNPARSED")
  end
  end.
(** event.py 102-103 [__repr__]: the template is applied to the event alone, before the comma
    makes a pair of the result. [event_text]: the text of the event ([__str__]). *)
Definition event_repr (event_text : text) : res (text * unit) :=
  do s <- percent (t_ "[%s]:%s") [event_text]; Ok (s, tt).
