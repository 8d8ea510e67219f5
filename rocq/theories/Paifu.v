(** Model of the row export: [TenhouEvent.to_paifu] (mahjong/record/utils/event.py 152-247),
    [TenhouGame.to_paifu] and [TenhouRecord.to_paifu] (mahjong/record/reader.py 115-123 and
    178-190). Not modelled: the log message of event.py 246. *)
From Verif Require Import Base Category Tile Parse Text Tenhou Event Reader Value Json TenhouCommands.
From Coq Require Import String List ZArith Lia Bool.
Import ListNotations.
Open Scope list_scope.
Open Scope Z_scope.

(** A value of a row: a text, or (event.py 235 only) a tile object. *)
Inductive cell := PText (s : text) | PTile (t : tile).
(** A row: a dict with its keys in insertion order. *)
Definition row := list (text * cell).
Definition field_ (name : string) (v : text) : text * cell := (t_ name, PText v).

(** [sorted] of integers. *)
Fixpoint insert_int (x : Z) (l : list Z) : list Z :=
  match l with [] => [x] | y :: r => if x <? y then x :: l else y :: insert_int x r end.
Definition sorted_ints (l : list Z) : list Z := fold_left (fun a x => insert_int x a) l [].

(** [''.join([str(tile_from_tenhou(i)) for i in l])]. *)
Definition tile_texts (l : list Z) : res text := do ts <- tile_strs l; Ok (concat ts).
Definition one_tile (x : Z) : res text := do t <- tile_from_tenhou x; Ok (tile_str t).

(** event.py 156-158 (and 159-164, 170-172): the row of one starting hand. *)
Definition hand_row (e : event) (event_type : string) (p : Z) : res row :=
  do hai <- attr e (t_ "hai" ++ str_int p);
  do l <- mapM py_int (split_on 44 hai);
  do see <- tile_texts (sorted_ints l);
  do ten <- attr e (t_ "ten");
  do score <- py_nth (split_on 44 ten) p;
  Ok [field_ "event_type" (t_ event_type); field_ "player" (str_int p); field_ "player_see" see;
      field_ "score" (score ++ t_ "00")].

(** event.py 155-175. *)
Definition init_rows (e : event) : res (list row) :=
  do r0 <- hand_row e "INIT1" 0; do r1 <- hand_row e "INIT2" 1; do r2 <- hand_row e "INIT3" 2;
  do seed <- attr e (t_ "seed");
  do d <- py_nth (split_on 44 seed) (-1); do n <- py_int d; do s <- one_tile n;
  let dora := [field_ "event_type" (t_ "DORA"); field_ "player" (t_ "0"); field_ "player_see" s; field_ "player_show" s] in
  do sticks <- py_nth (split_on 44 seed) 2;
  let initround := [field_ "event_type" (t_ "ROUND"); field_ "score" (sticks ++ t_ "000")] in
  match lookup (t_ "hai3") (attrib e) with
  | Some (_ :: _) => do r3 <- hand_row e "INIT4" 3; Ok [r0; r1; r2; r3; dora; initround]
  | _ => Ok [r0; r1; r2; dora; initround]
  end.

(** event.py 184-221: the row of a call. [set_order]: see TenhouCommands.v. *)
Definition open_row (set_order : list Z -> list Z) (e : event) : res row :=
  do player <- attr e (t_ "who");
  do item <- meld_from e;
  do m <- attr e (t_ "m"); do code <- py_int m; do type_of <- unpack_with meld_type_desc code;
  let self_tile := set_order (m_self item) in
  let borrow_tile := set_order (m_borrowed item) in
  let call (name : string) :=
    do own <- tile_texts self_tile; do borrowed <- tile_texts borrow_tile;
    Ok [field_ "event_type" (t_ name); field_ "player" player; field_ "player_show" own;
        field_ "player_open" (borrowed ++ own); field_ "origin" (str_int (m_from item))] in
  if negb (fld type_of "syuntsu" =? 0) then call "CHI"
  else if negb (fld type_of "koutsu" =? 0) then call "PENG "
  else if negb (fld type_of "chakan" =? 0) then call "GANG"
  else if negb (fld type_of "nuki" =? 0) then
    do ts <- tile_strs self_tile; do s <- py_nth ts 0;
    Ok [field_ "event_type" (t_ "KITA"); field_ "player" player; field_ "player_show" s; field_ "player_open" s]
  else
    match borrow_tile with
    | [] => do own <- tile_texts self_tile;
            Ok [field_ "event_type" (t_ "ANGANG"); field_ "player" player; field_ "player_show" own;
                field_ "player_open" own; field_ "origin" (str_int (m_from item))]
    | _ :: _ => call "MINGGANG"
    end.

(** event.py 223-247. *)
Definition other_rows (e : event) : res (list row) :=
  do reach <- (if is_richii e then
                 do player <- attr e (t_ "who"); do status <- attr e (t_ "step");
                 if text_eqb status (t_ "1") then Ok (Some [[field_ "event_type" (t_ "CALLRICHI"); field_ "player" player]])
                 else if text_eqb status (t_ "2") then
                   Ok (Some [[field_ "event_type" (t_ "RICHI"); field_ "player" player];
                             [field_ "event_type" (t_ "SCORE"); field_ "player" player; field_ "score" (t_ "-1000")]])
                 else Ok None
               else Ok None);
  match reach with
  | Some rows => Ok rows
  | None =>
    if is_dora_indicator_event e then
      do hai <- attr e (t_ "hai"); do n <- py_int hai; do t <- tile_from_tenhou n;
      Ok [[field_ "event_type" (t_ "DORA"); field_ "player" (t_ "0"); (t_ "player_see", PTile t); (t_ "player_show", PTile t)]]
    else if is_somebody_win_game e then
      do player <- attr e (t_ "who"); do loser <- attr e (t_ "fromWho");
      do ten <- attr e (t_ "ten"); do l <- number_list ten; do _ <- py_nth l 1;
      Ok [[field_ "event_type" (t_ "WIN"); field_ "player" player; field_ "origin" loser]]
    else if is_nobody_win_game e then
      do origin <- match lookup (t_ "type") (attrib e) with
                   | Some t => match lookup t DRAWN_TYPES with Some r => Ok r | None => Err KeyError end
                   | None => Ok []
                   end;
      Ok [[field_ "event_type" (t_ "EVEN"); field_ "origin" origin]]
    else Ok []
  end.

(** event.py 152-247 [TenhouEvent.to_paifu]. *)
Definition event_paifu (set_order : list Z -> list Z) (e : event) : res (list row) :=
  if has_tag e "INIT" then init_rows e
  else match tile_change DRAW_INDICATOR e with
  | Some (player, n) => do s <- one_tile n;
      Ok [[field_ "event_type" (t_ "DRAW"); field_ "player" (str_int player); field_ "player_see" s]]
  | None =>
    match tile_change DISCARD_INDICATOR e with
    | Some (player, n) => do s <- one_tile n;
        Ok [[field_ "event_type" (t_ "DISCARD"); field_ "player" (str_int player); field_ "player_show" s]]
    | None => if is_open_hand e then do r <- open_row set_order e; Ok [r] else other_rows e
    end
  end.

(** reader.py 70-71 [game_index]: the category of 65-68 has [play_wind_count() + 1] winds of
    four deals. Simplified: a first seed with a fraction, for which Python would compute
    with floats, is rejected with ValueError. *)
Definition game_index (gt : game_type) (g : game) : res (Z * Z) :=
  do s <- py_nth (g_seeds g) 0; do n <- as_int s;
  do c <- new_subcat [play_wind_count gt + 1; 4];
  do l <- sub_category c n;
  match l with [prevailing; index] => Ok (prevailing, index) | _ => Err ValueError end.
(** 73-74 [sub_game_index]. *)
Definition sub_game_index (g : game) : res num := py_nth (g_seeds g) 1.

(** reader.py 115-123 [TenhouGame.to_paifu]. *)
Definition game_str (gt : game_type) (g : game) : res text :=
  do pi <- game_index gt g;
  do w <- py_nth (t_ "ESWN") (fst pi);
  do sub <- sub_game_index g;
  Ok ([w] ++ t_ "-" ++ str_int (snd pi + 1) ++ t_ "-" ++ num_repr sub).
(** [i['game_str'] = game_str] on a row without that key. *)
Definition with_game_str (s : text) (r : row) : row := r ++ [(t_ "game_str", PText s)].
Definition game_paifu (set_order : list Z -> list Z) (gt : game_type) (g : game) : res (list row) :=
  do s <- game_str gt g;
  do rows <- mapM (event_paifu set_order) (g_events g);
  Ok (map (with_game_str s) (concat rows)).

(** reader.py 182-186: one final row. *)
Definition fin_row (r : record) (event_type : string) (p : Z) : res row :=
  do s <- py_nth (r_end_score r) p;
  Ok [field_ "event_type" (t_ event_type); field_ "player" (str_int p); field_ "score" (num_repr (num_scale s 100))].
(** reader.py 178-190 [TenhouRecord.to_paifu]. *)
Definition record_paifu (set_order : list Z -> list Z) (r : record) : res (list row) :=
  do rows <- mapM (game_paifu set_order (r_type r)) (r_games r);
  do f1 <- fin_row r "FIN1" 0; do f2 <- fin_row r "FIN2" 1; do f3 <- fin_row r "FIN3" 2;
  if (length (r_players r) =? 4)%nat then do f4 <- fin_row r "FIN4" 3; Ok (concat rows ++ [f1; f2; f3; f4])
  else Ok (concat rows ++ [f1; f2; f3]).
