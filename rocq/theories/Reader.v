(** Model of mahjong/record/reader.py 42-68 and 126-160: a record is split into deals. *)
From Verif Require Import Base Category Tile Parse Text Tenhou Event Stage.
From Coq Require Import String List ZArith Lia Bool.
Import ListNotations.
Open Scope list_scope.
Open Scope Z_scope.

(** 42-43. *)
Definition is_game_end (e : event) : bool := is_somebody_win_game e || is_nobody_win_game e.

(** A Namespace of Namespaces: tag, then attributes. [setattr] replaces. *)
Definition config := list (text * list (text * text)).
Fixpoint setattr (c : config) (k : text) (v : list (text * text)) : config :=
  match c with
  | [] => [(k, v)]
  | (k', v') :: r => if text_eqb k' k then (k, v) :: r else (k', v') :: setattr r k v
  end.
(** [namespace.TAG.name]; AttributeError if either is missing. *)
Fixpoint get_config (c : config) (k : text) : option (list (text * text)) :=
  match c with [] => None | (k', v) :: r => if text_eqb k' k then Some v else get_config r k end.
Definition config_attr (c : config) (k name : text) : res text :=
  match get_config c k with
  | Some l => match lookup name l with Some v => Ok v | None => Err AttributeError end
  | None => Err AttributeError
  end.

(** 126-132. *)
Definition xml_message_config_scan (c : config) (e : event) : config := setattr c (tag e) (attrib e).
Definition list_of_xml_configs (l : list event) : config := fold_left xml_message_config_scan (rev l) [].

(** 46-68 [TenhouGame.__init__]; the methods read these fields. *)
Record game := mkGame {
  g_events : list event; g_playing : list event; g_end_events : list event;
  g_seeds : list num; g_east : Z }.
(** [next(i for (i, x) in enumerate(l) if is_game_end(x))]. *)
Fixpoint first_end_index (l : list event) : res nat :=
  match l with
  | [] => Err StopIteration
  | e :: r => if is_game_end e then Ok 0%nat else do i <- first_end_index r; Ok (S i)
  end.
Definition new_game (game_events : list event) : res game :=
  match game_events with
  | [] => Err ValueError
  | init :: playing =>
    do i <- first_end_index playing;
    let end_ := filter is_game_end (skipn i playing) in
    let meta := list_of_xml_configs [init] in
    do s <- config_attr meta (t_ "INIT") (t_ "seed"); do seeds <- number_list s;
    do o <- config_attr meta (t_ "INIT") (t_ "oya"); do east <- py_int o;
    Ok (mkGame game_events playing end_ seeds east)
  end.

(** 145-156 players: index, encoded name ([player_name] of Url.v unquotes it), level, rate, sex. *)
Record player := mkPlayer { pl_index : Z; pl_name : text; pl_level : num; pl_rate : num; pl_sex : text }.
Fixpoint zip_players (i : Z) (n : nat) (names : list text) (dan rate : list num) (sx : list text) : list player :=
  match n, names, dan, rate, sx with
  | S n', a :: names', d :: dan', r :: rate', s :: sx' => mkPlayer i a d r s :: zip_players (i + 1) n' names' dan' rate' sx'
  | _, _, _, _, _ => []
  end.
(** [l[i::2]]. *)
Fixpoint every_other {A} (l : list A) : list A :=
  match l with x :: _ :: r => x :: every_other r | [x] => [x] | [] => [] end.

(** mahjong/record/utils/event.py 84-95 [TenhouEvent.__init__]: the tile of a draw or a
    discard is looked up at once. *)
Definition new_event (e : event) : res event :=
  do _ <- match tile_change DRAW_INDICATOR e with Some (_, n) => do t <- tile_from_tenhou n; Ok (Some t) | None => Ok None end;
  do _ <- match tile_change DISCARD_INDICATOR e with Some (_, n) => do t <- tile_from_tenhou n; Ok (Some t) | None => Ok None end;
  Ok e.

(** 135-160 [TenhouRecord.__init__]. *)
Record record := mkRecord {
  r_events : list event; r_meta : config; r_type : game_type; r_players : list player; r_games : list game;
  r_end_score : list num; r_end_point : list num }.
Definition event_groups (events : list event) : res (list (list event)) :=
  do kgs <- consume Bool.eqb is_game_init [true; false] (S (2 * length events)) (start events);
  Ok (map snd kgs).
Definition read_events (events : list event) : res record :=
  do gs <- event_groups events;
  match gs with
  | [] => Err ValueError
  | head_events :: game_chunks =>
    let meta := list_of_xml_configs head_events in
    match rev events with
    | [] => Err IndexError
    | end_event :: _ =>
      do ty <- config_attr meta (t_ "GO") (t_ "type"); do tv <- py_int ty;
      do gt <- new_game_type tv;
      do names <- mapM (config_attr meta (t_ "UN")) [t_ "n0"; t_ "n1"; t_ "n2"; t_ "n3"];
      do dan_ <- config_attr meta (t_ "UN") (t_ "dan"); do dan <- number_list dan_;
      do rate_ <- config_attr meta (t_ "UN") (t_ "rate"); do rate <- number_list rate_;
      do sx <- config_attr meta (t_ "UN") (t_ "sx");
      do games <- mapM new_game game_chunks;
      do ow <- attr end_event (t_ "owari"); do end_infos <- number_list ow;
      Ok (mkRecord events meta gt
            (zip_players 0 (Z.to_nat (player_count gt)) names dan rate (split_on 44 sx)) games
            (every_other end_infos) (every_other (tl end_infos)))
    end
  end.
Definition new_record (elements : list event) : res record :=
  do events <- mapM new_event elements; read_events events.
