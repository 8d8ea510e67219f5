(** Model of mahjong/record/utils/event.py 13-63, player.py and the regular expressions
    of utils/constant.py. *)
From Verif Require Import Base Category Tile Parse Text Tenhou.
From Coq Require Import String List ZArith Lia Bool.
Import ListNotations.
Open Scope list_scope.
Open Scope Z_scope.

(** An XML element: its tag and its attributes (xml.etree.ElementTree.Element; children
    and text are not used by the program). *)
Record event := mkEvent { tag : text; attrib : list (text * text) }.

(** [name in event.attrib] and [event.attrib[name]]. *)
Fixpoint lookup (name : text) (l : list (text * text)) : option text :=
  match l with
  | [] => None
  | (k, v) :: r => if text_eqb k name then Some v else lookup name r
  end.
Definition has_attr (e : event) (name : text) : bool := match lookup name (attrib e) with Some _ => true | None => false end.
Definition attr (e : event) (name : text) : res text :=
  match lookup name (attrib e) with Some v => Ok v | None => Err KeyError end.

(** event.py 13-34. *)
Definition has_tag (e : event) (s : string) : bool := text_eqb (tag e) (t_ s).
Definition is_game_init (e : event) : bool := has_tag e "INIT".
Definition is_open_hand (e : event) : bool := has_tag e "N".
Definition is_dora_indicator_event (e : event) : bool := has_tag e "DORA".
Definition is_richii (e : event) : bool := has_tag e "REACH".
Definition is_somebody_win_game (e : event) : bool := has_tag e "AGARI".
Definition is_nobody_win_game (e : event) : bool := has_tag e "RYUUKYOKU".

(** The maximal run of ASCII digits at the start of a text. *)
Fixpoint span_digits (s : text) : text * text :=
  match s with
  | c :: r => if ch_digit c then let (a, b) := span_digits r in (c :: a, b) else ([], s)
  | [] => ([], [])
  end.

(** constant.py 5 and 8: letters T U V W and D E F G. *)
Definition DRAW_INDICATOR : list Z := [84; 85; 86; 87].
Definition DISCARD_INDICATOR : list Z := [68; 69; 70; 71].

(** constant.py 114-115: [^T([0-9]+)] applied with [match]: the digits of group 1. *)
Definition regex_prefix (letter : Z) (s : text) : option text :=
  match s with
  | c :: r => if c =? letter then
                match fst (span_digits r) with [] => None | ds => Some ds end
              else None
  | [] => None
  end.

(** constant.py 6-7, 9-10: [^([TUVW])([0-9]+)$]; [$] also matches before a final newline. *)
Definition regex_full (letters : list Z) (s : text) : option (Z * text) :=
  match s with
  | c :: r =>
    if mem c letters then
      match span_digits r with
      | ([], _) => None
      | (ds, []) => Some (c, ds)
      | (ds, [10]) => Some (c, ds)
      | _ => None
      end
    else None
  | [] => None
  end.

(** event.py 37-46 [draw_value], [discard_value]. *)
Definition draw_value (e : event) : option Z := option_map (fun m => digits_val (snd m)) (regex_full DRAW_INDICATOR (tag e)).
Definition discard_value (e : event) : option Z := option_map (fun m => digits_val (snd m)) (regex_full DISCARD_INDICATOR (tag e)).

(** [l.index(x)]. *)
Fixpoint index_of (x : Z) (l : list Z) : Z :=
  match l with [] => 0 | y :: r => if x =? y then 0 else 1 + index_of x r end.

(** event.py 49-63 [draw_tile_change], [discard_tile_change]: (player, tile number); the
    tile object of line 53 is made from the number with [tile_from_tenhou]. *)
Definition tile_change (letters : list Z) (e : event) : option (Z * Z) :=
  option_map (fun m => (index_of (fst m) letters, digits_val (snd m))) (regex_full letters (tag e)).

(** meld.py 367-381 [meld_from]. *)
Definition meld_from (e : event) : res meld :=
  do w <- attr e (t_ "who"); do who <- py_int w;
  do m <- attr e (t_ "m"); do v <- py_int m;
  meld_from_code who v.

(** player.py 7-8 [is_event_triggered_by_player]. *)
Definition triggered_by (e : event) (player_index : Z) (tag_name : string) : res bool :=
  if has_tag e tag_name then do w <- attr e (t_ "who"); do who <- py_int w; Ok (who =? player_index)
  else Ok false.

(** player.py 35-64; a player is its index. [DRAW_REGEX[self.index]] fails for an index
    beyond 3. *)
Definition draw_match (index : Z) (e : event) : res (option text) :=
  do l <- py_nth DRAW_INDICATOR index; Ok (regex_prefix l (tag e)).
Definition discard_match (index : Z) (e : event) : res (option text) :=
  do l <- py_nth DISCARD_INDICATOR index; Ok (regex_prefix l (tag e)).
Definition matched (m : option text) : bool := match m with Some _ => true | None => false end.
Definition is_draw (index : Z) (e : event) : res bool := do m <- draw_match index e; Ok (matched m).
Definition is_discard (index : Z) (e : event) : res bool := do m <- discard_match index e; Ok (matched m).
Definition draw_tile_index (index : Z) (e : event) : res Z :=
  do m <- draw_match index e; match m with Some ds => Ok (digits_val ds) | None => Err AttributeError end.
Definition discard_tile_index (index : Z) (e : event) : res Z :=
  do m <- discard_match index e; match m with Some ds => Ok (digits_val ds) | None => Err AttributeError end.
Definition player_open_hand (index : Z) (e : event) : res bool := triggered_by e index "N".
Definition player_reach (index : Z) (e : event) : res bool := triggered_by e index "REACH".
Definition player_win (index : Z) (e : event) : res bool := triggered_by e index "AGARI".
