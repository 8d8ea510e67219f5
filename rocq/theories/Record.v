(** Model of command.py 11-16, 52-56, 104-151: commands as records of texts. *)
From Verif Require Import Base Parse Text Value Json Transfer Universe.
From Coq Require Import String List ZArith Lia Bool.
Import ListNotations.
Open Scope list_scope.
Open Scope Z_scope.

(** The [name] of the enum members (format.py 12-15, 94-161, 174-180, 206-216). *)
Definition scope_name (s : scope) : text :=
  match s with SGame => t_ "game" | SPlayer => t_ "player" | SRecord => t_ "record" end.
Definition view_name (v : view) : text :=
  match v with
  | RV_player_count => t_ "player_count" | RV_play_level => t_ "play_level" | RV_has_aka_dora => t_ "has_aka_dora"
  | RV_speed_up => t_ "speed_up" | RV_allow_tanyao_open => t_ "allow_tanyao_open"
  | RV_play_wind_count => t_ "play_wind_count" | RV_show_discard_shadow => t_ "show_discard_shadow"
  | RV_seed => t_ "seed" | RV_using_tiles => t_ "using_tiles"
  | GV_wind => t_ "wind" | GV_round => t_ "round" | GV_sub_round => t_ "sub_round"
  | GV_dora_indicators => t_ "dora_indicators" | GV_richii_remain_scores => t_ "richii_remain_scores"
  | GV_dealer => t_ "dealer" | GV_nobody_win => t_ "nobody_win" | GV_extra_reason => t_ "extra_reason"
  | PV_name => t_ "name" | PV_level => t_ "level" | PV_extra_level => t_ "extra_level" | PV_hand => t_ "hand"
  | PV_in_richii => t_ "in_richii" | PV_discard_tiles => t_ "discard_tiles"
  | PV_discard_from_hand => t_ "discard_from_hand" | PV_fixed_meld => t_ "fixed_meld"
  | PV_meld_public_tiles => t_ "meld_public_tiles" | PV_score => t_ "score" | PV_bonus_tiles => t_ "bonus_tiles"
  | PV_round => t_ "round" | PV_disconnected => t_ "disconnected" | PV_is_dealer => t_ "is_dealer"
  | PV_is_win => t_ "is_win" | PV_is_self_win => t_ "is_self_win"
  | PV_is_discard_lose_game => t_ "is_discard_lose_game" | PV_faans => t_ "faans" | PV_rank => t_ "rank"
  | PV_final_score => t_ "final_score" | PV_final_point => t_ "final_point"
  end.
Definition update_name (u : update) : text :=
  match u with
  | U_REPLACE => t_ "REPLACE" | U_CLEAR => t_ "CLEAR" | U_ADD => t_ "ADD" | U_REMOVE => t_ "REMOVE"
  | U_RESET_DEFAULT => t_ "RESET_DEFAULT" | U_ASSERT_EQUAL_OR_SET => t_ "ASSERT_EQUAL_OR_SET"
  end.
Definition event_name (e : etype) : text :=
  match e with
  | E_record_init => t_ "record_init" | E_game_init => t_ "game_init" | E_draw => t_ "draw" | E_discard => t_ "discard"
  | E_open_hand => t_ "open_hand" | E_new_dora => t_ "new_dora" | E_richii => t_ "richii"
  | E_connect_change => t_ "connect_change" | E_game_finish => t_ "game_finish" | E_record_finish => t_ "record_finish"
  end.
Definition all_scopes : list scope := [SGame; SPlayer; SRecord].
Definition all_views : list view :=
  [RV_player_count; RV_play_level; RV_has_aka_dora; RV_speed_up; RV_allow_tanyao_open; RV_play_wind_count;
   RV_show_discard_shadow; RV_seed; RV_using_tiles;
   GV_wind; GV_round; GV_sub_round; GV_dora_indicators; GV_richii_remain_scores; GV_dealer; GV_nobody_win; GV_extra_reason;
   PV_name; PV_level; PV_extra_level; PV_hand; PV_in_richii; PV_discard_tiles; PV_discard_from_hand; PV_fixed_meld;
   PV_meld_public_tiles; PV_score; PV_bonus_tiles; PV_round; PV_disconnected; PV_is_dealer; PV_is_win; PV_is_self_win;
   PV_is_discard_lose_game; PV_faans; PV_rank; PV_final_score; PV_final_point].
Definition all_updates : list update := [U_REPLACE; U_CLEAR; U_ADD; U_REMOVE; U_RESET_DEFAULT; U_ASSERT_EQUAL_OR_SET].
Definition all_events : list etype :=
  [E_record_init; E_game_init; E_draw; E_discard; E_open_hand; E_new_dora; E_richii; E_connect_change; E_game_finish; E_record_finish].
(** [Enum[name]]: a KeyError if there is no such member. *)
Definition by_name {A} (name : A -> text) (members : list A) (n : text) : res A :=
  match find (fun x => text_eqb (name x) n) members with Some x => Ok x | None => Err KeyError end.
(** format.py 74-78 and command.py 142: [View.by_name(scope)[property]]. Simplified: the names
    [type__...] of the type groups, which Python finds as well, are refused. *)
Definition view_by_name (s p : text) : res view :=
  do sc <- by_name scope_name all_scopes s;
  by_name view_name (filter (fun v => scope_eqb (scope_of v) sc) all_views) p.

(** 45-48: a record. The value and the state are texts when it comes from [to_record]. *)
Record row := mkRow {
  r_time : option Z; r_event : option text; r_scope : text; r_sub : sub;
  r_prop : text; r_update : text; r_value : val; r_state : val }.
(** 52-55 [try_int]. Simplified: of the characters [isdigit] accepts only the ASCII digits are known. *)
Definition try_int (s : sub) : sub :=
  match s with
  | SText (c :: r) => if forallb ch_digit (c :: r) then SId (digits_val (c :: r)) else s
  | _ => s
  end.
(** 11-16 [norm_empty] of a timestamp: None stays None. *)
Definition norm_time (t : option Z) : option Z := t.
(** 128-138 [to_record]. *)
Definition to_record (c : command) : res row :=
  do v <- prop_call [c_value c] (c_prop c) M_to_str;
  do s <- prop_call [c_state c] (c_prop c) M_to_str;
  Ok (mkRow (c_time c) (option_map event_name (c_event c)) (scope_name (scope_of (c_prop c))) (c_sub c)
            (view_name (c_prop c)) (update_name (c_update c)) v s).
(** 140-151 [from_record]. *)
Definition from_record (r : row) : res command :=
  do view <- view_by_name (r_scope r) (r_prop r);
  do ev <- (match r_event r with None => Ok None | Some n => do e <- by_name event_name all_events n; Ok (Some e) end);
  do up <- by_name update_name all_updates (r_update r);
  do v <- prop_call [r_value r] view M_from_str;
  do s <- prop_call [r_state r] view M_from_str;
  Ok (mkCmd view up (try_int (r_sub r)) v (norm_time (r_time r)) s ev).
