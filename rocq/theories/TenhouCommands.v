(** Model of mahjong/record/universe/tenhou/event_definition.py and the tables of
    utils/constant.py it uses. Calls [cmd(...)] of the Builder are written with the fields
    they resolve to (Builder.v models the resolution). Log messages are not modelled. *)
From Verif Require Import Base Category Tile Parse Text Tenhou Event Const Reader Value Universe Translator.
From Coq Require Import String List ZArith Lia Bool.
Import ListNotations.
Open Scope list_scope.
Open Scope Z_scope.

(** constant.py 13-35 [RANKS]. *)
Definition RANKS : list text :=
  [[26032; 20154];
   [57; 32026];
   [56; 32026];
   [55; 32026];
   [54; 32026];
   [53; 32026];
   [52; 32026];
   [51; 32026];
   [50; 32026];
   [49; 32026];
   [21021; 27573];
   [20108; 27573];
   [19977; 27573];
   [22235; 27573];
   [20116; 27573];
   [20845; 27573];
   [19971; 27573];
   [20843; 27573];
   [20061; 27573];
   [21313; 27573];
   [22825; 40179; 20301]].
(** constant.py 36-43 [DRAWN_TYPES]. *)
Definition DRAWN_TYPES : list (text * text) :=
  [(t_ "kaze4", [22235; 39080; 36899; 25171]);
   (t_ "yao9", [20061; 31278; 20061; 29260]);
   (t_ "ron3", [19977; 23478; 21644; 20102]);
   (t_ "reach4", [22235; 23478; 31435; 30452]);
   (t_ "kan4", [22235; 27091; 25955; 20102]);
   (t_ "nm", [27969; 23616; 28415; 36011])].
(** constant.py 45-113 [SCORE_PATTERN]. *)
Definition SCORE_PATTERN : list text :=
  [[38272; 21069; 28165; 33258; 25720; 21644];
   [31435; 30452];
   [19968; 30330];
   [27085; 27091];
   [23994; 19978; 38283; 33457];
   [28023; 24213; 25720; 26376];
   [27827; 24213; 25736; 39770];
   [24179; 21644];
   [26029; 24186; 20061];
   [19968; 30403; 21475];
   [33258; 39080; 32; 26481];
   [33258; 39080; 32; 21335];
   [33258; 39080; 32; 35199];
   [33258; 39080; 32; 21271];
   [22580; 39080; 32; 26481];
   [22580; 39080; 32; 21335];
   [22580; 39080; 32; 35199];
   [22580; 39080; 32; 21271];
   [24441; 29260; 32; 30333];
   [24441; 29260; 32; 30332];
   [24441; 29260; 32; 20013];
   [20001; 31435; 30452];
   [19971; 23550; 23376];
   [28151; 20840; 24111; 24186; 20061];
   [19968; 27671; 36890; 36011];
   [19977; 33394; 21516; 38918];
   [19977; 33394; 21516; 21051];
   [19977; 27091; 23376];
   [23550; 12293; 21644];
   [19977; 26263; 21051];
   [23567; 19977; 20803];
   [28151; 32769; 38957];
   [20108; 30403; 21475];
   [32020; 20840; 24111; 24186; 20061];
   [28151; 19968; 33394];
   [28165; 19968; 33394];
   [20154; 21644];
   [22825; 21644];
   [22320; 21644];
   [22823; 19977; 20803];
   [22235; 26263; 21051];
   [22235; 26263; 21051; 21336; 39438];
   [23383; 19968; 33394];
   [32209; 19968; 33394];
   [28165; 32769; 38957];
   [20061; 34030; 23453; 29128];
   [32020; 27491; 20061; 34030; 23453; 29128];
   [22269; 22763; 28961; 21452];
   [22269; 22763; 28961; 21452; 65297; 65299; 38754];
   [22823; 22235; 21916];
   [23567; 22235; 21916];
   [22235; 27091; 23376];
   [12489; 12521];
   [35023; 12489; 12521];
   [36196; 12489; 12521]].

Section Definitions.
(** [unquote]: urllib.parse.unquote, of which nothing is assumed.
    [set_order]: the order in which Python iterates a set of integers; theorems only use
    that it is a rearrangement. *)
Context (unquote : text -> text) (set_order : list Z -> list Z).

(** A command as made by the handlers: state and timestamp are set later. *)
Definition cmd (p : view) (u : update) (s : sub) (v : val) (ev : option etype) : command := mkCmd p u s v None VNone ev.

(** 21-25 [tile_str_list] of integers. *)
Definition tile_strs (l : list Z) : res (list text) := mapM (fun x => do t <- tile_from_tenhou x; Ok (tile_str t)) l.
Definition texts (l : list text) : val := VList (map VStr l).
Definition tile_str_list (l : list Z) : res val := do ts <- tile_strs l; Ok (texts ts).

(** ctx[("all", RecordView.player_count)], used as the argument of [range]. *)
Definition ctx_player_count (x : ctx) : res Z :=
  match iget (x_vals x) (sub_all, RV_player_count) with
  | None => Err KeyError
  | Some (VNum (NInt n)) => Ok n
  | Some (VBool b) => Ok (if b then 1 else 0)
  | Some _ => Err TypeError
  end.
(** The entries (player, "_right_most_tile_int"). *)
Fixpoint rget (l : list (Z * option Z)) (p : Z) : option (option Z) :=
  match l with [] => None | (q, t) :: r => if q =? p then Some t else rget r p end.
Fixpoint rput (l : list (Z * option Z)) (p : Z) (t : option Z) : list (Z * option Z) :=
  match l with [] => [(p, t)] | (q, t') :: r => if q =? p then (q, t) :: r else (q, t') :: rput r p t end.
Definition set_right (x : ctx) (p : Z) (t : option Z) : ctx := mkCtx (x_vals x) (x_indexer x) (rput (x_right x) p t).

(** 118-135 [hand_update], with the update method and the player in force. *)
Definition hand_update (u : update) (player_id : Z) (hand_raw : list Z) (x : ctx) : res (list command * ctx) :=
  let current := match rget (x_right x) player_id with Some t => t | None => None end in
  do nt <- (match u with
            | U_ADD => match hand_raw with [t] => Ok (Some t) | _ => Err AssertionError end
            | U_REMOVE => Ok None
            | U_REPLACE => Ok None
            | _ => Ok current
            end);
  let first := match u with
               | U_REPLACE => [cmd PV_discard_from_hand U_RESET_DEFAULT (SId player_id) VNone None]
               | _ => []
               end in
  do v <- tile_str_list hand_raw;
  Ok (first ++ [cmd PV_hand u (SId player_id) v None], set_right x player_id nt).

(** 45-52 [draw_command]. *)
Definition draw_command : handler := default_event_type E_draw (fun e x =>
  match tile_change DRAW_INDICATOR e with
  | None => Ok ([], x)
  | Some (player, tile) => hand_update U_ADD player [tile] x
  end).

(** 55-74 [discard_command]. *)
Definition opt_Z_eqb (a : Z) (b : option Z) : bool := match b with Some z => a =? z | None => false end.
Definition discard_command : handler := default_event_type E_discard (fun e x =>
  match tile_change DISCARD_INDICATOR e with
  | None => Ok ([], x)
  | Some (player_id, tile_raw) =>
    do value <- tile_str_list [tile_raw];
    do draw_tile <- (match rget (x_right x) player_id with Some t => Ok t | None => Err KeyError end);
    do h <- hand_update U_REMOVE player_id [tile_raw] x;
    Ok ([cmd PV_round U_ADD (SId player_id) (VInt 1) None;
         cmd PV_discard_from_hand U_ADD (SId player_id) (VList [VBool (negb (opt_Z_eqb tile_raw draw_tile))]) None]
        ++ fst h ++
        [cmd PV_discard_tiles U_ADD (SId player_id) value None], snd h)
  end).

(** 112-115 [set_oya_command_yield]. *)
Definition set_oya_command_yield (x : ctx) (oya_index : Z) : res (list command) :=
  do n <- ctx_player_count x;
  Ok (map (fun p_id => cmd PV_is_dealer U_REPLACE (SId p_id) (VBool (oya_index =? p_id)) None) (zrange 0 n)).

(** 77-109 [game_init_command]. *)
Definition num_int (n : num) : res Z := as_int n.
Definition init_player (e : event) (player_id : Z) (x : ctx) : res (list command * ctx) :=
  let s := SId player_id in
  do ten <- attr e (t_ "ten"); do score_all <- number_list ten;
  do hand_text <- attr e (t_ "hai" ++ str_int player_id);
  do hand_raw <- int_list hand_text;
  do h <- hand_update U_REPLACE player_id hand_raw x;
  do score <- py_nth score_all player_id;
  Ok ([cmd PV_discard_tiles U_RESET_DEFAULT s VNone None; cmd PV_fixed_meld U_RESET_DEFAULT s VNone None;
       cmd PV_meld_public_tiles U_RESET_DEFAULT s VNone None; cmd PV_bonus_tiles U_RESET_DEFAULT s VNone None;
       cmd PV_round U_RESET_DEFAULT s VNone None; cmd PV_in_richii U_REPLACE s (VBool false) None]
      ++ fst h ++
      [cmd PV_score U_ASSERT_EQUAL_OR_SET s (VNum (num_scale score 100)) None], snd h).
Fixpoint init_players (e : event) (players : list Z) (x : ctx) : res (list command * ctx) :=
  match players with
  | [] => Ok ([], x)
  | p :: r => do a <- init_player e p x; do b <- init_players e r (snd a); Ok (fst a ++ fst b, snd b)
  end.
Definition game_init_command : handler := default_event_type E_game_init (fun e x =>
  do s <- attr e (t_ "seed"); do seed <- number_list s;
  do game_indexer <- (match x_indexer x with Some c => Ok c | None => Err KeyError end);
  do sub_game <- py_nth seed 1;
  do richii_counts <- py_nth seed 2;
  do initial_dora <- py_nth seed (-1);
  do seed0 <- py_nth seed 0; do i0 <- num_int seed0;
  do cat <- sub_category game_indexer i0;
  match cat with
  | [prevailing; game_index] =>
    do o <- attr e (t_ "oya"); do oya_index <- py_int o;
    do oyas <- set_oya_command_yield x oya_index;
    do d <- num_int initial_dora; do dora <- tile_str_list [d];
    do n <- ctx_player_count x;
    do ps <- init_players e (zrange 0 n) x;
    Ok ([cmd GV_wind U_REPLACE sub_all (VInt prevailing) None; cmd GV_round U_REPLACE sub_all (VInt game_index) None;
         cmd GV_sub_round U_REPLACE sub_all (VNum sub_game) None;
         cmd GV_richii_remain_scores U_REPLACE sub_all (VNum (num_scale richii_counts 1000)) None]
        ++ oyas ++ [cmd GV_dora_indicators U_REPLACE sub_all dora (Some E_new_dora)] ++ fst ps, snd ps)
  | _ => Err ValueError
  end).

(** 142-156 [open_hand]. *)
Definition open_hand : handler := default_event_type E_open_hand (fun e x =>
  do m <- meld_from e;
  do w <- attr e (t_ "who"); do who <- py_int w;
  do own <- tile_str_list (set_order (m_self m));
  do meld_value <- tile_str_list (set_order (set_union (m_self m) (m_borrowed m)));
  do h <- hand_update U_REMOVE who (set_order (m_self m)) x;
  Ok ([cmd PV_meld_public_tiles U_ADD (SId who) own None;
       match m_class m with
       | CKita => cmd PV_bonus_tiles U_ADD (SId who) meld_value None
       | _ => cmd PV_fixed_meld U_ADD (SId who) (VList [meld_value]) None
       end] ++ fst h, snd h)).

(** 159-178 [game_type_command]; [if_value(...)[level]] of two texts of four characters. *)
Definition LEVELS_TIPS : text := [33509; 37504; 29733; 23380].
Definition LEVELS : text := [33324; 19978; 29305; 40179].
Definition game_type_command : handler := default_event_type E_record_init (fun e x =>
  do ty <- attr e (t_ "type"); do v <- py_int ty; do g <- new_game_type v;
  do indexer <- new_subcat [play_wind_count g + 1; 4];
  do level <- py_nth (if with_tips g then LEVELS_TIPS else LEVELS) (play_level g);
  let rep p v := cmd p U_REPLACE sub_all v None in
  Ok ([rep RV_play_level (VStr [level]);
       rep RV_show_discard_shadow (VBool (show_discard_shadow g));
       rep RV_play_wind_count (VInt (play_wind_count g));
       rep RV_allow_tanyao_open (VBool (allow_tanyao_open g));
       rep RV_speed_up (VBool (speed_up g));
       rep RV_player_count (VInt (player_count g));
       rep RV_using_tiles (texts (initial_tiles (player_count g) (has_aka_dora g)))],
      mkCtx (x_vals x) (Some indexer) (x_right x))).

(** 180-183 [set_oya_command]. *)
Definition set_oya_command : handler := default_event_type E_game_init (fun e x =>
  do o <- attr e (t_ "oya"); do oya <- py_int o;
  do l <- set_oya_command_yield x oya; Ok (l, x)).

(** 213-217 [get_list_attr]. *)
Definition get_list_attr (name : text) (e : event) : text :=
  match lookup name (attrib e) with Some v => v | None => t_ "-127,-127,-127,-127" end.
(** [s.strip() != ""]: some character is not white space. *)
Definition py_space (c : Z) : bool :=
  ((9 <=? c) && (c <=? 13)) || ((28 <=? c) && (c <=? 32)) || (c =? 133) || (c =? 160) || (c =? 5760) ||
  ((8192 <=? c) && (c <=? 8202)) || (c =? 8232) || (c =? 8233) || (c =? 8239) || (c =? 8287) || (c =? 12288).
Definition not_blank (s : text) : bool := existsb (fun c => negb (py_space c)) s.
(** 186-210 [set_player_command], one player; player.py 12-18 and 28-30. *)
Definition set_player (e : event) (dan rate : list num) (sex : list text) (player_id : Z) : res (list command) :=
  match lookup (t_ "n" ++ str_int player_id) (attrib e) with
  | None => Ok []
  | Some name =>
    if not_blank name then
      do level <- py_nth dan player_id; do r <- py_nth rate player_id; do _ <- py_nth sex player_id;
      do lv <- (if has_attr e (t_ "dan") then
                  match level with
                  | NInt i => do s <- py_nth RANKS i; Ok [cmd PV_level U_REPLACE (SId player_id) (VStr s) None]
                  | NDec _ _ => Err TypeError
                  end
                else Ok []);
      Ok ([cmd PV_disconnected U_REPLACE (SId player_id) (VBool false) (Some E_connect_change);
           cmd PV_name U_ASSERT_EQUAL_OR_SET (SId player_id) (VStr (unquote name)) None]
          ++ lv ++
          (if has_attr e (t_ "rate") then [cmd PV_extra_level U_REPLACE (SId player_id) (VNum r) None] else []))
    else Ok []
  end.
Definition set_player_command : handler := default_event_type E_record_init (fun e x =>
  do dan <- number_list (get_list_attr (t_ "dan") e);
  do rate <- number_list (get_list_attr (t_ "rate") e);
  let sex := split_on 44 (get_list_attr (t_ "sx") e) in
  do ls <- mapM (set_player e dan rate sex) [0; 1; 2; 3];
  Ok (concat ls, x)).

(** 220-227 [dora_command]. *)
Definition dora_command : handler := default_event_type E_new_dora (fun e x =>
  do h <- attr e (t_ "hai"); do l <- int_list h; do v <- tile_str_list l;
  Ok ([cmd GV_dora_indicators U_ADD sub_all v None], x)).

(** 230-239 [richii_command]. *)
Definition richii_command : handler := default_event_type E_richii (fun e x =>
  do w <- attr e (t_ "who"); do player_id <- py_int w;
  do step <- attr e (t_ "step");
  Ok (if text_eqb step (t_ "1") then [cmd PV_in_richii U_REPLACE (SId player_id) (VBool true) None]
      else if text_eqb step (t_ "2") then [cmd PV_score U_REMOVE (SId player_id) (VInt 1000) None]
      else [], x)).

(** 262-294 [game_finish]. A player of None is [math.nan], equal to nothing. *)
Definition id_eqb (a b : option Z) : bool := match a, b with Some x, Some y => x =? y | _, _ => false end.
Definition finish_player (sc_list : option (list num)) (from_player_id player_id : option Z) (yaku : list text) (p_id : Z) : res (list command) :=
  let s := SId p_id in
  do sc <- (match sc_list with
            | None => Ok []
            | Some l =>
              do a <- py_nth (every_other l) p_id;
              do b <- py_nth (every_other (tl l)) p_id;
              Ok [cmd PV_score U_ASSERT_EQUAL_OR_SET s (VNum (num_scale a 100)) None;
                  cmd PV_score U_ADD s (VNum (num_scale b 100)) None]
            end);
  let win := id_eqb player_id (Some p_id) in
  let self_win := id_eqb player_id from_player_id in
  let discard_lose := negb self_win && id_eqb (Some p_id) from_player_id in
  let participated := self_win || discard_lose || win in
  Ok (sc ++ [cmd PV_is_win U_REPLACE s (VBool win) None; cmd PV_is_self_win U_REPLACE s (VBool self_win) None;
             cmd PV_is_discard_lose_game U_REPLACE s (VBool discard_lose) None;
             cmd PV_faans U_REPLACE s (texts (if participated then yaku else [])) None]).
(** Sorting of the pairs (-score, pid): tuples in lexicographic order. *)
Definition rank_leb (a b : num * Z) : bool :=
  num_ltb (fst a) (fst b) || (num_eqb (fst a) (fst b) && (snd a <=? snd b)).
Fixpoint insert_rank (a : num * Z) (l : list (num * Z)) : list (num * Z) :=
  match l with [] => [a] | b :: r => if rank_leb a b then a :: l else b :: insert_rank a r end.
Definition sort_ranks (l : list (num * Z)) : list (num * Z) := fold_right insert_rank [] l.
Fixpoint enumerate {A} (i : Z) (l : list A) : list (Z * A) :=
  match l with [] => [] | a :: r => (i, a) :: enumerate (i + 1) r end.
Fixpoint zget {A} (l : list (Z * A)) (k : Z) : res A :=
  match l with [] => Err KeyError | (k', v) :: r => if k' =? k then Ok v else zget r k end.
(** 284-289: the final scores, points and the map from players to ranks. *)
Definition final_scores (finals : list num) : list num := map (fun n => num_scale n 100) (every_other finals).
Definition player_rank_map (player_count : Z) (scores : list num) : list (Z * Z) :=
  let player_ranks := map (fun ps => (num_neg (snd ps), fst ps)) (enumerate 0 (firstn (Z.to_nat player_count) scores)) in
  map (fun rp => (snd (snd rp), fst rp + 1)) (enumerate 0 (sort_ranks player_ranks)).
Definition finals_commands (e : event) (player_count : Z) : res (list command) :=
  match lookup (t_ "owari") (attrib e) with
  | None => Ok []
  | Some o =>
    do finals <- number_list o;
    let scores := final_scores finals in
    let points := every_other (tl finals) in
    let ranks := player_rank_map player_count scores in
    do ls <- mapM (fun p_id =>
        do s <- py_nth scores p_id; do pt <- py_nth points p_id; do rk <- zget ranks p_id;
        let ev := Some E_record_finish in
        Ok [cmd PV_final_score U_REPLACE (SId p_id) (VNum s) ev; cmd PV_final_point U_REPLACE (SId p_id) (VNum pt) ev;
            cmd PV_rank U_REPLACE (SId p_id) (VInt rk) ev]) (zrange 0 player_count);
    Ok (concat ls)
  end.
Definition game_finish (x : ctx) (from_player_id player_id : option Z) (sc_list : option (list num)) (yaku : list text) (e : event) : res (list command) :=
  do n <- ctx_player_count x;
  do ps <- mapM (finish_player sc_list from_player_id player_id yaku) (zrange 0 n);
  do fs <- finals_commands e n;
  Ok (concat ps ++ fs).

(** [l.remove(x)] of texts. *)
Fixpoint text_remove (l : list text) (x : text) : res (list text) :=
  match l with [] => Err ValueError | y :: r => if text_eqb y x then Ok r else do r' <- text_remove r x; Ok (y :: r') end.
(** 138-139 [_not_fully_support] of a win: the message contains the text of the event, so that has to
    be made (event.py 109-112 and 136-141). For the other caller (INIT) that text is a constant and the element. *)
Definition logged_win (e : event) : res unit :=
  do _ <- attr e (t_ "who"); do _ <- attr e (t_ "fromWho");
  do ten <- attr e (t_ "ten"); do l <- number_list ten; do _ <- py_nth l 1; Ok tt.
(** 242-259 [agari_command]. *)
Definition agari_command : handler := default_event_type E_game_finish (fun e x =>
  do _ <- logged_win e;
  do w <- attr e (t_ "who"); do player_id <- py_int w;
  do f <- attr e (t_ "fromWho"); do from_player_id <- py_int f;
  do sc <- attr e (t_ "sc"); do sc_list <- number_list sc;
  do hai <- attr e (t_ "hai"); do hl <- int_list hai; do hand <- tile_strs hl;
  do expected_hand <- (if player_id =? from_player_id then Ok hand
                       else do m <- attr e (t_ "machi"); do ml <- int_list m; do ms <- tile_strs ml;
                            do m0 <- py_nth ms 0; text_remove hand m0);
  do yaku_text <- (match lookup (t_ "yaku") (attrib e) with
                   | Some y => Ok y
                   | None => match lookup (t_ "yakuman") (attrib e) with Some y => Ok y | None => Err AttributeError end
                   end);
  do yaku_nums <- number_list yaku_text;
  do yaku <- mapM (fun t => match t with NInt i => py_nth SCORE_PATTERN i | NDec _ _ => Err TypeError end) yaku_nums;
  do rest <- game_finish x (Some from_player_id) (Some player_id) (Some sc_list) yaku e;
  Ok ([cmd PV_hand U_ASSERT_EQUAL_OR_SET (SId player_id) (texts expected_hand) None;
       cmd GV_nobody_win U_REPLACE sub_all (VBool false) None] ++ rest, x)).

(** 297-304 [shuffle_command]. *)
Definition shuffle_command : handler := default_event_type E_record_init (fun e x =>
  do s <- attr e (t_ "seed"); Ok ([cmd RV_seed U_REPLACE sub_all (VStr s) None], x)).
(** 307-315 [disconnected_command]. *)
Definition disconnected_command : handler := default_event_type E_connect_change (fun e x =>
  do w <- attr e (t_ "who"); do who <- py_int w;
  Ok ([cmd PV_disconnected U_REPLACE (SId who) (VBool true) None], x)).
(** 318-328 [no_win_command]. *)
Definition no_win_command : handler := default_event_type E_game_finish (fun e x =>
  do reason <- (match lookup (t_ "type") (attrib e) with
                | Some t => match lookup t DRAWN_TYPES with Some r => Ok r | None => Err KeyError end
                | None => Ok (t_ "EXHAUSTED")
                end);
  do sc_list <- (match lookup (t_ "sc") (attrib e) with Some s => do l <- number_list s; Ok (Some l) | None => Ok None end);
  do rest <- game_finish x None None sc_list [] e;
  Ok ([cmd GV_nobody_win U_REPLACE sub_all (VBool true) None; cmd GV_extra_reason U_REPLACE sub_all (VStr reason) None] ++ rest, x)).

(** The registrations, in the order of the file. *)
Definition tenhou_command : translator :=
  match_name (t_ "RYUUKYOKU") no_win_command (
  match_name (t_ "BYE") disconnected_command (
  match_name (t_ "SHUFFLE") shuffle_command (
  match_name (t_ "AGARI") agari_command (
  match_name (t_ "REACH") richii_command (
  match_name (t_ "DORA") dora_command (
  match_name (t_ "UN") set_player_command (
  match_name (t_ "TAIKYOKU") set_oya_command (
  match_name (t_ "GO") game_type_command (
  match_name (t_ "N") open_hand (
  match_name (t_ "INIT") game_init_command (
  default_event discard_command (
  default_event draw_command new_translator)))))))))))).
End Definitions.
