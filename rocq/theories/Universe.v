(** Model of mahjong/record/universe/format.py, property_manager.py (the text
    conversions call Json.v), command.py, interpreter.py and executor.py. *)
From Verif Require Import Base Parse Text Value Json Transfer.
From Coq Require Import String List ZArith Lia Bool.
Import ListNotations.
Open Scope list_scope.
Open Scope Z_scope.

(** * format.py *)
(** 12-23 [ViewScope]. *)
Inductive scope := SGame | SPlayer | SRecord.
(** 94-161: the properties of [RecordView], [GameView] and [PlayerView]. *)
Inductive view :=
| RV_player_count | RV_play_level | RV_has_aka_dora | RV_speed_up | RV_allow_tanyao_open
| RV_play_wind_count | RV_show_discard_shadow | RV_seed | RV_using_tiles
| GV_wind | GV_round | GV_sub_round | GV_dora_indicators | GV_richii_remain_scores | GV_dealer
| GV_nobody_win | GV_extra_reason
| PV_name | PV_level | PV_extra_level | PV_hand | PV_in_richii | PV_discard_tiles
| PV_discard_from_hand | PV_fixed_meld | PV_meld_public_tiles | PV_score | PV_bonus_tiles
| PV_round | PV_disconnected | PV_is_dealer | PV_is_win | PV_is_self_win
| PV_is_discard_lose_game | PV_faans | PV_rank | PV_final_score | PV_final_point.
Definition view_eq_dec : forall a b : view, {a = b} + {a <> b}.
Proof. decide equality. Defined.
Definition view_eqb (a b : view) : bool := if view_eq_dec a b then true else false.
(** 35-39 [View.scope]. *)
Definition scope_of (v : view) : scope :=
  match v with
  | RV_player_count | RV_play_level | RV_has_aka_dora | RV_speed_up | RV_allow_tanyao_open
  | RV_play_wind_count | RV_show_discard_shadow | RV_seed | RV_using_tiles => SRecord
  | GV_wind | GV_round | GV_sub_round | GV_dora_indicators | GV_richii_remain_scores | GV_dealer
  | GV_nobody_win | GV_extra_reason => SGame
  | _ => SPlayer
  end.
(** 81-91 [ViewType]: flags; [int] and [list] are unions. *)
Inductive vtype := T_index | T_score | T_tiles | T_melds | T_str | T_bool | T_float | T_int | T_list.
Definition flag_bits (t : vtype) : Z :=
  match t with
  | T_index => 1 | T_score => 2 | T_tiles => 4 | T_melds => 8 | T_str => 16 | T_bool => 32 | T_float => 64
  | T_int => Z.lor 1 2 | T_list => Z.lor 4 8
  end.
(** [a in b] of flags. *)
Definition type_in (a b : vtype) : bool := Z.land (flag_bits a) (flag_bits b) =? flag_bits a.
(** 105-108, 120-125, 153-161: the [type__] members, in order. *)
Definition all_types (s : scope) : list (vtype * list view) :=
  match s with
  | SRecord => [(T_index, [RV_player_count; RV_play_wind_count]); (T_str, [RV_play_level; RV_seed]);
                (T_bool, [RV_has_aka_dora; RV_speed_up; RV_allow_tanyao_open; RV_show_discard_shadow]);
                (T_list, [RV_using_tiles])]
  | SGame => [(T_index, [GV_wind; GV_round; GV_sub_round; GV_dealer]); (T_score, [GV_richii_remain_scores]);
              (T_tiles, [GV_dora_indicators]); (T_bool, [GV_nobody_win]); (T_str, [GV_extra_reason])]
  | SPlayer => [(T_str, [PV_name; PV_level; PV_extra_level]); (T_index, [PV_round]); (T_int, [PV_rank]);
                (T_float, [PV_final_point]);
                (T_bool, [PV_is_dealer; PV_is_win; PV_is_self_win; PV_is_discard_lose_game; PV_in_richii; PV_disconnected]);
                (T_score, [PV_score; PV_final_score]);
                (T_tiles, [PV_hand; PV_discard_tiles; PV_meld_public_tiles; PV_bonus_tiles]);
                (T_melds, [PV_fixed_meld]); (T_list, [PV_discard_from_hand; PV_faans])]
  end.
(** 56-72 [View.type]. *)
Fixpoint find_type (l : list (vtype * list view)) (v : view) : res vtype :=
  match l with
  | [] => Err ValueError
  | (t, vs) :: r => if existsb (view_eqb v) vs then Ok t else find_type r v
  end.
Definition type_of (v : view) : res vtype := find_type (all_types (scope_of v)) v.
(** 174-180 [Update]. *)
Inductive update := U_REPLACE | U_CLEAR | U_ADD | U_REMOVE | U_RESET_DEFAULT | U_ASSERT_EQUAL_OR_SET.
Definition update_eqb (a b : update) : bool :=
  match a, b with
  | U_REPLACE, U_REPLACE | U_CLEAR, U_CLEAR | U_ADD, U_ADD | U_REMOVE, U_REMOVE
  | U_RESET_DEFAULT, U_RESET_DEFAULT | U_ASSERT_EQUAL_OR_SET, U_ASSERT_EQUAL_OR_SET => true
  | _, _ => false
  end.
(** 206-216 [EventType]. *)
Inductive etype := E_record_init | E_game_init | E_draw | E_discard | E_open_hand | E_new_dora | E_richii
| E_connect_change | E_game_finish | E_record_finish.

(** * property_manager.py *)
(** The methods functions are registered for: 8-13 [PropertyMethod], and [Update]. *)
Inductive pmethod := M_default_value | M_check_equal | M_to_str | M_from_str | M_update (u : update).
Definition method_eqb (a b : pmethod) : bool :=
  match a, b with
  | M_default_value, M_default_value | M_check_equal, M_check_equal | M_to_str, M_to_str | M_from_str, M_from_str => true
  | M_update x, M_update y => update_eqb x y
  | _, _ => false
  end.
(** Functions of no, of one and of two arguments (a wrong number of arguments is a TypeError). *)
Definition fun0 (v : val) (args : list val) : res val := match args with [] => Ok v | _ => Err TypeError end.
Definition fun2 (f : val -> val -> res val) (args : list val) : res val :=
  match args with [a; b] => f a b | _ => Err TypeError end.
Definition fun1 (f : val -> res val) (args : list val) : res val := match args with [a] => f a | _ => Err TypeError end.
(** 73-76 [plain_str]. *)
Definition plain_str (x : val) : res val := do s <- py_str x; Ok (VStr s).
(** 53-109: the table, in registration order. *)
Definition func_mapper : list ((option vtype * pmethod) * (list val -> res val)) :=
  [((Some T_index, M_default_value), fun0 (VInt 0));
   ((Some T_list, M_default_value), fun0 (VList []));
   ((Some T_tiles, M_check_equal), fun2 (fun a b => do r <- tiles_equal a b; Ok (VBool r)));
   ((None, M_check_equal), fun2 (fun a b => Ok (VBool (val_eqb a b))));
   ((Some T_str, M_from_str), fun1 plain_str);
   ((Some T_str, M_to_str), fun1 plain_str);
   ((None, M_to_str), fun1 (fun x => Ok (VStr (dumps x))));
   ((None, M_from_str), fun1 json_load_any);
   ((Some T_list, M_update U_REMOVE), fun2 remove_all);
   ((None, M_update U_ADD), fun2 add_general);
   ((None, M_update U_REMOVE), fun2 remove_general)].
(** 123-127 [lookup_func_table]. *)
Fixpoint lookup_func_table (tbl : list ((option vtype * pmethod) * (list val -> res val))) (m : pmethod) (v : view) (args : list val) : res val :=
  match tbl with
  | [] => Err ValueError
  | ((typ, mthd), f) :: r =>
    if method_eqb m mthd then
      match typ with
      | None => f args
      | Some t => do vt <- type_of v; if type_in vt t then f args else lookup_func_table r m v args
      end
    else lookup_func_table r m v args
  end.
Definition prop_call (args : list val) (v : view) (m : pmethod) : res val := lookup_func_table func_mapper m v args.

(** * command.py 57-66 [GameCommand]. [sub_scope_id] is a text or a number; the timestamp is
    a number or None. *)
Inductive sub := SText (t : text) | SId (i : Z).
Definition sub_all : sub := SText (t_ "all").
Definition sub_eqb (a b : sub) : bool :=
  match a, b with SText s, SText t => text_eqb s t | SId i, SId j => i =? j | _, _ => false end.
Record command := mkCmd {
  c_prop : view; c_update : update; c_sub : sub; c_value : val;
  c_time : option Z; c_state : val; c_event : option etype }.

(** * interpreter.py 20-36 [execute_new_value]. *)
Definition execute_new_value (c : command) (old_value : val) : res val :=
  match c_update c with
  | U_REPLACE => Ok (c_value c)
  | U_ADD | U_REMOVE => prop_call [old_value; c_value c] (c_prop c) (M_update (c_update c))
  | U_RESET_DEFAULT => prop_call [] (c_prop c) M_default_value
  | U_ASSERT_EQUAL_OR_SET => Ok (c_value c)
  | U_CLEAR => Err ValueError
  end.

(** 8-17 [GameInterpreter]: the dictionary from (sub scope, property) to the value. *)
Definition istate := list ((sub * view) * val).
Fixpoint iget (s : istate) (k : sub * view) : option val :=
  match s with
  | [] => None
  | (k', v) :: r => if sub_eqb (fst k') (fst k) && view_eqb (snd k') (snd k) then Some v else iget r k
  end.
Fixpoint iput (s : istate) (k : sub * view) (v : val) : istate :=
  match s with
  | [] => [(k, v)]
  | (k', v') :: r => if sub_eqb (fst k') (fst k) && view_eqb (snd k') (snd k) then (k', v) :: r else (k', v') :: iput r k v
  end.
(** [d.get(key, None)]. *)
Definition or_none (o : option val) : val := match o with Some v => v | None => VNone end.
Definition interpret (s : istate) (c : command) : res (istate * val) :=
  let key := (c_sub c, c_prop c) in
  let old := or_none (iget s key) in
  do new <- execute_new_value c old;
  Ok (iput s key new, new).

(** * executor.py *)
(** Keys of the nested dictionaries: texts, scopes, [PlayerId]s and properties. *)
Inductive key := KText (t : text) | KScope (s : scope) | KPid (i : Z) | KView (v : view).
Definition scope_eqb (a b : scope) : bool :=
  match a, b with SGame, SGame | SPlayer, SPlayer | SRecord, SRecord => true | _, _ => false end.
Definition key_eqb (a b : key) : bool :=
  match a, b with
  | KText s, KText t => text_eqb s t
  | KScope s, KScope t => scope_eqb s t
  | KPid i, KPid j => i =? j
  | KView v, KView w => view_eqb v w
  | _, _ => false
  end.
Definition edict := heap key val.
Definition enew := @new_td key val.
Definition eset := @td_set key val key_eqb.
Definition eget := @td_get key val key_eqb.

(** 79-96 [GameExecutor.__init__]: the initial dictionary. *)
Definition k_global := KText (t_ "global").
Definition k_time := KText (t_ "time").
Definition k_timestamp := KText (t_ "timestamp").
Definition k_single := KText (t_ "single").
Definition initial_states : list (key * pyv key val) :=
  [(k_global, PDict [(k_time, PDict [])]);
   (KScope SGame, PDict [(k_single, PDict [])]);
   (KScope SPlayer, PDict [(KPid 0, PDict []); (KPid 1, PDict []); (KPid 2, PDict []); (KPid 3, PDict [])]);
   (KScope SRecord, PDict [(k_single, PDict [])])].

(** [d[k]] where a dictionary is expected. *)
Definition child (h : edict) (a : nat) (k : key) : res nat :=
  do c <- eget h a k;
  match c with Some (Ref b) => Ok b | Some (Leaf _) => Err TypeError | None => Err KeyError end.
(** format.py 5-9: [PlayerId(sub_scope_id)]. *)
Definition player_id_of (s : sub) : res key :=
  match s with SId i => if (0 <=? i) && (i <=? 3) then Ok (KPid i) else Err ValueError | SText _ => Err ValueError end.
(** 98-105 [state_value]. *)
Definition state_value (h : edict) (state_dict : nat) (c : command) : res nat :=
  match scope_of (c_prop c) with
  | SPlayer => do d <- child h state_dict (KScope SPlayer); do k <- player_id_of (c_sub c); child h d k
  | s => do d <- child h state_dict (KScope s); child h d k_single
  end.
(** 118-138 [execute_update_state]; the warning of line 132 is not modelled. *)
Definition execute_update_state (strict_mode : bool) (fuel : nat) (h : edict) (c : command) (curr_state : nat) : res (edict * nat) :=
  do view <- state_value h curr_state c;
  do cell <- eget h view (KView (c_prop c));
  do old_value <- (match cell with Some (Leaf v) => Ok v | Some (Ref _) => Err TypeError | None => Ok VNone end);
  do new_value <- execute_new_value c old_value;
  do _ <- (match c_update c, cell with
           | U_ASSERT_EQUAL_OR_SET, Some _ =>
             do is_equal <- prop_call [new_value; old_value] (c_prop c) M_check_equal;
             match is_equal with
             | VBool false => if strict_mode then Err AssertionError else Ok tt
             | _ => Ok tt
             end
           | _, _ => Ok tt
           end);
  eset fuel h view (KView (c_prop c)) (PLeaf new_value).
Definition time_val (t : option Z) : val := match t with Some z => VInt z | None => VNone end.
(** 107-111 [execute]: the snapshots yielded, the heap they live in, and the exception that
    ended the iteration, if any. *)
Fixpoint execute_from (strict_mode : bool) (fuel : nat) (h : edict) (curr_state : nat) (cmds : list command) : list nat * edict * option exn :=
  match cmds with
  | [] => ([], h, None)
  | c :: r =>
    match (do s <- execute_update_state strict_mode fuel h c curr_state;
           do g <- child (fst s) (snd s) k_global;
           do t <- child (fst s) g k_time;
           do snap <- eset fuel (fst s) t k_timestamp (PLeaf (time_val (c_time c)));
           Ok (snap, snd s)) with
    | Ok ((h', snap), curr') =>
      let '(snaps, h'', err) := execute_from strict_mode fuel h' curr' r in (snap :: snaps, h'', err)
    | Err e => ([], h, Some e)
    end
  end.
Definition execute (strict_mode : bool) (fuel : nat) (cmds : list command) : list nat * edict * option exn :=
  match enew fuel (mkHeap [] 0) None initial_states with
  | Ok (h, root) => execute_from strict_mode fuel h root cmds
  | Err e => ([], mkHeap [] 0, Some e)
  end.

(** 159-160 [flatten]: the texts of the values, each converted for the last key of its path;
    a key that is no property has no type. The paths of a dictionary are distinct, so that
    the dictionary made of the pairs is the list of them. *)
Definition key_to_str (k : key) (x : val) : res val :=
  match k with KView v => prop_call [x] v M_to_str | _ => Ok (VStr (dumps x)) end.
Definition flatten (fuel : nat) (h : edict) (self : nat) : res (list (list key * val)) :=
  do l <- td_flatten_iter fuel h self;
  mapM (fun e => do t <- key_to_str (last (fst e) (KText [])) (snd e); Ok (fst e, t)) l.
(** 60-67 [state_series_apply], one cell of a column read back. *)
Definition cell_from_str (path : list key) (t : val) : res val :=
  match last path (KText []) with KView v => prop_call [t] v M_from_str | _ => Ok t end.
