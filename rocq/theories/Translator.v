(** Model of mahjong/record/universe/translator.py, tenhou/xml_macher.py and
    tenhou/__init__.py: how events are handed to the registered handlers. *)
From Verif Require Import Base Category Parse Text Event Value Universe.
From Coq Require Import String List ZArith Lia Bool.
Import ListNotations.
Open Scope list_scope.
Open Scope Z_scope.

(** The context given to handlers is the interpreter's state: the values under
    (sub scope, property), and two kinds of private entries of the handlers:
    "_game_indexer" and (player, "_right_most_tile_int"). *)
Record ctx := mkCtx { x_vals : istate; x_indexer : option subcat; x_right : list (Z * option Z) }.
(** translator.py 55-56 [clear]. *)
Definition empty_ctx : ctx := mkCtx [] None [].

(** A handler: the commands it yields, with the context it leaves, or the exception it
    raises (the generator is always run to its end by [list]). *)
Definition handler := event -> ctx -> res (list command * ctx).

(** translator.py 13-23 [default_event_type]. *)
Definition with_event (c : command) (t : etype) : command :=
  match c_event c with
  | None => mkCmd (c_prop c) (c_update c) (c_sub c) (c_value c) (c_time c) (c_state c) (Some t)
  | Some _ => c
  end.
Definition default_event_type (t : etype) (h : handler) : handler :=
  fun e x => do r <- h e x; Ok (map (fun c => with_event c t) (fst r), snd r).

(** xml_macher.py 10-15: the tables. *)
Record translator := mkTr {
  tr_defaults : list handler;
  tr_name : list (text * list handler);
  tr_attr : list (text * list handler);
  tr_both : list ((text * text) * list handler) }.
Definition new_translator : translator := mkTr [] [] [] [].
(** [self.table[key].append(func)] on a defaultdict(list). *)
Fixpoint tappend {K} (eqb : K -> K -> bool) (tbl : list (K * list handler)) (k : K) (h : handler) : list (K * list handler) :=
  match tbl with
  | [] => [(k, [h])]
  | (k', hs) :: r => if eqb k' k then (k', hs ++ [h]) :: r else (k', hs) :: tappend eqb r k h
  end.
Fixpoint tget {K} (eqb : K -> K -> bool) (tbl : list (K * list handler)) (k : K) : option (list handler) :=
  match tbl with [] => None | (k', hs) :: r => if eqb k' k then Some hs else tget eqb r k end.
Definition pair_eqb (a b : text * text) : bool := text_eqb (fst a) (fst b) && text_eqb (snd a) (snd b).
(** translator.py 40-42, xml_macher.py 17-30, 38-50: the decorators. *)
Definition default_event (h : handler) (t : translator) : translator :=
  mkTr (tr_defaults t ++ [h]) (tr_name t) (tr_attr t) (tr_both t).
Definition match_name (name : text) (h : handler) (t : translator) : translator :=
  mkTr (tr_defaults t) (tappend text_eqb (tr_name t) name h) (tr_attr t) (tr_both t).
Definition match_names (names : list text) (h : handler) (t : translator) : translator :=
  fold_left (fun t name => match_name name h t) names t.
Definition match_attr (name : text) (h : handler) (t : translator) : translator :=
  mkTr (tr_defaults t) (tr_name t) (tappend text_eqb (tr_attr t) name h) (tr_both t).
Definition match_both (name attr : text) (h : handler) (t : translator) : translator :=
  mkTr (tr_defaults t) (tr_name t) (tr_attr t) (tappend pair_eqb (tr_both t) (attr, name) h).

(** translator.py 32-36 [fallback_call]: None when no handler yields anything. *)
Fixpoint fallback_call (e : event) (matchers : list handler) (x : ctx) : res (option (list command) * ctx) :=
  match matchers with
  | [] => Ok (None, x)
  | m :: r => do v <- m e x;
              match fst v with [] => fallback_call e r (snd v) | cmds => Ok (Some cmds, snd v) end
  end.
(** xml_macher.py 52-79 [translate]. *)
Fixpoint try_attrs {K} (eqb : K -> K -> bool) (tbl : list (K * list handler)) (e : event) (keys : list K) (x : ctx) : res (option (list command) * ctx) :=
  match keys with
  | [] => Ok (None, x)
  | k :: r =>
    match tget eqb tbl k with
    | None => try_attrs eqb tbl e r x
    | Some hs => do v <- fallback_call e hs x;
                 match fst v with Some cmds => Ok v | None => try_attrs eqb tbl e r (snd v) end
    end
  end.
Definition translate (t : translator) (e : event) (x : ctx) : res (option (list command) * ctx) :=
  let name := tag e in
  do v <- try_attrs pair_eqb (tr_both t) e (map (fun a => (name, fst a)) (attrib e)) x;
  match fst v with
  | Some _ => Ok v
  | None =>
    do v <- (match tget text_eqb (tr_name t) name with
             | Some hs => fallback_call e hs (snd v)
             | None => Ok (None, snd v)
             end);
    match fst v with
    | Some _ => Ok v
    | None => try_attrs text_eqb (tr_attr t) e (map fst (attrib e)) (snd v)
    end
  end.

(** translator.py 47-50: every command gets the value it leads to as its state. *)
Definition set_state (c : command) (v : val) : command :=
  mkCmd (c_prop c) (c_update c) (c_sub c) (c_value c) (c_time c) v (c_event c).
Definition set_time (c : command) (t : option Z) : command :=
  mkCmd (c_prop c) (c_update c) (c_sub c) (c_value c) t (c_state c) (c_event c).
Fixpoint with_states (s : istate) (cmds : list command) : res (istate * list command) :=
  match cmds with
  | [] => Ok (s, [])
  | c :: r => do i <- interpret s c; do rest <- with_states (fst i) r; Ok (fst rest, set_state c (snd i) :: snd rest)
  end.
(** xml_macher.py 32-36 [postprocess]. *)
Definition postprocess (timestamp : Z) (cmds : list command) (x : ctx) : res (list command * ctx) :=
  do r <- with_states (x_vals x) cmds;
  Ok (map (fun c => set_time c (Some timestamp)) (snd r), mkCtx (fst r) (x_indexer x) (x_right x)).
(** translator.py 58-71 [__call__]; an event of a record comes with its position as
    timestamp (reader.py 137). *)
Definition call (t : translator) (strict : bool) (e : event) (timestamp : Z) (x : ctx) : res (list command * ctx) :=
  do v <- translate t e x;
  match fst v with
  | Some cmds => postprocess timestamp cmds (snd v)
  | None =>
    do v <- fallback_call e (tr_defaults t) (snd v);
    match fst v with
    | Some cmds => postprocess timestamp cmds (snd v)
    | None => if strict then Err ValueError else Ok ([], snd v)
    end
  end.

(** tenhou/__init__.py 5-8 and 19-20 [to_command_iter], [to_commands]: all commands of a
    record's events, and the context left behind. *)
Fixpoint call_all (t : translator) (strict : bool) (i : Z) (events : list event) (x : ctx) : res (list command * ctx) :=
  match events with
  | [] => Ok ([], x)
  | e :: r => do a <- call t strict e i x; do b <- call_all t strict (i + 1) r (snd a); Ok (fst a ++ fst b, snd b)
  end.
Definition to_commands (t : translator) (strict : bool) (events : list event) : res (list command) :=
  do r <- call_all t strict 0 events empty_ctx; Ok (fst r).
