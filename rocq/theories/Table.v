(** Model of mahjong/record/util_functions.py 31-60: the table of the raw events of a log. *)
From Verif Require Import Base Parse Text Event Reader.
From Coq Require Import String List ZArith Bool.
Import ListNotations.
Open Scope list_scope.
Open Scope Z_scope.

(** The class [[A-Za-z]] and the maximal run of such characters at the start of a text. *)
Definition ch_letter (c : Z) : bool := ((65 <=? c) && (c <=? 90)) || ((97 <=? c) && (c <=? 122)).
Fixpoint span_letters (s : text) : text * text :=
  match s with
  | c :: r => if ch_letter c then let (a, b) := span_letters r in (c :: a, b) else ([], s)
  | [] => ([], [])
  end.
(** 33 [last_num]: [^([A-Za-z]+)([0-9]+)$] applied with [match]: the two groups. No letter is a
    digit, so the greedy runs never have to be shortened; [$] also matches before a final newline. *)
Definition last_num (s : text) : option (text * text) :=
  match span_letters s with
  | ([], _) => None
  | (letters, rest) =>
    match span_digits rest with
    | ([], _) => None
    | (digits, []) => Some (letters, digits)
    | (digits, [10]) => Some (letters, digits)
    | _ => None
    end
  end.

(** [d[k] = v], keeping the place of a key that is already there, and [d.update(l)]. *)
Fixpoint put (d : list (text * text)) (k v : text) : list (text * text) :=
  match d with
  | [] => [(k, v)]
  | (k', v') :: r => if text_eqb k' k then (k', v) :: r else (k', v') :: put r k v
  end.
Definition update (d l : list (text * text)) : list (text * text) := fold_left (fun a kv => put a (fst kv) (snd kv)) l d.

(** 51: one row. *)
Record row := mkRow { row_index : Z; row_tag : text; row_attr : text; row_value : text }.
(** 37-51 [_event_df_iter], the body of the loop for the event number [i]. *)
Definition event_rows (abstract : bool) (i : Z) (e : event) : list row :=
  let matched := last_num (tag e) in
  let result := match matched with Some (_, extra) => [(t_ "<tag_extra>", extra)] | None => [] end in
  let name := match matched with Some (letters, _) => letters | None => tag e end in
  let result := put result (t_ "<tag>") name in
  if match matched with Some _ => abstract | None => false end then []
  else map (fun kv => mkRow i name (fst kv) (snd kv)) (update result (attrib e)).
(** 36-51, [enumerate] from [i] on. *)
Fixpoint event_df_iter (abstract : bool) (i : Z) (events : list event) : list row :=
  match events with
  | [] => []
  | e :: r => event_rows abstract i e ++ event_df_iter abstract (i + 1) r
  end.

(** [s.rfind(c)] for one character: the last place of [c], -1 if there is none. *)
Definition rfind (c : Z) (s : text) : Z :=
  snd (fold_left (fun a x => (fst a + 1, if x =? c then fst a else snd a)) s (0, -1)).
(** [os.path.split(p)[-1]] on POSIX: what follows the last slash. *)
Definition path_tail (p : text) : text := skipn (Z.to_nat (rfind 47 p + 1)) p.
(** [os.path.splitext(p)[0]] (genericpath.py [_splitext]): the last dot is the beginning of the
    extension unless only dots stand before it in the file name. *)
Definition path_root (p : text) : text :=
  let sep := rfind 47 p in
  let dot := rfind 46 p in
  if sep <? dot then
    let before := skipn (Z.to_nat (sep + 1)) (firstn (Z.to_nat dot) p) in
    if existsb (fun c => negb (c =? 46)) before then firstn (Z.to_nat dot) p else p
  else p.
(** 54-60 [light_dataframe_from_file]: the rows, each with the log id in one more column.
    [events]: the children of the root element, which iterating over it yields. Parsing the file is
    not modelled. *)
Definition light_dataframe (file_path : text) (abstract : bool) (events : list event) : list (row * text) :=
  let log_id := path_root (path_tail file_path) in
  map (fun r => (r, log_id)) (event_df_iter abstract 0 events).
