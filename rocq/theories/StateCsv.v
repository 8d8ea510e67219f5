(** Model of the table of states and its CSV file: executor.py 14-30 ([replace_enum_values]), 60-67
    ([state_series_apply]), 72-77 ([read_clean_csv]) and 113-116 ([execute_as_dataframe]). What pandas does
    with such tables is written down here and in Csv.v; the comments say what of it is left out. *)
From Verif Require Import Base Parse Text Value Json Transfer Universe Record Csv.
From Coq Require Import String List ZArith Bool.
Import ListNotations.
Open Scope list_scope.
Open Scope Z_scope.

(** 113-114: the flattened snapshots, with [execute] in its default mode. The first error ends the table. *)
Definition state_row : Type := list (list key * val).
Definition state_rows (fuel : nat) (cmds : list command) : res (list state_row) :=
  let '(snaps, h, err) := execute false fuel cmds in
  match err with Some e => Err e | None => mapM (flatten fuel h) snaps end.

(** 114 [pd.DataFrame] of dictionaries: the columns are the keys in order of their first appearance
    (pandas from 0.25 on), a cell without a value is missing. *)
Fixpoint path_eqb (a b : list key) : bool :=
  match a, b with [], [] => true | x :: a', y :: b' => key_eqb x y && path_eqb a' b' | _, _ => false end.
Definition add_column (cols : list (list key)) (q : list key) : list (list key) := if existsb (path_eqb q) cols then cols else cols ++ [q].
Definition table_columns (rows : list state_row) : list (list key) := fold_left add_column (flat_map (map fst) rows) [].
Definition table_cell (q : list key) (row : state_row) : option val :=
  option_map snd (find (fun e => path_eqb (fst e) q) row).

(** [str] of a key: of texts, and of the members of [ViewScope], [PlayerId] (format.py 5-9, 12-15) and the views. *)
Definition pid_name (i : Z) : text :=
  if i =? 0 then t_ "first" else if i =? 1 then t_ "second" else if i =? 2 then t_ "third" else t_ "forth".
Definition view_class (s : scope) : text :=
  match s with SGame => t_ "GameView" | SPlayer => t_ "PlayerView" | SRecord => t_ "RecordView" end.
Definition key_str (k : key) : text :=
  match k with
  | KText t => t
  | KScope s => t_ "ViewScope." ++ scope_name s
  | KPid i => t_ "PlayerId." ++ pid_name i
  | KView v => view_class (scope_of v) ++ t_ "." ++ view_name v
  end.
(** [to_csv] of a table with columns of three levels: three header lines, whose first field (the name
    of the level) is empty; then the rows after their positions. Missing cells are empty. *)
Definition level (l : nat) (q : list key) : text := key_str (nth l q (KText [])).
Definition cell_written (o : option val) : text := match o with Some v => value_written v | None => [] end.
Fixpoint state_lines (i : nat) (cols : list (list key)) (rows : list state_row) : list (list text) :=
  match rows with
  | [] => []
  | row :: r => (str_int (Z.of_nat i) :: map (fun q => cell_written (table_cell q row)) cols) :: state_lines (S i) cols r
  end.
Definition state_csv (rows : list state_row) : text :=
  let cols := table_columns rows in
  write_csv (map (fun l => [] :: map (level l) cols) [0; 1; 2]%nat ++ state_lines 0 cols rows).

(** 14-21: the enums of format.py. Simplified: only those whose members are keys here; [Update], [EventType] and
    [ViewType] members, which these tables do not have, are refused. *)
Definition enum_member (typ name : text) : res key :=
  if text_eqb typ (t_ "ViewScope") then do s <- by_name scope_name all_scopes name; Ok (KScope s)
  else if text_eqb typ (t_ "PlayerId") then do i <- by_name pid_name [0; 1; 2; 3] name; Ok (KPid i)
  else do s <- by_name view_class all_scopes typ;
       do v <- by_name view_name (filter (fun v => scope_eqb (scope_of v) s) all_views) name; Ok (KView v).
(** 24-30 [replace_enum_values]. *)
Definition replace_enum_values (s : text) : res key :=
  match split_on 46 s with [typ; name] => enum_member typ name | _ => Ok (KText s) end.

(** 74 [pd.read_csv] with three header lines: an empty field of the [l]-th header line in the [j]-th column gets a
    name of its own. Simplified: header lines of different lengths are refused. *)
Definition header_text (l j : nat) (f : text) : text :=
  match f with [] => t_ "Unnamed: " ++ str_int (Z.of_nat j) ++ t_ "_level_" ++ str_int (Z.of_nat l) | _ => f end.
Fixpoint header_paths (j : nat) (h0 h1 h2 : list text) : list (list text) :=
  match h0, h1, h2 with
  | a :: r0, b :: r1, c :: r2 => [header_text 0 j a; header_text 1 j b; header_text 2 j c] :: header_paths (S j) r0 r1 r2
  | _, _, _ => []
  end.
(** A column: cleaned values, or what pandas has read if the last key is no property. *)
Inductive column := CValues (l : list val) | CCells (l : list cell).
(** 60-67, 76 [state_series_apply]. *)
Definition state_series_apply (name : list key) (cells : list cell) : res column :=
  match last name (KText []) with
  | KView v => do l <- mapM (cell_value v) cells; Ok (CValues l)
  | _ => Ok (CCells cells)
  end.
Section Read.
Context (none_too cast : bool) (cuts : list nat).
Fixpoint read_columns (j : nat) (paths : list (list text)) (lines : list (list text)) : res (list (list key * column)) :=
  match paths with
  | [] => Ok []
  | p :: r =>
    do name <- mapM replace_enum_values p;
    do col <- state_series_apply name (read_column none_too cast cuts (map (nth_text j) lines));
    do cols <- read_columns (S j) r lines;
    Ok ((name, col) :: cols)
  end.
(** 73-77. *)
Definition read_state_csv (file : text) : res (list (list key * column)) :=
  match read_lines true file with
  | h0 :: h1 :: h2 :: lines =>
    let n := length h0 in
    if ((length h1 =? n) && (length h2 =? n))%nat && forallb (fun l => (length l <=? n)%nat) lines
    then read_columns 0 (header_paths 0 h0 h1 h2) (map (pad n) lines)
    else Err ValueError
  | _ => Err ValueError
  end.
End Read.
