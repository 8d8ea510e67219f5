(** Model of the CSV files of commands: universe_paifu_convert.py 11-17 (the table of
    [to_command_records] written with [to_csv]) and command.py 74-102 ([read_clean_csv],
    [clean], [pandas_columns_clean]). What pandas and the csv module of the standard library
    do with such tables is written down here; the comments say what of them is left out. *)
From Verif Require Import Base Parse Text Value Json Transfer Universe Record.
From Coq Require Import String List ZArith Lia Bool.
Import ListNotations.
Open Scope list_scope.
Open Scope Z_scope.

(** ** Writing: the csv module with minimal quoting, as [to_csv] calls it on Linux. *)
Definition needs_quotes (f : text) : bool := existsb (fun c => (c =? 44) || (c =? 34) || (c =? 10)) f.
Definition double_quotes (f : text) : text := flat_map (fun c => if c =? 34 then [34; 34] else [c]) f.
Definition write_field (f : text) : text := if needs_quotes f then [34] ++ double_quotes f ++ [34] else f.
(** A line. Simplified: the quotes of a line that is one empty field are left out; all tables
    here have two columns at least. *)
Definition write_line (fs : list text) : text := join (t_ ",") (map write_field fs) ++ [10].
Definition write_csv (lines : list (list text)) : text := flat_map write_line lines.

(** ** Splitting a file into fields: the C tokenizer of pandas (parser/tokenizer.c). A line
    break is a line feed, a carriage return or both; empty lines are left out; with
    [skip] (skipinitialspace) blanks before a field are ignored. Simplified: NUL characters are
    not treated specially, and an open quotation at the end of the file is closed silently. *)
Inductive tstate := StartField | InField | InQuoted | QuoteInQuoted.
Section Tokenize.
Context (skip : bool).
(** What a finished line adds: nothing if it is empty. *)
Definition end_line (line : list text) (field : text) (started : bool) : list (list text) :=
  match line, field with
  | [], [] => if started then [[[]]] else []
  | _, _ => [rev (rev field :: line)]
  end.
(** [field] and [line] in reverse; [started]: the field has been opened by a quote; [cr]: the last character was
    a carriage return that ended a line. *)
Fixpoint tokenize (st : tstate) (cr started : bool) (field : text) (line : list text) (s : text) : list (list text) :=
  match s with
  | [] => end_line line field started
  | c :: r =>
    match st with
    | InQuoted => if c =? 34 then tokenize QuoteInQuoted false true field line r else tokenize InQuoted false true (c :: field) line r
    | _ =>
      if c =? 44 then tokenize StartField false false [] (rev field :: line) r
      else if c =? 10 then if cr then tokenize StartField false false [] [] r
                           else end_line line field started ++ tokenize StartField false false [] [] r
      else if c =? 13 then end_line line field started ++ tokenize StartField true false [] [] r
      else match st with
           | StartField => if c =? 34 then tokenize InQuoted false true field line r
                           else if skip && (c =? 32) then tokenize StartField false started field line r
                           else tokenize InField false started (c :: field) line r
           | QuoteInQuoted => if c =? 34 then tokenize InQuoted false true (34 :: field) line r
                              else tokenize InField false started (c :: field) line r
           | _ => tokenize InField false started (c :: field) line r
           end
    end
  end.
Definition read_lines (s : text) : list (list text) := tokenize StartField false false [] [] s.
End Tokenize.

(** ** What pandas makes of the texts of a column. *)
Inductive cell := CNaN | CInt (z : Z) | CFloat (n : num) | CInf (neg : bool) | CBool (b : bool) | CText (s : text).
(** The texts that stand for a missing value; "None" does from pandas 2.0 on. *)
Definition missing_texts (none_too : bool) : list text :=
  map t_ [""; "#N/A"; "#N/A N/A"; "#NA"; "-1.#IND"; "-1.#QNAN"; "-NaN"; "-nan"; "1.#IND"; "1.#QNAN"; "<NA>"; "N/A"; "NA"; "NULL";
          "NaN"; "n/a"; "nan"; "null"]%string ++ (if none_too then [t_ "None"] else []).
Definition space (c : Z) : bool := (c =? 32) || ((9 <=? c) && (c <=? 13)).
Fixpoint skip_space (s : text) : text := match s with c :: r => if space c then skip_space r else s | [] => [] end.
Definition strip (s : text) : text := rev (skip_space (rev (skip_space s))).
Definition take_sign (s : text) : bool * text :=
  match s with c :: r => if c =? 45 then (true, r) else if c =? 43 then (false, r) else (false, s) | [] => (false, []) end.
Definition signed (neg : bool) (z : Z) : Z := if neg then - z else z.
(** An integer (tokenizer.c [str_to_int64]), of any size. *)
Definition int_token (s : text) : option Z :=
  let '(neg, d) := take_sign (strip s) in
  match d with [] => None | _ => if forallb ch_digit d then Some (signed neg (digits_val d)) else None end.
Definition fits_64 (z : Z) : bool := (- 2 ^ 63 <=? z) && (z <? 2 ^ 63).
(** A floating point number (tokenizer.c [precise_xstrtod]); its value is exact here. *)
Definition lower (c : Z) : Z := if (65 <=? c) && (c <=? 90) then c + 32 else c.
Definition float_token (s : text) : option cell :=
  let '(neg, d) := take_sign (strip s) in
  let '(ip, r1) := span_digits d in
  let '(fp, r2) := match r1 with c :: r => if c =? 46 then span_digits r else ([], r1) | [] => ([], []) end in
  match ip ++ fp with
  | [] => if text_eqb (map lower d) (t_ "inf") || text_eqb (map lower d) (t_ "infinity") then Some (CInf neg) else None
  | ds => match r2 with
          | [] => Some (CFloat (dec_of (signed neg (digits_val ds)) (length fp) 0))
          | _ => match scan_exp r2 with
                 | (Some e, []) => Some (CFloat (dec_of (signed neg (digits_val ds)) (length fp) e))
                 | _ => None
                 end
          end
  end.
Definition bool_token (s : text) : option bool :=
  if existsb (text_eqb s) (map t_ ["True"; "TRUE"; "true"]%string) then Some true
  else if existsb (text_eqb s) (map t_ ["False"; "FALSE"; "false"]%string) then Some false else None.

Section Columns.
(** [none_too]: whether "None" stands for a missing value; [cast]: whether booleans and numbers
    of different pieces become numbers (pandas below 1.3) or are left alone; [cuts]: the lengths of the pieces
    in which the file is read (low_memory), each of which is converted for itself. *)
Context (none_too cast : bool) (cuts : list nat).
Definition missing (s : text) : bool := existsb (text_eqb s) (missing_texts none_too).
Fixpoint all_some {A} (f : text -> option A) (l : list text) : option (list (option A)) :=
  match l with
  | [] => Some []
  | s :: r => match (if missing s then Some None else option_map Some (f s)), all_some f r with
              | Some x, Some y => Some (x :: y)
              | _, _ => None
              end
  end.
Definition or_nan {A} (g : A -> cell) (o : option A) : cell := match o with Some a => g a | None => CNaN end.
(** parsers.pyx [_convert_tokens]: integers, else floats, else booleans, else texts. Integers
    with a missing value become floats; integers beyond 64 bits stay texts (simplified: for
    unsigned 64 bits pandas has integers too, which read the same). *)
Definition convert (l : list text) : list cell :=
  match all_some int_token l with
  | Some zs =>
      if forallb (fun o => match o with Some z => fits_64 z | None => true end) zs then
        if existsb missing l then map (or_nan (fun z => CFloat (dec_of z 0 0))) zs else map (or_nan CInt) zs
      else map (fun s => if missing s then CNaN else CText s) l
  | None =>
    match all_some float_token l with
    | Some cs => map (or_nan (fun c => c)) cs
    | None =>
      match all_some bool_token l with
      | Some bs => map (or_nan CBool) bs
      | None => map (fun s => if missing s then CNaN else CText s) l
      end
    end
  end.
Fixpoint by_pieces (cs : list nat) (l : list text) : list (list text) :=
  match cs with [] => [l] | n :: r => firstn n l :: by_pieces r (skipn n l) end.
(** c_parser_wrapper.py [_concatenate_chunks]: the pieces of a column get a common type. A
    piece with texts, or with booleans and missing values, is of type object, and then
    all pieces keep what they have; else whole numbers become floats if there are floats. *)
Inductive kind := KObject | KBool | KInt | KFloat.
Definition kind_eqb (a b : kind) : bool := match a, b with KObject, KObject | KBool, KBool | KInt, KInt | KFloat, KFloat => true | _, _ => false end.
Definition kind_of (cells : list cell) : kind :=
  if existsb (fun c => match c with CText _ => true | _ => false end) cells then KObject
  else if existsb (fun c => match c with CBool _ => true | _ => false end) cells
       then if existsb (fun c => match c with CNaN => true | _ => false end) cells then KObject else KBool
  else if forallb (fun c => match c with CInt _ => true | _ => false end) cells then KInt else KFloat.
Definition unify (kinds : list kind) (c : cell) : cell :=
  let has k := existsb (kind_eqb k) kinds in
  if has KObject || (has KBool && negb cast) || forallb (kind_eqb KBool) kinds then c
  else match c with
       | CInt z => if has KFloat then CFloat (dec_of z 0 0) else c
       | CBool b => let z := if b then 1 else 0 in if has KFloat then CFloat (dec_of z 0 0) else CInt z
       | _ => c
       end.
Definition read_column (l : list text) : list cell :=
  let pieces := filter (fun q => match q with [] => false | _ => true end) (map convert (by_pieces cuts l)) in
  map (unify (map kind_of pieces)) (concat pieces).

(** ** A table of commands. *)
(** command.py 34-43. *)
Definition command_field_names : list text :=
  map t_ ["timestamp"; "event"; "scope"; "sub_scope_id"; "property"; "update_method"; "value"; "state"]%string.
(** The texts of the timestamps: pandas turns integers into floats if one is missing. *)
Definition times_written (ts : list (option Z)) : list text :=
  if forallb (fun t => match t with Some _ => true | None => false end) ts
  then map (fun t => match t with Some z => str_int z | None => [] end) ts
  else map (fun t => match t with Some z => float_repr z 0 | None => [] end) ts.
Definition sub_written (s : sub) : text := match s with SText t => t | SId i => str_int i end.
Definition value_written (v : val) : text := match v with VStr s => s | _ => [] end.
(** A line of the file: the position of the row and the fields of the record. The values and
    states of records are texts. *)
Definition row_written (i : nat) (t : text) (r : row) : list text :=
  [str_int (Z.of_nat i); t; match r_event r with Some n => n | None => [] end; r_scope r; sub_written (r_sub r); r_prop r; r_update r;
   value_written (r_value r); value_written (r_state r)].
Fixpoint rows_written (i : nat) (ts : list text) (rows : list row) : list (list text) :=
  match ts, rows with
  | t :: ts', r :: rows' => row_written i t r :: rows_written (S i) ts' rows'
  | _, _ => []
  end.
(** command.py 78-87 and universe_paifu_convert.py 16: [to_dataframe(commands).to_csv(...)].
    Simplified: a table without rows has no columns in pandas; here it has the header. *)
Definition to_csv (cmds : list command) : res text :=
  do rows <- mapM to_record cmds;
  Ok (write_csv (([] :: command_field_names) :: rows_written 0 (times_written (map r_time rows)) rows)).

(** [pandas.read_csv]: the header and the columns. A line that is too short is filled up with
    missing values, one that is too long is refused. *)
Definition pad (n : nat) (l : list text) : list text := l ++ repeat [] (n - length l).
Definition nth_text (j : nat) (l : list text) : text := nth j l [].
Fixpoint position (name : text) (l : list text) (j : nat) : res nat :=
  match l with [] => Err KeyError | x :: r => if text_eqb x name then Ok j else position name r (S j) end.
Definition read_table (file : text) : res (list text * list (list text)) :=
  match read_lines false file with
  | [] => Err ValueError
  | header :: lines =>
    if forallb (fun l => (length l <=? length header)%nat) lines then Ok (header, map (pad (length header)) lines) else Err ValueError
  end.
Definition column_of (header : list text) (lines : list (list text)) (name : text) : res (list cell) :=
  do j <- position name header 0; Ok (read_column (map (nth_text j) lines)).

(** command.py 11-16, 52-55, 140-151 [from_record] of a row of cells. A missing value is the
    float nan, which differs from itself. *)
Definition cell_key (c : cell) : res text := match c with CText s => Ok s | _ => Err KeyError end.
Definition cell_event (c : cell) : res (option etype) :=
  match c with CNaN => Ok None | CText n => do e <- by_name event_name all_events n; Ok (Some e) | _ => Err KeyError end.
(** Simplified: a timestamp that is not a whole number and a sub scope that is neither a text nor a whole number are refused. *)
Definition cell_time (c : cell) : res (option Z) :=
  match c with
  | CNaN => Ok None
  | CInt z => Ok (Some z)
  | CFloat n => if num_m n mod p10 (num_k n) =? 0 then Ok (Some (num_m n / p10 (num_k n))) else Err TypeError
  | _ => Err TypeError
  end.
Definition cell_sub (c : cell) : res sub :=
  match c with CText t => Ok (try_int (SText t)) | CInt z => Ok (SId z) | _ => Err TypeError end.
(** property_manager.py 73-91 [from_str] of a cell: [str] and [json.loads]. *)
Definition cell_str (c : cell) : text :=
  match c with
  | CNaN => t_ "nan"
  | CInt z => str_int z
  | CFloat n => num_repr n
  | CInf neg => if neg then t_ "-inf" else t_ "inf"
  | CBool b => if b then t_ "True" else t_ "False"
  | CText s => s
  end.
Definition cell_value (p : view) (c : cell) : res val :=
  match c with
  | CNaN => do t <- type_of p; if type_in t T_str then Ok (VStr (t_ "nan")) else Ok VNone
  | CInf _ => do t <- type_of p; if type_in t T_str then Ok (VStr (cell_str c)) else Err ValueError
  | CInt z => prop_call [VInt z] p M_from_str
  | CFloat n => prop_call [VNum n] p M_from_str
  | CBool b => prop_call [VBool b] p M_from_str
  | CText s => prop_call [VStr s] p M_from_str
  end.
Definition command_from_cells (cells : list cell) : res command :=
  match cells with
  | [time; event; scope; sub; property; update_method; value; state] =>
    do sc <- cell_key scope; do pn <- cell_key property;
    do view <- view_by_name sc pn;
    do ev <- cell_event event;
    do un <- cell_key update_method; do up <- by_name update_name all_updates un;
    do s <- cell_sub sub;
    do v <- cell_value view value;
    do t <- cell_time time;
    do st <- cell_value view state;
    Ok (mkCmd view up s v t st ev)
  | _ => Err KeyError
  end.
(** The rows of a table given by its columns. *)
Fixpoint transpose (n : nat) (cols : list (list cell)) : list (list cell) :=
  match n with
  | O => []
  | S k => map (fun c => hd CNaN c) cols :: transpose k (map (@tl cell) cols)
  end.
(** 74-76, 89-102 [read_clean_csv]: the commands whose raw records the cleaned rows are. *)
Definition read_clean_csv (file : text) : res (list command) :=
  do t <- read_table file;
  do cols <- mapM (column_of (fst t) (snd t)) command_field_names;
  mapM command_from_cells (transpose (length (snd t)) cols).
End Columns.
