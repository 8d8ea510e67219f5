(** Model of universe_paifu_convert.py 11-17 ([main]), util_functions.py 12-15 and 22-28, tenhou/__init__.py
    11-16, command.py 78-87, 104-126 and reader.py 20-24, 193-194: the ways commands leave the program. *)
From Verif Require Import Base Parse Text Event Reader Url Value Json Transfer Universe Translator TenhouCommands Record Csv StateCsv.
From Coq Require Import String List ZArith Bool.
Import ListNotations.
Open Scope list_scope.
Open Scope Z_scope.

(** command.py 104-114 [to_raw_record]: the fields as they are. *)
Record raw_row := mkRaw {
  w_time : option Z; w_event : option etype; w_scope : scope; w_sub : sub; w_prop : view; w_update : update; w_value : val; w_state : val }.
Definition to_raw_record (c : command) : raw_row :=
  mkRaw (c_time c) (c_event c) (scope_of (c_prop c)) (c_sub c) (c_prop c) (c_update c) (c_value c) (c_state c).
(** command.py 116-126 [from_raw_record]. No value of the model is the float nan, so [norm_empty] keeps them. *)
Definition from_raw_record (r : raw_row) : command :=
  mkCmd (w_prop r) (w_update r) (try_int (w_sub r)) (w_value r) (norm_time (w_time r)) (w_state r) (w_event r).

(** A row of a table of commands. *)
Inductive exported := Raw (r : raw_row) | Texts (r : row).
(** tenhou/__init__.py 13-16 and command.py 80-87. *)
Definition export (raw : bool) (c : command) : res exported :=
  if raw then Ok (Raw (to_raw_record c)) else do r <- to_record c; Ok (Texts r).
(** tenhou/__init__.py 11-16 [to_command_records], run to its end. Simplified: if both the conversion and the
    printing of an earlier command fail, the exception of the conversion is given. *)
Definition to_command_records (t : translator) (raw strict : bool) (events : list event) : res (list exported) :=
  do cmds <- to_commands t strict events; mapM (export raw) cmds.
(** command.py 78-87 [to_dataframe] and util_functions.py 12-15 [command_to_raw_dataframe]: the rows. *)
Definition to_dataframe (raw : bool) (cmds : list command) : res (list exported) := mapM (export raw) cmds.
Definition command_to_raw_dataframe (cmds : list command) : list raw_row := map to_raw_record cmds.
(** util_functions.py 22-28 [parse_dataframe_from_tenhou_record]: the rows of the commands, and those of
    the states if wanted. *)
Definition parse_dataframe (t : translator) (fuel : nat) (events : list event) (return_state for_serialize : bool)
  : res (list exported * option (list state_row)) :=
  do cmds <- to_commands t false events;
  do rows <- to_dataframe (negb for_serialize) cmds;
  if return_state then do states <- state_rows fuel cmds; Ok (rows, Some states) else Ok (rows, None).

(** [str.strip()]: the characters [str.isspace] accepts (TenhouCommands.v) are removed at both ends. *)
Fixpoint lstrip (s : text) : text := match s with c :: r => if py_space c then lstrip r else s | [] => [] end.
Definition py_strip (s : text) : text := rev (lstrip (rev (lstrip s))).

Section Script.
(** [semicolons]: see Url.v; [so]: the order of sets; [server]: what requests.get and ET.fromstring give for an
    address, the elements of the log or an exception. *)
Variable semicolons : bool.
Variable so : list Z -> list Z.
Variable server : text -> res (list event).
(** reader.py 20-24 [fetch_record_content] and 193-194 [from_url]. *)
Definition from_url (url : text) : res record :=
  do address <- download_url semicolons url;
  do elements <- server address;
  new_record elements.
(** universe_paifu_convert.py 11-17 [main]: the name and the content of the file it writes, and the line it
    prints, for a line of input. The [pause] is dropped. *)
Definition main (input : text) : res (text * text * text) :=
  let tenhou_link := py_strip input in
  do log_id <- log_id_from_url semicolons tenhou_link;
  do r <- from_url tenhou_link;
  let command_csv_path := log_id ++ t_ "_command.csv" in
  do cmds <- to_commands (tenhou_command py_unquote so) false (r_events r);
  do content <- to_csv cmds;
  Ok (command_csv_path, content, t_ "command and state saved to '" ++ command_csv_path ++ t_ "'").
End Script.
