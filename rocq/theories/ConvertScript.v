(** Model of the converter script as a whole, from the line typed in to the file written:
    mahjong/universe_paifu_convert.py 11-18 ([main]) with mahjong/record/reader.py 20-24
    ([fetch_record_content]) and 193-194 ([from_url]). Export.v models the same script for elements
    already read. *)
From Verif Require Import Base Parse Text Event Reader Url Value Json Transfer Universe Translator TenhouCommands Record Csv Xml FromText Export CheckScript.
From Coq Require Import String List ZArith Bool.
Import ListNotations.
Open Scope list_scope.
Open Scope Z_scope.

Section Script.
(** [semicolons], [server], [opens]: see CheckScript.v; [so]: the order of sets. *)
Variable semicolons : bool.
Variable so : list Z -> list Z.
Variable server : text -> res text.
Variable opens : text -> res unit.
(** What is done with a record, 14-15: all commands are made and printed before the file is opened
    ([pandas.DataFrame] runs the generator to its end). *)
Definition table_of (r : record) : res text :=
  do cmds <- to_commands (tenhou_command py_unquote so) false (r_events r); to_csv cmds.
(** 11-18: what it does for the line typed in, in order, and how it ends. The shell command
    "pause" (17) is not modelled. *)
Definition convert (line : text) : list deed * reading (res unit) :=
  let tenhou_link := py_strip line in
  let asked := Asked (t_ "input your tenhou.net paifu link:") in
  match log_id_from_url semicolons tenhou_link with
  | Err e => ([asked], Read (Err e))
  | Ok log_id =>
    match CheckScript.from_url semicolons server tenhou_link with
    | Malformed => ([asked], Malformed)
    | Outside => ([asked], Outside)
    | Read (Err e) => ([asked], Read (Err e))
    | Read (Ok r) =>
      let command_csv_path := log_id ++ t_ "_command.csv" in
      match (do content <- table_of r; do _ <- opens command_csv_path; Ok content) with
      | Err e => ([asked], Read (Err e))
      | Ok content => ([asked; Saved command_csv_path content; Said (t_ "command and state saved to '" ++ command_csv_path ++ t_ "'")], Read (Ok tt))
      end
    end
  end.
End Script.
