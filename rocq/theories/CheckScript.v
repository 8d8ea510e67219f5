(** Model of the script that makes the reports, from the lines typed in to the files written:
    mahjong/tenhou_record_check.py 152-180 ([main]) with mahjong/record/reader.py 20-24
    ([fetch_record_content]) and 193-194 ([from_url]). *)
From Coq Require Import String.
From Verif Require Import Base Category Tile TileSet Parse Text Tenhou Event Reader Url State Checker Show Report Html Xml FromText Export.
From Coq Require Import List ZArith QArith Bool.
Import ListNotations.
Open Scope list_scope.
Open Scope Z_scope.

(** What happens outside: a prompt is shown and a line is read, a line is printed, a file gets a
    content (an earlier content is lost). The lines that loguru writes to stderr (153-154) are not
    modelled. *)
Inductive deed := Asked (prompt : text) | Said (line : text) | Saved (file content : text).

Section Script.
(** [semicolons]: see Url.v. [server]: the text that requests.get gives for an address, or an
    exception. [load_raw], [float_str]: see Html.v. [opens]: whether [open(file_name, "w+")]
    succeeds, or its exception; writing to an open file does not fail here. [abspath]: os.path.abspath. *)
Variable semicolons : bool.
Variable server : text -> res text.
Variable load_raw : text -> res (list Z).
Variable float_str : Q -> text.
Variable opens : text -> res unit.
Variable abspath : text -> text.

(** reader.py 20-24 and 193-194: the text of the log is read. *)
Definition from_url (url : text) : reading (res record) :=
  match download_url semicolons url with
  | Err e => Read (Err e)
  | Ok address => match server address with Err e => Read (Err e) | Ok t => from_file t end
  end.
(** 158-162: ["[{id}]: {player}"] for every player, numbered from 1. *)
Fixpoint list_players (i : Z) (players : list player) : list deed * res unit :=
  match players with
  | [] => ([], Ok tt)
  | p :: rest =>
    match player_str p with
    | Err e => ([], Err e)
    | Ok s => let (d, o) := list_players (i + 1) rest in (Said (t_ "[" ++ str_int i ++ t_ "]: " ++ s) :: d, o)
    end
  end.
(** 176-180: the page of every planned player is made and written, and its place printed. *)
Fixpoint save_reports (r : record) (log_url : text) (planned : list player) : list deed * res unit :=
  match planned with
  | [] => ([], Ok tt)
  | p :: rest =>
    match (do fp <- render_template semicolons p r (Some log_url) None true;
           do h <- render load_raw float_str (snd fp);
           do f <- match fst fp with Some f => Ok f | None => Err TypeError end;
           do _ <- opens f; Ok (f, h)) with
    | Err e => ([], Err e)
    | Ok (f, h) => let (d, o) := save_reports r log_url rest in
                   (Saved f h :: Said (t_ "report has been saved to " ++ abspath f) :: d, o)
    end
  end.
(** 152-180 [main]: for the two lines typed in, what it does, in order, and how it ends. *)
Definition check (link_line answer : text) : list deed * reading (res unit) :=
  let log_url := py_strip link_line in
  let asked := Asked (t_ "Input your tenhou.net log link:") in
  match from_url log_url with
  | Malformed => ([asked], Malformed)
  | Outside => ([asked], Outside)
  | Read (Err e) => ([asked], Read (Err e))
  | Read (Ok r) =>
    let (listed, o) := list_players 1 (r_players r) in
    let so_far := asked :: Said (t_ "read successful. pick a number to select player:") :: listed in
    match o with
    | Err e => (so_far, Read (Err e))
    | Ok _ =>
      let so_far := so_far ++ [Asked (t_ "please select a number[1-" ++ str_int (Z.of_nat (length (r_players r))) ++
                                      t_ "] as player id , otherwise for all players:")] in
      match planned_players (r_players r) answer with
      | Err e => (so_far, Read (Err e))
      | Ok planned => let (d, o) := save_reports r log_url planned in (so_far ++ d, Read o)
      end
    end
  end.
End Script.
