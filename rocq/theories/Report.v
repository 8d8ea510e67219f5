(** Model of the report pages: mahjong/tenhou_record_check.py 152-198 ([main], [render_template])
    and mahjong/record/checker.py. *)
From Verif Require Import Base Category Tile TileSet Parse Text Tenhou Event Reader Url State Checker Show.
From Coq Require Import String List ZArith Bool.
Import ListNotations.
Open Scope list_scope.
Open Scope Z_scope.

(** What the template is given (tenhou_record_check.py 193-194). The HTML that jinja2 makes of it is
    in Html.v. *)
Record page := mkPage {
  pg_player : text; pg_record : text; pg_url : option text; pg_games : list (text * list round); pg_tiles : list text }.

(** 184: the analysis of every deal, with 91-94 [GameAnalysis]. *)
Definition analyses (r : record) (p : player) : res (list (text * list round)) :=
  mapM (fun g =>
          do name <- game_caption (r_type r) (r_players r) g;
          do rows <- game_reason_list (g_events g) (pl_index p) (Z.of_nat (length (r_players r)));
          Ok (name, rows)) (r_games r).
(** 191-192: [(n, t) for t in "mps" for n in range(0, 10)] and [product(range(1, 8), "z")]. *)
Definition all_tiles : list text :=
  flat_map (fun t => map (fun n => str_int (Z.of_nat n) ++ [t]) (seq 0 10)) [109; 112; 115] ++
  map (fun n => str_int (Z.of_nat n) ++ [122]) (seq 1 7).
(** 196: ["tenhou_record_%s_%s_%d.html" % (log_id, player.name, player.index)]. *)
Definition file_name (log_id : text) (p : player) : text :=
  t_ "tenhou_record_" ++ log_id ++ t_ "_" ++ player_name p ++ t_ "_" ++ str_int (pl_index p) ++ t_ ".html".
(** 183-198 [render_template]. A [log_id] that is None would be printed as "None" in the file name,
    but 189-190 excludes that. [semicolons]: see [log_id_from_url]. *)
Definition render_template (semicolons : bool) (p : player) (r : record) (log_url log_id : option text) (generate_filename : bool)
  : res (option text * page) :=
  do games <- analyses r p;
  do ids <- match log_url, log_id with
            | Some url, _ => do id <- log_id_from_url semicolons url; Ok (Some url, id)
            | None, Some id => Ok (Some (log_id_to_url id), id)
            | None, None => if generate_filename then Err ValueError else Ok (None, [])
            end;
  do player_text <- player_str p;
  do record_text <- record_str r;
  Ok (if generate_filename then Some (file_name (snd ids) p) else None,
      mkPage player_text record_text (fst ids) games all_tiles).

(** 166-171: which players get a report. Simplified: [isdigit] also accepts digits outside ASCII,
    some of which [int] then rejects. *)
Definition is_digit_text (s : text) : bool := match s with [] => false | _ => forallb ch_digit s end.
Definition planned_players (players : list player) (input_id : text) : res (list player) :=
  if is_digit_text input_id then
    do id <- py_int input_id;
    if (1 <=? id) && (id <? Z.of_nat (length players) + 1)
    then do p <- py_nth players (id - 1); Ok [p]
    else Ok players
  else Ok players.
(** 176-180: the files written before the loop ends or an exception leaves it. *)
Fixpoint write_reports (semicolons : bool) (r : record) (log_url : text) (planned : list player) : list (text * page) * res unit :=
  match planned with
  | [] => ([], Ok tt)
  | p :: rest =>
    match render_template semicolons p r (Some log_url) None true with
    | Ok (Some file, pg) => let (files, outcome) := write_reports semicolons r log_url rest in ((file, pg) :: files, outcome)
    | Ok (None, _) => ([], Err TypeError)
    | Err e => ([], Err e)
    end
  end.
(** 152-180 [main], from the record that was read ([from_url], line 156) and the answer typed in. *)
Definition main (semicolons : bool) (r : record) (log_url input_id : text) : list (text * page) * res unit :=
  match planned_players (r_players r) input_id with
  | Ok planned => write_reports semicolons r log_url planned
  | Err e => ([], Err e)
  end.

(** checker.py 12-23 [TenhouChecker.parse]: its first argument is a link (with what [from_url]
    makes of it), a record, or something else. *)
Inductive source := Link (url : text) (fetched : res record) | OfRecord (r : record) | OtherArgument.
Definition parse (semicolons : bool) (record_or_url : source) (player_index : Z) (generate_filename : bool) : res (option text * page) :=
  do ru <- match record_or_url with
           | Link url fetched => do r <- fetched; Ok (r, Some url)
           | OfRecord r => Ok (r, None)
           | OtherArgument => Err TypeError
           end;
  do player <- py_nth (r_players (fst ru)) player_index;
  render_template semicolons player (fst ru) (snd ru) None generate_filename.
