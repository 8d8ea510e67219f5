(** Model of mahjong/templates/record_checker_template.html as jinja2 renders it, with the environment of
    tenhou_record_check.py 137-149 (HTML escaping is on, white space is kept except at the minus signs) and the
    filters of 126-134 and 148. The numbers in the comments are lines of the template. *)
From Verif Require Import Base Category Tile TileSet Parse Text Tenhou Event Reader Url State Checker Show Report.
From Coq Require Import String List ZArith QArith Bool.
Import ListNotations.
Open Scope list_scope.
Open Scope Z_scope.

(** ** The literal parts; comments between braces and number signs are dropped (77-78, 107). *)
(** 1-13. *)
Definition L1 : text := t_ "<!DOCTYPE html>
<html lang=""en"">
<head>
    <meta charset=""UTF-8"">
    <title>Record Checker Result</title>
    <style type=""text/css"">
        .tile {
            letter-spacing: -12px;
            font-size: 36px;
            padding-right: 12px;
        }

        ".
(** 13-14. *)
Definition L13 : text := t_ "
            .pic".
(** 14-15. *)
Definition L14 : text := t_ " {
                background-image: url(""data:image/png;base64,".
(** 15-17. *)
Definition L15 : text := t_ """);
            }
        ".
(** 17-77. *)
Definition L17 : text := t_ "

        .big {
            width: 24px;
            height: 30px;
            display: inline-block;
            background-size: cover;
        }

        .small {
            width: 16px;
            height: 20px;
            display: inline-block;
            background-size: cover;
        }

        .tile-small {
            letter-spacing: -7.5px;
            font-size: 24px;
            padding-right: 12px;
        }

        .game-caption {
            font-size: 24px;
        }

        .reasoning-tile {
            border-bottom: 1px solid grey;
        }

        table {
            border-collapse: collapse;
        }

        table, th, td {
            border: 1px solid black;
        }

        .hint-red {
            background-color: red;
        }

        .hint-blue {
            background-color: blue;
        }

        .description-table {
            display: inline-table;
        }

        .blackbox {
            border-color: black;
            border-width: medium;
            border-style: dashed;
            display: inline-block;
        }
    </style>
</head>
<body>

".
(** 77-102. *)
Definition L77 : text := t_ "







".
(** 81-82. *)
Definition L81 : text := t_ "<div class=""pic".
(** 82. *)
Definition L82 : text := t_ " ".
(** 82-83. *)
Definition L83 : text := t_ """></div>".
(** 87-89. *)
Definition L87 : text := t_ "
        <div class=""reasoning-tile"">
            <div>Discard&nbsp;".
(** 89-91. *)
Definition L89 : text := t_ "
                <div class=""blackbox"">
                    Steps ".
(** 91-92. *)
Definition L91 : text := t_ "
                    Tiles ".
(** 92-95. *)
Definition L92 : text := t_ "
                </div>
            </div>
            <div>Expect ".
(** 95-98. *)
Definition L95 : text := t_ "
            </div>
        </div>
    ".
(** 102-106. *)
Definition L102 : text := t_ "

<hr>

".
(** 106-108. *)
Definition L106 : text := t_ "

<p> Player: ".
(** 108-109. *)
Definition L108 : text := t_ " </p>
<p>".
(** 109. *)
Definition L109 : text := t_ " <a href=""".
(** 109-123. *)
Definition L110 : text := t_ """>Link</a></p>

<p>
    Hint: <span class=""hint-red"">Red</span> color is before richii,
    <span class=""hint-blue"">Blue</span> Color is after richii, which could be accepted(may go to defence, or could't
    change waiting tiles.)


</p>
<p>The more it colored, the worse it has been choosen.</p>
<p>
    " ++ [25552; 31034; 65306] ++ t_ "<span class=""hint-red"">" ++ [32418; 33394] ++ t_ "</span>" ++ [20026; 31435; 30452; 21069; 65292] ++ t_ "<span class=""hint-blue"">" ++ [34013; 33394] ++ t_ "</span>" ++ [20026; 31435; 30452; 21518; 65292; 21487; 20197; 25509; 21463; 65288; 21487; 33021; 36827; 20837; 38450; 23432; 65292; 25110; 32773; 26080; 27861; 20999; 25442; 21548; 29260; 12290; 65289] ++ t_ "
</p>

".
(** 123-126. *)
Definition L123 : text := t_ "
    <div>
        <details open>
            <summary><span class=""game-caption"">".
(** 126-135. *)
Definition L126 : text := t_ "</span></summary>
            <table>
                <tr>
                    <th>Round <br>(" ++ [24033; 30446] ++ t_ ")</th>
                    <th>Hand <br>(" ++ [25163; 29260] ++ t_ ")</th>
                    <th>Your Choice <br>(" ++ [20320; 30340; 36873; 25321] ++ t_ ")</th>
                    <th>Expected Choice <br>(" ++ [26399; 26395; 36873; 25321] ++ t_ ")</th>
                    <th>Reasoning <br>(" ++ [29260; 29702] ++ t_ ")</th>
                </tr>
                ".
(** 135-136. *)
Definition L135 : text := t_ "
                    <tr style=""background-color: ".
(** 136. *)
Definition L136_blue : text := t_ " rgba(0, 0, 255, ".
(** 136. *)
Definition L136_red : text := t_ " rgba(255, 0, 0, ".
(** 136-137. *)
Definition L136 : text := t_ ");"">
                        <td>".
(** 137-139. *)
Definition L137 : text := t_ "</td>
                        <td>
                            ".
(** 139. *)
Definition L139 : text := t_ "&nbsp;".
(** 139-140. *)
Definition L140 : text := t_ "
                            ".
(** 140-142. *)
Definition L141 : text := t_ "
                        </td>
                        <td class=""tile"">".
(** 142-144. *)
Definition L142 : text := t_ "</td>
                        <td class=""tile"">
                            ".
(** 144-145. *)
Definition L144 : text := t_ "
                                ".
(** 145-153. *)
Definition L145 : text := t_ "
                        </td>
                        <td>
                            <details>
                                <summary>
                                    <table class=""description-table"">
                                        <tr>
                                            <td>Expected</td>
                                            <td>Steps ".
(** 153-154. *)
Definition L153 : text := t_ "
                                                Tiles ".
(** 154-158. *)
Definition L154 : text := t_ "</td>
                                        </tr>
                                        <tr>
                                            <td>Actual</td>
                                            <td>Steps ".
(** 158-159. *)
Definition L158 : text := t_ "
                                                Tiles ".
(** 159-163. *)
Definition L159 : text := t_ "</td>
                                        </tr>
                                    </table>
                                </summary>
                                ".
(** 163-168. *)
Definition L163 : text := t_ "
                                <details>
                                    <summary>
                                        Normal-Type Reasoning
                                    </summary>
                                    ".
(** 168-174. *)
Definition L168 : text := t_ "
                                </details>
                                <details>
                                    <summary>
                                        Seven-Pair Reasoning
                                    </summary>
                                    ".
(** 174-179. *)
Definition L174 : text := t_ "
                                </details>
                            </details>
                        </td>
                    </tr>
                ".
(** 179-183. *)
Definition L179 : text := t_ "
            </table>
        </details>
    </div>
".
(** 183-185. *)
Definition L183 : text := t_ "
</body>
</html>".

(** ** Escaping (markupsafe), and base64 (148: [base64.standard_b64encode]). *)
Definition escape_char (c : Z) : text :=
  if c =? 38 then t_ "&amp;" else if c =? 62 then t_ "&gt;" else if c =? 60 then t_ "&lt;"
  else if c =? 39 then t_ "&#39;" else if c =? 34 then t_ "&#34;" else [c].
Definition escape (s : text) : text := flat_map escape_char s.
Definition b64_alphabet : text := t_ "ABCDEFGHIJKLMNOPQRSTUVWXYZabcdefghijklmnopqrstuvwxyz0123456789+/".
Definition b64_char (n : Z) : Z := nth (Z.to_nat n) b64_alphabet 65.
Fixpoint b64encode (bytes : list Z) : text :=
  match bytes with
  | a :: b :: c :: r =>
    b64_char (a / 4) :: b64_char (a mod 4 * 16 + b / 16) :: b64_char (b mod 16 * 4 + c / 64) :: b64_char (c mod 64) :: b64encode r
  | [a; b] => [b64_char (a / 4); b64_char (a mod 4 * 16 + b / 16); b64_char (b mod 16 * 4); 61]
  | [a] => [b64_char (a / 4); b64_char (a mod 4 * 16); 61; 61]
  | [] => []
  end.

Section Page.
(** [load_raw]: what tenhou_record_check.py 126-134 reads for a file name in the directory mjpic, bytes or an
    exception. [float_str]: [str] of the float the rate is (the model has the exact number). *)
Variable load_raw : text -> res (list Z).
Variable float_str : Q -> text.

(** 14-16: the rule for the picture of a tile. *)
Definition rule (tile_name : text) : res text :=
  do bytes <- load_raw (tile_name ++ t_ ".png");
  Ok (L13 ++ escape tile_name ++ L14 ++ b64encode bytes ++ L15).
(** 80-84 [tile]. *)
Definition tile_divs (size : text) (tile_list : list text) : text :=
  flat_map (fun tile_item => L81 ++ escape tile_item ++ L82 ++ escape size ++ L83) tile_list.
Definition number (z : Z) : text := escape (str_int z).
(** 86-99 [reasoning_display]. *)
Definition reasoning_row (reasoning : shown) : text :=
  L87 ++ tile_divs (t_ "small") (sh_discard reasoning) ++ L89 ++ number (sh_step reasoning) ++ L91 ++ number (sh_count reasoning) ++
  L92 ++ tile_divs (t_ "small") (sh_useful reasoning) ++ L95.
Definition reasoning_display (selected : list shown) : text := flat_map reasoning_row selected.
(** An attribute set by [setattr]; one that is not set is undefined, and a loop over it does nothing. *)
Definition extra (name : string) (r : round) : list shown :=
  match find (fun e => text_eqb (fst e) (t_ name)) (rr_extra r) with Some e => snd e | None => [] end.
(** 136-178: the row number [i] (from 1). The first expected row is undefined if there is none, and so is its
    attribute: UndefinedError, here AttributeError. *)
Definition round_html (i : Z) (r : round) : res text :=
  match rr_expected r with
  | [] => Err AttributeError
  | best :: _ => Ok (
    L135 ++ (if rr_somebody_richii r then L136_blue else L136_red) ++ escape (float_str (rr_wrong_rate r)) ++
    L136 ++ number i ++
    L137 ++ flat_map (fun meld => tile_divs (t_ "big") meld ++ L139) (rr_melds r) ++
    L140 ++ tile_divs (t_ "big") (rr_hand r) ++
    L141 ++ tile_divs (t_ "big") (sh_discard (rr_choice r)) ++
    L142 ++ flat_map (fun reasoning => L144 ++ tile_divs (t_ "big") (sh_discard reasoning)) (rr_expected r) ++
    L145 ++ number (sh_step best) ++ L153 ++ number (sh_count best) ++
    L154 ++ number (sh_step (rr_choice r)) ++ L158 ++ number (sh_count (rr_choice r)) ++
    L159 ++ reasoning_display (rr_merged r) ++
    L163 ++ reasoning_display (extra "normal_reasonings" r) ++
    L168 ++ reasoning_display (extra "seven_pair_reasonings" r) ++
    L174)
  end.
(** 135-179. *)
Fixpoint rounds_html (i : Z) (rounds : list round) : res text :=
  match rounds with
  | [] => Ok []
  | r :: rest => do a <- round_html i r; do b <- rounds_html (i + 1) rest; Ok (a ++ b)
  end.
(** 124-182. *)
Definition game_html (g : text * list round) : res text :=
  do rows <- rounds_html 1 (snd g); Ok (L123 ++ escape (fst g) ++ L126 ++ rows ++ L179).
(** 1-185 [template.render]. A link that is None is shown as "None". *)
Definition render (p : page) : res text :=
  do rules <- mapM rule (pg_tiles p);
  do games <- mapM game_html (pg_games p);
  Ok (L1 ++ concat rules ++ L17 ++ L77 ++ tile_divs (t_ "big") (pg_tiles p) ++ L102 ++ tile_divs (t_ "small") (pg_tiles p) ++
      L106 ++ escape (pg_player p) ++ L108 ++ escape (pg_record p) ++
      L109 ++ escape (match pg_url p with Some u => u | None => t_ "None" end) ++
      L110 ++ concat games ++ L183).
End Page.
