(** Specification vocabulary for the report page: how a browser reads a page (tags, characters, character
    references), and what somebody looking at it sees: words and pictures of tiles. *)
From Verif Require Import Base Parse Text.
From Coq Require Import String List ZArith Bool.
Import ListNotations.
Open Scope list_scope.
Open Scope Z_scope.

(** ** Reading HTML *)
Inductive token := Tag (s : text) | Char (c : Z).
(** In running text, in a tag, in a quoted attribute value of a tag, in a character reference. *)
Inductive mode := Data | InTag (sofar : text) | InQuotes (sofar : text) | InRef (sofar : text).
Definition references : list (text * Z) :=
  [(t_ "amp", 38); (t_ "lt", 60); (t_ "gt", 62); (t_ "quot", 34); (t_ "#34", 34); (t_ "#39", 39); (t_ "nbsp", 160)].
(** A reference that is not known stays as it is. *)
Definition referred (name : text) : list token :=
  match find (fun e => text_eqb (fst e) name) references with
  | Some e => [Char (snd e)]
  | None => map Char ([38] ++ name ++ [59])
  end.
Definition step (m : mode) (c : Z) : mode * list token :=
  match m with
  | Data => if c =? 60 then (InTag [], []) else if c =? 38 then (InRef [], []) else (Data, [Char c])
  | InTag s => if c =? 62 then (Data, [Tag s]) else if c =? 34 then (InQuotes (s ++ [c]), []) else (InTag (s ++ [c]), [])
  | InQuotes s => if c =? 34 then (InTag (s ++ [c]), []) else (InQuotes (s ++ [c]), [])
  | InRef s => if c =? 59 then (Data, referred s) else (InRef (s ++ [c]), [])
  end.
Fixpoint read (m : mode) (s : text) : mode * list token :=
  match s with
  | [] => (m, [])
  | c :: r => let '(m1, t1) := step m c in let '(m2, t2) := read m1 r in (m2, t1 ++ t2)
  end.
(** [reads s ts]: the text [s] is read completely, as these tags and characters. *)
Definition reads (s : text) (ts : list token) : Prop := read Data s = (Data, ts).
(** The tags alone; an attribute value as a browser understands it. *)
Definition tags (ts : list token) : list text := flat_map (fun t => match t with Tag s => [s] | Char _ => [] end) ts.
Definition means (written value : text) : Prop := ~ In 34 written /\ reads written (map Char value).

(** ** Looking at a page *)
Inductive sight := Word (w : text) | Pic (tile size : text).
(** Blanks, line feeds and non-breaking blanks separate words; so do tags. *)
Definition blank (c : Z) : bool := (c =? 32) || (c =? 10) || (c =? 160).
Definition word (w : text) : list sight := match w with [] => [] | _ => [Word w] end.
Fixpoint without_start (p s : text) : option text :=
  match p, s with
  | [], _ => Some s
  | a :: p', b :: s' => if a =? b then without_start p' s' else None
  | _, [] => None
  end.
Fixpoint up_to (c : Z) (s : text) : text * text :=
  match s with [] => ([], []) | x :: r => if x =? c then ([], r) else let (a, b) := up_to c r in (x :: a, b) end.
(** A tag whose class attribute is the picture class of a tile and a size. *)
Definition shows (tag : text) : list sight :=
  match without_start (t_ "div class=""pic") tag with
  | Some r => let (tile, s) := up_to 32 r in [Pic tile (fst (up_to 34 s))]
  | None => []
  end.
Fixpoint seen_after (w : text) (ts : list token) : list sight :=
  match ts with
  | [] => word w
  | Char c :: r => if blank c then word w ++ seen_after [] r else seen_after (w ++ [c]) r
  | Tag t :: r => word w ++ shows t ++ seen_after [] r
  end.
Definition seen (ts : list token) : list sight := seen_after [] ts.
Definition words (s : text) : list sight := seen (map Char s).
(** What follows the first of the given tags. *)
Fixpoint after_tag (t : text) (ts : list token) : list token :=
  match ts with
  | [] => []
  | Tag s :: r => if text_eqb s t then r else after_tag t r
  | Char _ :: r => after_tag t r
  end.
(** The text right after each of these tags, up to the next tag. *)
Fixpoint chars (ts : list token) : text := match ts with Char c :: r => c :: chars r | _ => [] end.
Fixpoint text_after (t : text) (ts : list token) : list text :=
  match ts with
  | [] => []
  | Tag s :: r => if text_eqb s t then chars r :: text_after t r else text_after t r
  | Char _ :: r => text_after t r
  end.

(** ** Base64 (RFC 4648): the value of a character, and the bytes of a text in groups of four. *)
Definition sextet (c : Z) : option Z :=
  if (65 <=? c) && (c <=? 90) then Some (c - 65)
  else if (97 <=? c) && (c <=? 122) then Some (c - 71)
  else if (48 <=? c) && (c <=? 57) then Some (c + 4)
  else if c =? 43 then Some 62 else if c =? 47 then Some 63 else None.
Inductive decodes : text -> list Z -> Prop :=
| decodes_nil : decodes [] []
| decodes_three : forall w x y z a b c d s bytes, sextet w = Some a -> sextet x = Some b -> sextet y = Some c -> sextet z = Some d ->
    decodes s bytes ->
    let n := ((a * 64 + b) * 64 + c) * 64 + d in
    decodes (w :: x :: y :: z :: s) (n / 65536 :: n / 256 mod 256 :: n mod 256 :: bytes)
| decodes_two : forall w x y a b c, sextet w = Some a -> sextet x = Some b -> sextet y = Some c ->
    let n := ((a * 64 + b) * 64 + c) * 64 in decodes [w; x; y; 61] [n / 65536; n / 256 mod 256]
| decodes_one : forall w x a b, sextet w = Some a -> sextet x = Some b ->
    let n := (a * 64 + b) * 64 * 64 in decodes [w; x; 61; 61] [n / 65536].

(** ** What the page of an analysis ought to show *)
From Verif Require Import Category Tile TileSet Tenhou Event Reader State Checker Show Report.
Definition say (s : string) : list sight := words (t_ s).
Definition pics (size : string) (tiles : list text) : list sight := map (fun t => Pic t (t_ size)) tiles.
Definition told (z : Z) : list sight := [Word (str_int z)].
(** One row of a reasoning: the discard, the distance, the number of useful tiles and these tiles. *)
Definition row_seen (x : shown) : list sight :=
  say "Discard" ++ pics "small" (sh_discard x) ++ say "Steps" ++ told (sh_step x) ++ say "Tiles" ++ told (sh_count x) ++
  say "Expect" ++ pics "small" (sh_useful x).
(** A row of the table of a deal: its number, melds and hand, the choice, the better choices, distance and number of
    useful tiles of the best choice and the actual one, and all reasonings; then those of the two patterns. *)
Definition round_seen (i : Z) (r : round) (normal seven_pairs : list shown) : list sight :=
  told i ++ pics "big" (concat (rr_melds r)) ++ pics "big" (rr_hand r) ++ pics "big" (sh_discard (rr_choice r)) ++
  pics "big" (flat_map sh_discard (rr_expected r)) ++
  flat_map (fun best => say "Expected Steps" ++ told (sh_step best) ++ say "Tiles" ++ told (sh_count best)) (firstn 1 (rr_expected r)) ++
  say "Actual Steps" ++ told (sh_step (rr_choice r)) ++ say "Tiles" ++ told (sh_count (rr_choice r)) ++
  flat_map row_seen (rr_merged r) ++
  say "Normal-Type Reasoning" ++ flat_map row_seen normal ++ say "Seven-Pair Reasoning" ++ flat_map row_seen seven_pairs.
(** The rows are numbered from 1. *)
Fixpoint rounds_seen (i : Z) (rounds : list round) : list sight :=
  match rounds with [] => [] | r :: rest => round_seen i r [] [] ++ rounds_seen (i + 1) rest end.
(** The headings; in Chinese as the characters' code points. *)
Definition headings : list sight :=
  say "Round" ++ words (t_ "(" ++ [24033; 30446] ++ t_ ")") ++ say "Hand" ++ words (t_ "(" ++ [25163; 29260] ++ t_ ")") ++
  say "Your Choice" ++ words (t_ "(" ++ [20320; 30340; 36873; 25321] ++ t_ ")") ++
  say "Expected Choice" ++ words (t_ "(" ++ [26399; 26395; 36873; 25321] ++ t_ ")") ++
  say "Reasoning" ++ words (t_ "(" ++ [29260; 29702] ++ t_ ")").
Definition deal_seen (g : text * list round) : list sight := words (fst g) ++ headings ++ rounds_seen 1 (snd g).
Definition introduction : list sight :=
  say "Hint: Red color is before richii, Blue Color is after richii, which could be accepted(may go to defence, or could't change waiting tiles.)" ++
  say "The more it colored, the worse it has been choosen." ++
  words [25552; 31034; 65306] ++ words [32418; 33394] ++ words [20026; 31435; 30452; 21069; 65292] ++ words [34013; 33394] ++
  words [20026; 31435; 30452; 21518; 65292; 21487; 20197; 25509; 21463; 65288; 21487; 33021; 36827; 20837; 38450; 23432; 65292; 25110; 32773; 26080;
         27861; 20999; 25442; 21548; 29260; 12290; 65289].
(** The page: all tiles in both sizes, player, record and link, the introduction, and the deals. *)
Definition page_seen (p : page) : list sight :=
  pics "big" (pg_tiles p) ++ pics "small" (pg_tiles p) ++ say "Player:" ++ words (pg_player p) ++ words (pg_record p) ++ say "Link" ++
  introduction ++ flat_map deal_seen (pg_games p).
(** The colour of a row: blue after a riichi, red before, the stronger the worse. *)
Definition colour (rate : text) (after_riichi : bool) : text :=
  t_ "tr style=""background-color:  rgba(" ++ (if after_riichi then t_ "0, 0, 255, " else t_ "255, 0, 0, ") ++ rate ++ t_ ");""".
