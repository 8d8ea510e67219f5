(** Model of reading and writing the text of a log: [ET.fromstring] and [ET.parse]
    (xml.etree.ElementTree) as used in mahjong/record/reader.py 193-198 and
    util_functions.py 55 and [ET.tostring] as used in utils/event.py 109-112.

    The parser reads characters one by one. It is a model of XML 1.0 for what logs contain:
    elements, attributes, references and blanks. Constructs beyond that (declarations,
    comments, character data between the elements, name spaces, names with characters beyond
    ASCII, a raw carriage return in a value) lead to [NotModelled]. The bytes of a file are
    taken as decoded. *)
From Verif Require Import Base Category Tile Parse Text Tenhou Event.
From Coq Require Import String List ZArith Lia Bool.
Import ListNotations.
Open Scope list_scope.
Open Scope Z_scope.

(** Characters: XML 1.0, production 2; blanks: production 3; names: 4, 4a (the ASCII part,
    without the colon). *)
Definition in_range (a b c : Z) : bool := (a <=? c) && (c <=? b).
Definition xml_char (c : Z) : bool :=
  (c =? 9) || (c =? 10) || (c =? 13) || in_range 32 55295 c || in_range 57344 65533 c || in_range 65536 1114111 c.
Definition xml_blank (c : Z) : bool := (c =? 32) || (c =? 9) || (c =? 10) || (c =? 13).
Definition name_start (c : Z) : bool := in_range 65 90 c || in_range 97 122 c || (c =? 95).
Definition name_char (c : Z) : bool := name_start c || in_range 48 57 c || (c =? 45) || (c =? 46).
(** Characters that may be part of a name in ways not modelled. *)
Definition beyond (c : Z) : bool := (128 <=? c) || (c =? 58).

(** References (productions 66 and 68, and 4.6 for the five names). *)
Definition hex_digit (c : Z) : option Z :=
  if in_range 48 57 c then Some (c - 48) else if in_range 97 102 c then Some (c - 87) else if in_range 65 70 c then Some (c - 55) else None.
Fixpoint hex_val (acc : Z) (s : text) : option Z :=
  match s with [] => Some acc | c :: r => match hex_digit c with Some d => hex_val (acc * 16 + d) r | None => None end end.
Definition legal (c : Z) : option Z := if xml_char c then Some c else None.
Definition reference (s : text) : option Z :=
  match s with
  | 35 :: 120 :: (_ :: _) as h => match hex_val 0 (skipn 2 s) with Some c => legal c | None => None end
  | 35 :: (_ :: _) as d => if forallb ch_digit (skipn 1 s) then legal (digits_val (skipn 1 s)) else None
  | _ => if text_eqb s (t_ "amp") then Some 38 else if text_eqb s (t_ "lt") then Some 60 else if text_eqb s (t_ "gt") then Some 62
         else if text_eqb s (t_ "quot") then Some 34 else if text_eqb s (t_ "apos") then Some 39 else None
  end.

(** The document read so far: names of the open elements (innermost first), the root, its
    children (last first). Elements below the children are skipped, the program does not look
    at them. *)
Record doc := mkDoc { d_open : list text; d_root : option event; d_seen : list event }.
Definition add_element (d : doc) (e : event) : doc :=
  match d_open d with
  | [] => mkDoc [] (Some e) (d_seen d)
  | [_] => mkDoc (d_open d) (d_root d) (e :: d_seen d)
  | _ => d
  end.
Definition push (d : doc) (t : text) : doc := mkDoc (t :: d_open d) (d_root d) (d_seen d).

(** Where the parser is. Names, values and lists are kept reversed while they grow. *)
Inductive state :=
| Between (d : doc)
| Less (d : doc)
| TagName (d : doc) (n : text)
| InTag (d : doc) (t : text) (l : list (text * text)) (gap : bool)
| AttrName (d : doc) (t : text) (l : list (text * text)) (n : text)
| AttrGap (d : doc) (t : text) (l : list (text * text)) (n : text)
| Equals (d : doc) (t : text) (l : list (text * text)) (n : text)
| Value (d : doc) (t : text) (l : list (text * text)) (n : text) (q : Z) (v : text)
| Ref (d : doc) (t : text) (l : list (text * text)) (n : text) (q : Z) (v r : text)
| Slash (d : doc) (t : text) (l : list (text * text))
| EndName (d : doc) (n : text)
| EndGap (d : doc) (n : text)
| Bad | Other.

Definition other_or_bad (c : Z) : state := if beyond c then Other else Bad.
Definition start_tag (d : doc) (t : text) (l : list (text * text)) : state := Between (push (add_element d (mkEvent t (rev l))) t).
Definition end_tag (d : doc) (n : text) : state :=
  match d_open d with
  | x :: r => if text_eqb x n then Between (mkDoc r (d_root d) (d_seen d)) else Bad
  | [] => Bad
  end.
Definition end_value (d : doc) (t : text) (l : list (text * text)) (n v : text) : state :=
  if text_eqb n (t_ "xmlns") then Other
  else if existsb (fun kv => text_eqb (fst kv) n) l then Bad
  else InTag d t ((n, v) :: l) false.

Definition step (s : state) (c : Z) : state :=
  match s with
  | Between d =>
    if xml_blank c then s
    else if c =? 60 then Less d
    else match d_open d with
         | [] => if c =? 65279 then Other else Bad
         | _ => if xml_char c then Other else Bad
         end
  | Less d =>
    if c =? 47 then match d_open d with [] => Bad | _ => EndName d [] end
    else if (c =? 33) || (c =? 63) then Other
    else if name_start c then
      match d_open d, d_root d with [], Some _ => Bad | _, _ => TagName d [c] end
    else other_or_bad c
  | TagName d n =>
    if name_char c then TagName d (c :: n)
    else if xml_blank c then InTag d (rev n) [] true
    else if c =? 47 then Slash d (rev n) []
    else if c =? 62 then start_tag d (rev n) []
    else other_or_bad c
  | InTag d t l gap =>
    if xml_blank c then InTag d t l true
    else if c =? 47 then Slash d t l
    else if c =? 62 then start_tag d t l
    else if name_start c then if gap then AttrName d t l [c] else Bad
    else other_or_bad c
  | AttrName d t l n =>
    if name_char c then AttrName d t l (c :: n)
    else if xml_blank c then AttrGap d t l n
    else if c =? 61 then Equals d t l n
    else other_or_bad c
  | AttrGap d t l n => if xml_blank c then s else if c =? 61 then Equals d t l n else Bad
  | Equals d t l n =>
    if xml_blank c then s else if (c =? 34) || (c =? 39) then Value d t l (rev n) c [] else Bad
  | Value d t l n q v =>
    if c =? q then end_value d t l n (rev v)
    else if c =? 38 then Ref d t l n q v []
    else if c =? 60 then Bad
    else if c =? 13 then Other
    else if (c =? 9) || (c =? 10) then Value d t l n q (32 :: v)
    else if xml_char c then Value d t l n q (c :: v) else Bad
  | Ref d t l n q v r =>
    if c =? 59 then match reference (rev r) with Some x => Value d t l n q (x :: v) | None => Bad end
    else if name_char c || (c =? 35) then Ref d t l n q v (c :: r)
    else other_or_bad c
  | Slash d t l => if c =? 62 then Between (add_element d (mkEvent t (rev l))) else Bad
  | EndName d n =>
    if (match n with [] => name_start c | _ => name_char c end) then EndName d (c :: n)
    else if c =? 62 then end_tag d (rev n)
    else if xml_blank c then match n with [] => Bad | _ => EndGap d n end
    else other_or_bad c
  | EndGap d n => if xml_blank c then s else if c =? 62 then end_tag d (rev n) else Bad
  | Bad => Bad
  | Other => Other
  end.

(** What [ET.fromstring] answers: the root and its children, [ParseError], or unknown. *)
Inductive parsed := Document (root : event) (children : list event) | ParseError | NotModelled.
Definition answer (s : state) : parsed :=
  match s with
  | Between (mkDoc [] (Some e) seen) => Document e (rev seen)
  | Other => NotModelled
  | _ => ParseError
  end.
Definition run (s : state) (t : text) : state := fold_left step t s.
Definition fromstring (t : text) : parsed := answer (run (Between (mkDoc [] None [])) t).

(** ** [ET.tostring(element)] of Python 3.7 for an element without children and text:
    [_serialize_xml], [_escape_attrib] (the replacements one after the other change each
    character by itself, except that a carriage return and a newline after it are one newline),
    and the encoding to ASCII with character references. Attributes are written in the order of
    their names before Python 3.8 and in their own order since: [order]. *)
Definition escape_char (c : Z) : text :=
  if c =? 38 then t_ "&amp;" else if c =? 60 then t_ "&lt;" else if c =? 62 then t_ "&gt;" else if c =? 34 then t_ "&quot;"
  else if c =? 10 then t_ "&#10;" else if c =? 9 then t_ "&#09;" else [c].
Fixpoint newlines (s : text) : text :=
  match s with
  | 13 :: 10 :: r => 10 :: newlines r
  | 13 :: r => 10 :: newlines r
  | c :: r => c :: newlines r
  | [] => []
  end.
Definition escape_attrib (s : text) : text := flat_map escape_char (newlines s).
Definition to_ascii (s : text) : text :=
  flat_map (fun c => if c <? 128 then [c] else t_ "&#" ++ str_int c ++ t_ ";") s.
Definition tostring (order : list (text * text) -> list (text * text)) (e : event) : text :=
  to_ascii (t_ "<" ++ tag e ++
    flat_map (fun kv => t_ " " ++ fst kv ++ [61; 34] ++ escape_attrib (snd kv) ++ [34]) (order (attrib e)) ++ t_ " />").
