(** Model of what is made of the text of a log: mahjong/record/reader.py 193-198 ([from_url]
    with the text that came, [from_file]), util_functions.py 54-60 and utils/event.py 109-112
    ([TenhouEvent.__str__]). *)
From Verif Require Import Base Category Tile Parse Text Tenhou Event Reader Table Show Xml.
From Coq Require Import String List ZArith Lia Bool.
Import ListNotations.
Open Scope list_scope.
Open Scope Z_scope.

(** What a reading function does with a text: it goes on with the elements below the root,
    raises [ET.ParseError], or the text is outside the model of the parser (Xml.v). *)
Inductive reading (A : Type) := Read (a : A) | Malformed | Outside.
Arguments Read {A} a.
Arguments Malformed {A}.
Arguments Outside {A}.
Definition with_elements {A} (t : text) (f : list event -> A) : reading A :=
  match Xml.fromstring t with Document _ es => Read (f es) | ParseError => Malformed | NotModelled => Outside end.
(** reader.py 193-198: [next(ET.parse(file).iter())] is the root, and [TenhouRecord] iterates
    over it (reader.py 118-121). *)
Definition from_file (t : text) : reading (res record) := with_elements t new_record.
(** util_functions.py 54-60. *)
Definition light_dataframe_from_file (file_path : text) (t : text) (abstract : bool) : reading (list (row * text)) :=
  with_elements t (light_dataframe file_path abstract).
(** event.py 109-112 [__str__]: the description, a colon, the element written again. The
    element has no children and no text after it. *)
Definition event_str (set_order : list Z -> list Z) (order : list (text * text) -> list (text * text)) (e : event) : res text :=
  do b <- base_str set_order e; Ok (b ++ t_ ":" ++ tostring order e).
