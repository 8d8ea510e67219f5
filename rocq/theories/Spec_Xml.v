(** Specification vocabulary: the texts that write a log (XML). Independent of the parser. *)
From Verif Require Import Base Category Tile Parse Text Tenhou Event.
From Coq Require Import String List ZArith Bool.
Import ListNotations.
Open Scope list_scope.
Open Scope Z_scope.

(** Blank, tab, newline, carriage return. *)
Definition blanks (w : text) : Prop := Forall (fun c => In c [32; 9; 10; 13]) w.
(** Characters a document may contain at all. *)
Definition character (c : Z) : Prop :=
  In c [9; 10; 13] \/ 32 <= c <= 55295 \/ 57344 <= c <= 65533 \/ 65536 <= c <= 1114111.
Definition letter (c : Z) : Prop := 65 <= c <= 90 \/ 97 <= c <= 122 \/ c = 95.
Definition digit (c : Z) : Prop := 48 <= c <= 57.
(** A name: a letter or underscore, then letters, digits, underscores, '-' and '.'. *)
Definition name (n : text) : Prop :=
  exists c r, n = c :: r /\ letter c /\ Forall (fun c => letter c \/ digit c \/ c = 45 \/ c = 46) r.

(** Numbers written in decimal and in hexadecimal digits. *)
Inductive decimal : text -> Z -> Prop :=
| dec_one : forall d, digit d -> decimal [d] (d - 48)
| dec_more : forall s n d, decimal s n -> digit d -> decimal (s ++ [d]) (10 * n + (d - 48)).
Definition hexadecimal_digit (c v : Z) : Prop :=
  (digit c /\ v = c - 48) \/ (97 <= c <= 102 /\ v = c - 97 + 10) \/ (65 <= c <= 70 /\ v = c - 65 + 10).
Inductive hexadecimal : text -> Z -> Prop :=
| hex_one : forall d v, hexadecimal_digit d v -> hexadecimal [d] v
| hex_more : forall s n d v, hexadecimal s n -> hexadecimal_digit d v -> hexadecimal (s ++ [d]) (16 * n + v).
(** The five named characters. *)
Definition named_characters : list (text * Z) := [(t_ "amp", 38); (t_ "lt", 60); (t_ "gt", 62); (t_ "quot", 34); (t_ "apos", 39)].

(** [written q v s]: between the quotes [q], the value [v] may be written [s]: characters as
    they are ('<', '&' and the quote excepted), tabs and newlines for blanks, references. *)
Inductive written (q : Z) : text -> text -> Prop :=
| wr_end : written q [] []
| wr_plain : forall c v s, character c -> ~ In c [9; 10; 13; 60; 38; q] -> written q v s -> written q (c :: v) (c :: s)
| wr_blank : forall c v s, In c [9; 10] -> written q v s -> written q (32 :: v) (c :: s)
| wr_name : forall n c v s, In (n, c) named_characters -> written q v s -> written q (c :: v) (t_ "&" ++ n ++ t_ ";" ++ s)
| wr_decimal : forall n c v s, decimal n c -> character c -> written q v s -> written q (c :: v) (t_ "&#" ++ n ++ t_ ";" ++ s)
| wr_hexadecimal : forall n c v s, hexadecimal n c -> character c -> written q v s -> written q (c :: v) (t_ "&#x" ++ n ++ t_ ";" ++ s).

(** The attributes of an element: each after some blank. *)
Inductive attributes : list (text * text) -> text -> Prop :=
| at_end : attributes [] []
| at_one : forall w n w1 w2 q v s l r, blanks w -> w <> [] -> name n -> n <> t_ "xmlns" -> blanks w1 -> blanks w2 -> In q [34; 39] ->
    written q v s -> attributes l r ->
    attributes ((n, v) :: l) (w ++ n ++ w1 ++ t_ "=" ++ w2 ++ [q] ++ s ++ [q] ++ r).
(** What stands between '<' and '>' or '/>'. *)
Definition opening (e : event) (s : text) : Prop :=
  exists a w, name (tag e) /\ NoDup (map fst (attrib e)) /\ attributes (attrib e) a /\ blanks w /\ s = tag e ++ a ++ w.

(** A sequence of elements with blanks between; elements may have elements inside. *)
Inductive content : list event -> text -> Prop :=
| co_end : forall w, blanks w -> content [] w
| co_empty : forall w e o es s, blanks w -> opening e o -> content es s -> content (e :: es) (w ++ t_ "<" ++ o ++ t_ "/>" ++ s)
| co_full : forall w e o inner x w' es s, blanks w -> opening e o -> content inner x -> blanks w' -> content es s ->
    content (e :: es) (w ++ t_ "<" ++ o ++ t_ ">" ++ x ++ t_ "</" ++ tag e ++ w' ++ t_ ">" ++ s).
(** A document: one element with the events inside. *)
Definition document (root : event) (events : list event) (s : text) : Prop :=
  exists w o w2, blanks w /\ opening root o /\ blanks w2 /\
    ((exists x w1, content events x /\ blanks w1 /\ s = w ++ t_ "<" ++ o ++ t_ ">" ++ x ++ t_ "</" ++ tag root ++ w1 ++ t_ ">" ++ w2) \/
     (events = [] /\ s = w ++ t_ "<" ++ o ++ t_ "/>" ++ w2)).

(** An event whose names and values can be written. *)
Definition writable (e : event) : Prop :=
  name (tag e) /\ NoDup (map fst (attrib e)) /\
  Forall (fun kv => name (fst kv) /\ fst kv <> t_ "xmlns" /\ Forall (fun c => character c /\ c <> 13) (snd kv)) (attrib e).
