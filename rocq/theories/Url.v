(** Model of the links and quoted names of a record: mahjong/record/reader.py 20-40
    ([download_url], [log_id_from_url], [log_id_to_url]) and player.py 17 ([unquote]), with
    the parts of Python's urllib.parse they use. *)
From Verif Require Import Base Parse Text Reader.
From Coq Require Import String List ZArith Bool.
Import ListNotations.
Open Scope list_scope.
Open Scope Z_scope.

(** ** urllib.parse.unquote *)
(** The value of a hexadecimal digit. *)
Definition hex_digit (c : Z) : option Z :=
  if (48 <=? c) && (c <=? 57) then Some (c - 48)
  else if (65 <=? c) && (c <=? 70) then Some (c - 55)
  else if (97 <=? c) && (c <=? 102) then Some (c - 87)
  else None.
(** [unquote_to_bytes] of an ASCII text: escapes become bytes, a percent sign without two
    hexadecimal digits stays. *)
Fixpoint unquote_to_bytes (s : text) : list Z :=
  match s with
  | [] => []
  | c :: r =>
    if c =? 37 then
      match r with
      | a :: (b :: r2) =>
        match hex_digit a, hex_digit b with
        | Some x, Some y => 16 * x + y :: unquote_to_bytes r2
        | _, _ => c :: unquote_to_bytes r
        end
      | _ => c :: unquote_to_bytes r
      end
    else c :: unquote_to_bytes r
  end.

(** [bytes.decode('utf-8', 'replace')] as CPython does it: a maximal ill-formed piece becomes
    one U+FFFD. *)
Definition byte_in (a b x : Z) : bool := (a <=? x) && (x <=? b).
Definition cont_byte : Z -> bool := byte_in 128 191.
(** The second byte that may follow a lead byte of three or four. *)
Definition second_of_three (b b1 : Z) : bool :=
  if b =? 224 then byte_in 160 191 b1 else if b =? 237 then byte_in 128 159 b1 else cont_byte b1.
Definition second_of_four (b b1 : Z) : bool :=
  if b =? 240 then byte_in 144 191 b1 else if b =? 244 then byte_in 128 143 b1 else cont_byte b1.
Fixpoint utf8_decode (l : list Z) : text :=
  match l with
  | [] => []
  | b :: r =>
    if b <? 128 then b :: utf8_decode r
    else if byte_in 194 223 b then
      match r with
      | [] => [65533]
      | b1 :: r1 => if cont_byte b1 then (b - 192) * 64 + (b1 - 128) :: utf8_decode r1 else 65533 :: utf8_decode r
      end
    else if byte_in 224 239 b then
      match r with
      | [] => [65533]
      | b1 :: r1 =>
        if second_of_three b b1 then
          match r1 with
          | [] => [65533]
          | b2 :: r2 => if cont_byte b2 then (b - 224) * 4096 + (b1 - 128) * 64 + (b2 - 128) :: utf8_decode r2
                        else 65533 :: utf8_decode r1
          end
        else 65533 :: utf8_decode r
      end
    else if byte_in 240 244 b then
      match r with
      | [] => [65533]
      | b1 :: r1 =>
        if second_of_four b b1 then
          match r1 with
          | [] => [65533]
          | b2 :: r2 =>
            if cont_byte b2 then
              match r2 with
              | [] => [65533]
              | b3 :: r3 =>
                if cont_byte b3
                then (b - 240) * 262144 + (b1 - 128) * 4096 + (b2 - 128) * 64 + (b3 - 128) :: utf8_decode r3
                else 65533 :: utf8_decode r2
              end
            else 65533 :: utf8_decode r1
          end
        else 65533 :: utf8_decode r
      end
    else 65533 :: utf8_decode r
  end.

(** [unquote]: the ASCII runs are unquoted and decoded one by one, other characters stay.
    [run] is the current run, backwards. *)
Fixpoint unquote_runs (run : text) (s : text) : text :=
  match s with
  | [] => utf8_decode (unquote_to_bytes (rev run))
  | c :: r => if c <? 128 then unquote_runs (c :: run) r
              else utf8_decode (unquote_to_bytes (rev run)) ++ c :: unquote_runs [] r
  end.
Definition py_unquote (s : text) : text := if existsb (Z.eqb 37) s then unquote_runs [] s else s.

(** player.py 17: the name of a player is the unquoted one. *)
Definition player_name (p : player) : text := py_unquote (pl_name p).

(** ** urllib.parse.urlparse and parse_qs *)
(** [s.split(c, 1)]: the part before the first [c], and the part after it if there is one. *)
Fixpoint cut (c : Z) (s : text) : text * option text :=
  match s with
  | [] => ([], None)
  | x :: r => if x =? c then ([], Some r) else let (a, b) := cut c r in (x :: a, b)
  end.
(** [urlparse(url).query]. Neither a scheme nor a host can hold a question mark or a number
    sign, so the query is what follows the first question mark before the first number sign.
    Simplified: newer Pythons also remove tabs and line ends, and all versions raise
    ValueError for a host with one square bracket; links of that kind are outside the model. *)
Definition url_query (url : text) : text :=
  match snd (cut 63 (fst (cut 35 url))) with Some q => q | None => [] end.
(** [parse_qsl(qs)] with its defaults. [semicolons]: Pythons before 3.9.2 also split at
    semicolons. A part without '=' or without a value is dropped. *)
Definition plus_to_space (s : text) : text := map (fun c => if c =? 43 then 32 else c) s.
Definition query_parts (semicolons : bool) (qs : text) : list text :=
  let parts := split_on 38 qs in
  if semicolons then flat_map (split_on 59) parts else parts.
Definition query_pair (part : text) : list (text * text) :=
  match cut 61 part with
  | (_, None) => []
  | (_, Some []) => []
  | (k, Some v) => [(py_unquote (plus_to_space k), py_unquote (plus_to_space v))]
  end.
Definition parse_qsl (semicolons : bool) (qs : text) : list (text * text) := flat_map query_pair (query_parts semicolons qs).
(** [parse_qs(qs)[name][0]]: KeyError if there is no such name. *)
Fixpoint first_value (name : text) (l : list (text * text)) : res text :=
  match l with
  | [] => Err KeyError
  | (k, v) :: r => if text_eqb k name then Ok v else first_value name r
  end.

(** ** reader.py *)
(** 33-35. *)
Definition log_id_from_url (semicolons : bool) (view_url : text) : res text :=
  first_value (t_ "log") (parse_qsl semicolons (url_query view_url)).
(** 38-39. *)
Definition log_id_to_url (log_id : text) : text := t_ "http://tenhou.net/0/?log=" ++ log_id.
(** 27-30, with the template of constant.py 116. *)
Definition download_url (semicolons : bool) (view_url : text) : res text :=
  do log_id <- log_id_from_url semicolons view_url; Ok (t_ "http://e.mjv.jp/0/log/?" ++ log_id).
