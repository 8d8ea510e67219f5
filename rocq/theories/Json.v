(** Model of the texts Python makes of values and reads back: [str], [json.dumps] and
    [json.loads] (standard library, as called by property_manager.py 73-91). *)
From Verif Require Import Base Parse Text Value.
From Coq Require Import String List ZArith Lia Bool.
Import ListNotations.
Open Scope list_scope.
Open Scope Z_scope.

(** ** Numbers. *)
(** A decimal without superfluous zeros: one digit after the point at least. *)
Fixpoint dec_norm (m : Z) (k : nat) : Z * nat :=
  match k with
  | O => (m * 10, 1%nat)
  | S O => (m, 1%nat)
  | S k' => if m mod 10 =? 0 then dec_norm (m / 10) k' else (m, k)
  end.
(** Exactly [k] digits of [r]. *)
Fixpoint fixed_digits (k : nat) (r : Z) : text :=
  match k with O => [] | S k' => fixed_digits k' (r / 10) ++ [48 + r mod 10] end.
(** [float.__repr__]. Simplified: Python switches to an exponent from 1e16 on and below
    1e-4; here the digits are always written out. *)
Definition float_repr (m : Z) (k : nat) : text :=
  let '(m', k') := dec_norm m k in
  (if m' <? 0 then [45] else []) ++ str_int (Z.abs m' / p10 k') ++ [46] ++ fixed_digits k' (Z.abs m' mod p10 k').
Definition num_repr (n : num) : text := match n with NInt z => str_int z | NDec m k => float_repr m k end.

(** [str(x)]. Simplified: a list is refused, because the [repr] of nested texts is not
    modelled; no command of the converters carries a list in a property of type str. *)
Definition py_str (v : val) : res text :=
  match v with
  | VNone => Ok (t_ "None")
  | VBool b => Ok (if b then t_ "True" else t_ "False")
  | VNum n => Ok (num_repr n)
  | VStr s => Ok s
  | VList _ => Err TypeError
  end.

(** ** [json.dumps]. *)
(** A hexadecimal digit, lower case; [%04x]. *)
Definition hex_char (d : Z) : Z := if d <? 10 then 48 + d else 87 + d.
Definition hex4 (n : Z) : text :=
  [hex_char (n / 4096 mod 16); hex_char (n / 256 mod 16); hex_char (n / 16 mod 16); hex_char (n mod 16)].
Definition u_escape (n : Z) : text := [92; 117] ++ hex4 n.
(** json/encoder.py [py_encode_basestring_ascii]: two-character escapes, printable ASCII as
    it is, everything else as [\uXXXX], beyond 16 bits as a surrogate pair. *)
Definition escape_char (c : Z) : text :=
  if c =? 34 then [92; 34] else if c =? 92 then [92; 92]
  else if c =? 10 then [92; 110] else if c =? 13 then [92; 114] else if c =? 9 then [92; 116]
  else if c =? 12 then [92; 102] else if c =? 8 then [92; 98]
  else if (32 <=? c) && (c <=? 126) then [c]
  else if c <? 65536 then u_escape c
  else u_escape (55296 + (c - 65536) / 1024) ++ u_escape (56320 + (c - 65536) mod 1024).
Definition dump_text (s : text) : text := [34] ++ flat_map escape_char s ++ [34].
Fixpoint dumps (v : val) : text :=
  match v with
  | VNone => t_ "null"
  | VBool true => t_ "true"
  | VBool false => t_ "false"
  | VNum n => num_repr n
  | VStr s => dump_text s
  | VList l => [91] ++ join (t_ ", ") (map dumps l) ++ [93]
  end.

(** ** [json.loads]. *)
Definition json_ws (c : Z) : bool := (c =? 32) || (c =? 9) || (c =? 10) || (c =? 13).
Fixpoint skip_ws (s : text) : text := match s with c :: r => if json_ws c then skip_ws r else s | [] => [] end.
Fixpoint strip_prefix (p s : text) : option text :=
  match p, s with
  | [], _ => Some s
  | x :: p', y :: s' => if x =? y then strip_prefix p' s' else None
  | _, _ => None
  end.
(** json/decoder.py [_decode_uXXXX]. *)
Definition unhex (c : Z) : option Z :=
  if ch_digit c then Some (c - 48)
  else if (97 <=? c) && (c <=? 102) then Some (c - 87)
  else if (65 <=? c) && (c <=? 70) then Some (c - 55) else None.
Definition unhex4 (a b c d : Z) : option Z :=
  match unhex a, unhex b, unhex c, unhex d with
  | Some w, Some x, Some y, Some z => Some (((w * 16 + x) * 16 + y) * 16 + z)
  | _, _, _, _ => None
  end.
Definition simple_escape (c : Z) : option Z :=
  if c =? 34 then Some 34 else if c =? 92 then Some 92 else if c =? 47 then Some 47
  else if c =? 98 then Some 8 else if c =? 102 then Some 12 else if c =? 110 then Some 10
  else if c =? 114 then Some 13 else if c =? 116 then Some 9 else None.
Definition high_surrogate (u : Z) : bool := (55296 <=? u) && (u <=? 56319).
Definition low_surrogate (u : Z) : bool := (56320 <=? u) && (u <=? 57343).
(** json/decoder.py [py_scanstring], strict: the text up to the closing quote, and the rest. *)
Definition cons_fst (c : Z) (x : res (text * text)) : res (text * text) := do y <- x; Ok (c :: fst y, snd y).
Fixpoint scan_string (s : text) : res (text * text) :=
  match s with
  | [] => Err ValueError
  | c :: r =>
    if c =? 34 then Ok ([], r)
    else if c =? 92 then
      match r with
      | [] => Err ValueError
      | e :: r1 =>
        if e =? 117 then
          match r1 with
          | h1 :: h2 :: h3 :: h4 :: r2 =>
            match unhex4 h1 h2 h3 h4 with
            | None => Err ValueError
            | Some u =>
              match r2 with
              | b1 :: u1 :: g1 :: g2 :: g3 :: g4 :: r3 =>
                if high_surrogate u && (b1 =? 92) && (u1 =? 117) then
                  match unhex4 g1 g2 g3 g4 with
                  | None => Err ValueError
                  | Some u2 =>
                    if low_surrogate u2 then cons_fst (65536 + (u - 55296) * 1024 + (u2 - 56320)) (scan_string r3)
                    else cons_fst u (scan_string r2)
                  end
                else cons_fst u (scan_string r2)
              | _ => cons_fst u (scan_string r2)
              end
            end
          | _ => Err ValueError
          end
        else match simple_escape e with Some x => cons_fst x (scan_string r1) | None => Err ValueError end
      end
    else if c <? 32 then Err ValueError
    else cons_fst c (scan_string r)
  end.
(** The longest run of digits. *)
Fixpoint span_digits (s : text) : text * text :=
  match s with
  | c :: r => if ch_digit c then let '(a, b) := span_digits r in (c :: a, b) else ([], s)
  | [] => ([], [])
  end.
(** json/scanner.py 11-12 [NUMBER_RE]: the integer part, then the optional fraction and the
    optional exponent. *)
Definition scan_int (s : text) : option (text * text) :=
  match s with
  | c :: r => if c =? 48 then Some ([48], r) else if ch_digit c then Some (span_digits s) else None
  | [] => None
  end.
Definition scan_frac (s : text) : option text * text :=
  match s with
  | c :: r => if c =? 46 then match span_digits r with ([], _) => (None, s) | (ds, r') => (Some ds, r') end else (None, s)
  | [] => (None, s)
  end.
Definition scan_exp (s : text) : option Z * text :=
  match s with
  | c :: r =>
    if (c =? 101) || (c =? 69) then
      let '(sign, r1) := match r with d :: r' => if d =? 45 then (-1, r') else if d =? 43 then (1, r') else (1, r) | [] => (1, r) end in
      match span_digits r1 with ([], _) => (None, s) | (ds, r') => (Some (sign * digits_val ds), r') end
    else (None, s)
  | [] => (None, s)
  end.
(** The value of a float text: [m / 10^k * 10^e]. *)
Definition dec_of (m : Z) (k : nat) (e : Z) : num :=
  let j := Z.of_nat k - e in
  let '(m', k') := if 0 <=? j then dec_norm m (Z.to_nat j) else dec_norm (m * 10 ^ (- j)) O in NDec m' k'.
Definition scan_number (s : text) : res (val * text) :=
  let '(sign, s1) := match s with c :: r => if c =? 45 then (-1, r) else (1, s) | [] => (1, s) end in
  match scan_int s1 with
  | None => Err ValueError
  | Some (i, s2) =>
    let '(f, s3) := scan_frac s2 in
    let '(e, s4) := scan_exp s3 in
    match f, e with
    | None, None => Ok (VNum (NInt (sign * digits_val i)), s4)
    | _, _ =>
      let fd := match f with Some d => d | None => [] end in
      let ev := match e with Some z => z | None => 0 end in
      Ok (VNum (dec_of (sign * digits_val (i ++ fd)) (length fd) ev), s4)
    end
  end.
(** json/scanner.py [scan_once] and json/decoder.py [JSONArray]. Simplified: an object, NaN
    and the infinities, for which there are no values here, are refused. *)
Fixpoint scan_value (fuel : nat) (s : text) : res (val * text) :=
  match fuel with
  | O => Err OutOfFuel
  | S f =>
    match s with
    | [] => Err ValueError
    | c :: r =>
      if c =? 34 then do x <- scan_string r; Ok (VStr (fst x), snd x)
      else if c =? 91 then
        match skip_ws r with
        | [] => Err ValueError
        | d :: r' => if d =? 93 then Ok (VList [], r') else do x <- scan_items f (d :: r'); Ok (VList (fst x), snd x)
        end
      else match strip_prefix (t_ "null") s, strip_prefix (t_ "true") s, strip_prefix (t_ "false") s with
           | Some r', _, _ => Ok (VNone, r')
           | _, Some r', _ => Ok (VBool true, r')
           | _, _, Some r' => Ok (VBool false, r')
           | _, _, _ => scan_number s
           end
    end
  end
with scan_items (fuel : nat) (s : text) : res (list val * text) :=
  match fuel with
  | O => Err OutOfFuel
  | S f =>
    do x <- scan_value f s;
    match skip_ws (snd x) with
    | d :: r =>
      if d =? 93 then Ok ([fst x], r)
      else if d =? 44 then do y <- scan_items f (skip_ws r); Ok (fst x :: fst y, snd y)
      else Err ValueError
    | [] => Err ValueError
    end
  end.
(** json/__init__.py [loads] and json/decoder.py [decode]. The fuel, twice the length, is never used up. *)
Definition loads (s : text) : res val :=
  match s with
  | c :: _ =>
    if c =? 65279 then Err ValueError
    else do x <- scan_value (S (2 * length s)) (skip_ws s);
         match skip_ws (snd x) with [] => Ok (fst x) | _ => Err ValueError end
  | [] => Err ValueError
  end.

(** property_manager.py 84-91 [json_load_any]; no value here differs from itself. *)
Definition json_load_any (x : val) : res val :=
  do s <- py_str x;
  loads (match x with VBool true => t_ "true" | VBool false => t_ "false" | _ => s end).
