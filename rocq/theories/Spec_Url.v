(** Specification vocabulary for C77 and C78: how a name is quoted, and what a link to a log
    looks like. *)
From Verif Require Import Parse Text.
From Coq Require Import String List ZArith.
Import ListNotations.
Open Scope list_scope.
Open Scope Z_scope.

(** ** Names *)
(** A character of a name: a Unicode scalar value. *)
Definition scalar (c : Z) : Prop := 0 <= c < 55296 \/ 57344 <= c < 1114112.
(** Its bytes in UTF-8 (RFC 3629, section 3). *)
Definition utf8 (c : Z) : list Z :=
  if c <? 128 then [c]
  else if c <? 2048 then [192 + c / 64; 128 + c mod 64]
  else if c <? 65536 then [224 + c / 4096; 128 + c / 64 mod 64; 128 + c mod 64]
  else [240 + c / 262144; 128 + c / 4096 mod 64; 128 + c / 64 mod 64; 128 + c mod 64].
(** A hexadecimal digit of either case. *)
Inductive hex : Z -> Z -> Prop :=
| hex_09 v : 0 <= v <= 9 -> hex v (48 + v)
| hex_upper v : 10 <= v <= 15 -> hex v (55 + v)
| hex_lower v : 10 <= v <= 15 -> hex v (87 + v).
(** Bytes written as percent escapes. *)
Inductive escaped : list Z -> text -> Prop :=
| esc_nil : escaped [] []
| esc_cons b bs h l s : hex (b / 16) h -> hex (b mod 16) l -> escaped bs s -> escaped (b :: bs) (37 :: h :: l :: s).
(** [quotes name s]: [s] is [name] with some of its characters, and every percent sign, written
    as the escapes of their UTF-8 bytes. *)
Inductive quotes : text -> text -> Prop :=
| q_nil : quotes [] []
| q_plain c name s : c <> 37 -> quotes name s -> quotes (c :: name) (c :: s)
| q_escaped c e name s : scalar c -> escaped (utf8 c) e -> quotes name s -> quotes (c :: name) (e ++ s).

(** ** Links *)
(** A character of an identifier or a parameter that stands for itself: ASCII letters and digits,
    hyphen, point, underscore and tilde. *)
Definition unreserved (c : Z) : Prop :=
  48 <= c <= 57 \/ 65 <= c <= 90 \/ 97 <= c <= 122 \/ In c [45; 46; 95; 126].
Definition word (s : text) : Prop := Forall unreserved s.
(** The text of a list of parameters: [a=b&c=d]. *)
Definition param_text (p : text * text) : text := fst p ++ t_ "=" ++ snd p.
Definition params_text (ps : list (text * text)) : text := join (t_ "&") (map param_text ps).
(** A link: anything without a question mark or number sign, the parameters, perhaps a fragment. *)
Definition link (base : text) (ps : list (text * text)) (frag : option text) : text :=
  base ++ t_ "?" ++ params_text ps ++ match frag with Some f => t_ "#" ++ f | None => [] end.
Definition plain_base (base : text) : Prop := Forall (fun c => c <> 63 /\ c <> 35) base.
Definition plain_params (ps : list (text * text)) : Prop := Forall (fun p => word (fst p) /\ word (snd p)) ps.
(** [id] is the value of the first parameter called [log] that has one. *)
Definition names_log (ps : list (text * text)) (id : text) : Prop :=
  exists before after, ps = before ++ (t_ "log", id) :: after /\ id <> [] /\
    Forall (fun p => fst p = t_ "log" -> snd p = []) before.
