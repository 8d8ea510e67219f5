(** Specification vocabulary for C71: logs as Tenhou writes them, read as a whole. *)
From Verif Require Import Base Parse Text Event Spec_Log Prop_Reader.
From Coq Require Import String List ZArith.
Import ListNotations.
Open Scope list_scope.
Open Scope Z_scope.

(** A number: an integer, or digits with a point between and perhaps a minus sign. *)
Definition digits (s : text) : Prop := s <> [] /\ Forall (fun c => 48 <= c <= 57) s.
Definition number_text (s : text) : Prop :=
  (exists n, s = str_int n) \/
  exists sign i f, s = sign ++ i ++ [46] ++ f /\ (sign = [] \/ sign = t_ "-") /\ digits i /\ digits f.
Definition numbers_text (s : text) : Prop := exists l, l <> [] /\ Forall number_text l /\ s = join (t_ ",") l.

(** The letters of draws and discards, of the four seats each; the tag of such an event
    names a tile: a letter and its number (perhaps after zeros, perhaps before a newline). *)
Definition letters : list Z := t_ "TUVWDEFG".
Definition tile_tag (s digits_ : text) : Prop :=
  exists letter, In letter letters /\ (s = letter :: digits_ \/ s = letter :: digits_ ++ [10]).
Definition known_tile (e : event) : Prop :=
  forall ds, digits ds -> tile_tag (tag e) ds -> exists zeros n, ds = repeat 48 zeros ++ str_int n /\ 0 <= n < 136.

(** The events before the first deal: the settings, and the players. *)
Definition good_head (head : list event) : Prop :=
  Forall (fun e => ~ deals e) head /\
  (exists go v, first_with (t_ "GO") head go /\ holds go (t_ "type") (str_int v) /\ 0 <= v < 65536) /\
  (exists un dan rate, first_with (t_ "UN") head un /\
     (forall i, In i ["n0"; "n1"; "n2"; "n3"; "sx"]%string -> exists s, holds un (t_ i) s) /\
     holds un (t_ "dan") dan /\ numbers_text dan /\ holds un (t_ "rate") rate /\ numbers_text rate).
(** A deal: its start, and what follows up to the next deal, with an ending. *)
Definition good_deal (l : list event) : Prop :=
  exists init playing seed east, l = init :: playing /\ deals init /\ holds init (t_ "seed") seed /\ numbers_text seed /\
    holds init (t_ "oya") (str_int east) /\ Forall (fun e => ~ deals e) playing /\ Exists ends playing.
Definition good_log (head : list event) (ds : list (list event)) (events : list event) : Prop :=
  events = head ++ concat ds /\ good_head head /\ Forall good_deal ds /\ Forall known_tile events /\
  exists before last owari, events = before ++ [last] /\ holds last (t_ "owari") owari /\ numbers_text owari.
