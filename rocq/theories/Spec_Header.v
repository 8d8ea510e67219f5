(** Specification vocabulary for C72-C76: the settings of a table, the header of a deal, the
    players and riichi, as the events of a log tell them. *)
From Verif Require Import Base Parse Text Event Spec_Meld Spec_Log.
From Coq Require Import String List ZArith.
Import ListNotations.
Open Scope list_scope.
Open Scope Z_scope.

(** [e] is the last of the events [es] that has property [P]. *)
Definition last_such (P : event -> Prop) (e : event) (es : list event) : Prop :=
  exists before after, es = before ++ e :: after /\ P e /\ Forall (fun e' => ~ P e') after.
Definition tagged (t : text) (e : event) : Prop := tag e = t.

(** ** Settings. The names of the four levels of a table, and of the four where tips are paid. *)
Definition level_names (tips : bool) : list text :=
  if tips then [[33509]; [37504]; [29733]; [23380]] else [[33324]; [19978]; [29305]; [40179]].

(** ** Players *)
(** The characters Python takes for white space. *)
Definition space (c : Z) : Prop :=
  In c [9; 10; 11; 12; 13; 28; 29; 30; 31; 32; 133; 160; 5760; 8192; 8193; 8194; 8195; 8196; 8197; 8198; 8199; 8200; 8201; 8202;
        8232; 8233; 8239; 8287; 12288].
(** The event announces seat [p] under the (quoted) name [s]. *)
Definition announces (p : Z) (s : text) (e : event) : Prop :=
  tag e = t_ "UN" /\ holds e (t_ "n" ++ str_int p) s /\ exists c, In c s /\ ~ space c.
Definition announced (p : Z) (e : event) : Prop := exists s, announces p s e.
Definition says (name : text) (e : event) : Prop := exists s, holds e name s.
(** Seat [p] loses its connection. *)
Definition leaves (p : Z) (e : event) : Prop := tag e = t_ "BYE" /\ holds e (t_ "who") (str_int p).
(** Seat [p] announces riichi. *)
Definition declares (p : Z) (e : event) : Prop :=
  tag e = t_ "REACH" /\ holds e (t_ "who") (str_int p) /\ holds e (t_ "step") (t_ "1").
(** Events of this kind name their seat by a number written in the usual way. *)
Definition names_seats (t : text) (es : list event) : Prop :=
  Forall (fun e => tag e = t -> exists w, holds e (t_ "who") (str_int w)) es.

(** The names of the grades: beginner, 9th to 1st kyu, 1st to 10th dan, and the highest. *)
Definition kanji_numeral : list Z := [21021; 20108; 19977; 22235; 20116; 20845; 19971; 20843; 20061; 21313].
Inductive grade_name : Z -> text -> Prop :=
| gn_new : grade_name 0 [26032; 20154]
| gn_kyu k : 1 <= k <= 9 -> grade_name (10 - k) [48 + k; 32026]
| gn_dan k c : 1 <= k <= 10 -> nth_error kanji_numeral (Z.to_nat (k - 1)) = Some c -> grade_name (9 + k) [c; 27573]
| gn_top : grade_name 20 [22825; 40179; 20301].
