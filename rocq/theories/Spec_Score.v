(** Specification vocabulary for C42-C44, C59 and C60: scores, final ranks and the outcome of
    a deal as the events of a log tell them. *)
From Verif Require Import Base Parse Text Event Spec_Meld Spec_Log.
From Coq Require Import String List ZArith.
Import ListNotations.
Open Scope list_scope.
Open Scope Z_scope.

(** The events that end a deal. *)
Definition ends_deal (e : event) : Prop := tag e = t_ "AGARI" \/ tag e = t_ "RYUUKYOKU".
(** Seat [p] places its riichi stick. *)
Definition pays_stick (p : Z) (e : event) : Prop :=
  tag e = t_ "REACH" /\ holds e (t_ "who") (str_int p) /\ holds e (t_ "step") (t_ "2").
(** Events that say nothing about the score of [p]. *)
Definition keeps_score (p : Z) (e : event) : Prop :=
  tag e <> t_ "INIT" /\
  (ends_deal e -> forall s, ~ holds e (t_ "sc") s) /\
  (tag e = t_ "REACH" -> (exists w, holds e (t_ "who") (str_int w) /\ w <> p) \/ (exists s, holds e (t_ "step") s /\ s <> t_ "2")).
(** The score of seat [p] after some events. A deal lists the scores of all seats in
    hundreds; the end of a deal lists for each seat its score and what it gains, in
    hundreds; a riichi stick costs 1000. *)
Inductive score_after (p : Z) : list event -> Z -> Prop :=
| sa_deal es e l s : tag e = t_ "INIT" -> holds e (t_ "ten") (comma_list l) -> nth_error l (Z.to_nat p) = Some s ->
    score_after p (es ++ [e]) (100 * s)
| sa_end es e l s d : ends_deal e -> holds e (t_ "sc") (comma_list l) ->
    nth_error l (2 * Z.to_nat p) = Some s -> nth_error l (2 * Z.to_nat p + 1) = Some d ->
    score_after p (es ++ [e]) (100 * (s + d))
| sa_stick es e z : score_after p es z -> pays_stick p e -> score_after p (es ++ [e]) (z - 1000)
| sa_same es e z : score_after p es z -> keeps_score p e -> score_after p (es ++ [e]) z.

(** The number of players: bit 4 of the type in the latest GO event says three. *)
Definition table_size (es : list event) (n : Z) : Prop :=
  exists before e after v, es = before ++ e :: after /\ tag e = t_ "GO" /\ Forall (fun e' => tag e' <> t_ "GO") after /\
    holds e (t_ "type") (str_int v) /\ n = (if flag v 4 then 3 else 4).

(** The final results in the order of the seats: score in hundreds, and points. *)
Definition owari_text (results : list (Z * text)) : text :=
  join (t_ ",") (flat_map (fun r => [str_int (fst r); snd r]) results).
Definition final_results (e : event) (results : list (Z * text)) : Prop :=
  ends_deal e /\ holds e (t_ "owari") (owari_text results) /\ results <> [] /\ Forall (fun r => ~ In 44 (snd r)) results.
Definition final_score_of (results : list (Z * text)) (p : Z) : Z := fst (nth (Z.to_nat p) results (0, [])).
(** Seat [p] comes before seat [q]: more points, or as many and an earlier seat. *)
Definition places_before (results : list (Z * text)) (p q : Z) : Prop :=
  final_score_of results p > final_score_of results q \/ (final_score_of results p = final_score_of results q /\ p < q).

(** Seat [w] wins off a tile of seat [f], or by its own draw when they are the same. *)
Definition wins (e : event) (w f : Z) : Prop :=
  tag e = t_ "AGARI" /\ holds e (t_ "who") (str_int w) /\ holds e (t_ "fromWho") (str_int f).
(** The yaku of a win and their han: "id,han,id,han,...". *)
Definition yaku_listed (e : event) (l : list (Z * Z)) : Prop :=
  holds e (t_ "yaku") (comma_list (flat_map (fun y => [fst y; snd y]) l)).
(** The limit hands of a win: "id,id,...". *)
Definition yakuman_listed (e : event) (l : list Z) : Prop :=
  lookup (t_ "yaku") (attrib e) = None /\ holds e (t_ "yakuman") (comma_list l).
