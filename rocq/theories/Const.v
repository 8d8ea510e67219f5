(** Model of mahjong/record/const.py. *)
From Verif Require Import Base Parse Text Tenhou Counter.
From Coq Require Import String List ZArith Lia Bool.
Import ListNotations.
Open Scope list_scope.
Open Scope Z_scope.

(** [''.join(str(x) for x in (n, t))] for a digit and a letter. *)
Definition name (n : Z) (suit : Z) : text := [48 + n; suit].
(** "mps" and "z". *)
Definition SUITS : list Z := [109; 112; 115].
Definition HONOR : Z := 122.
Definition suit_list (nums : list Z) : list text := flat_map (fun t => map (fun n => name n t) nums) SUITS.

(** 4-9. *)
Definition all_tiles : list text := suit_list [1;2;3;4;5;6;7;8;9] ++ map (fun n => name n HONOR) [1;2;3;4;5;6;7].
Definition dora_suit_num : list Z := [2;3;4;5;6;7;8;9] ++ [1].
Definition dora_honor_num : list Z := [2; 3; 4; 1; 6; 7; 5].
Definition dora_tiles : list (list text) :=
  map (fun x => [x]) (suit_list dora_suit_num ++ map (fun n => name n HONOR) dora_honor_num).
(** A dict from texts to lists of texts. *)
Definition dict := list (text * list text).
Fixpoint dget (d : dict) (k : text) : res (list text) :=
  match d with [] => Err KeyError | (k', v) :: r => if text_eqb k' k then Ok v else dget r k end.
Fixpoint dput (d : dict) (k : text) (v : list text) : dict :=
  match d with
  | [] => [(k, v)]
  | (k', v') :: r => if text_eqb k' k then (k', v) :: r else (k', v') :: dput r k v
  end.
(** 10 [dict(zip(_all_tiles, _dora_tiles))], 11-13 the red fives. *)
Definition dora_map0 : dict := fold_left (fun d kv => dput d (fst kv) (snd kv)) (combine all_tiles dora_tiles) [].
Definition add_red (d : dict) (suit : Z) : dict :=
  let d1 := dput d (name 0 suit) [name 6 suit] in
  match dget d1 (name 4 suit) with Ok l => dput d1 (name 4 suit) (l ++ [name 0 suit]) | Err _ => d1 end.
Definition dora_map : dict := fold_left add_red SUITS dora_map0.

(** 16-20 [doras]. *)
Fixpoint doras_loop (acc : list text) (indicators : list text) : res (list text) :=
  match indicators with
  | [] => Ok acc
  | i :: r => do l <- dget dora_map i; doras_loop (acc ++ l) r
  end.
Definition doras (indicators : list text) : res (list text) := doras_loop [] indicators.

(** 23-24. *)
Definition player_4_tiles : counter := counter_of (all_tiles ++ all_tiles ++ all_tiles ++ all_tiles).
Definition middle_m : list text := map (fun n => name n 109) [2;3;4;5;6;7;8].
Definition player_3_tiles : counter := counter_sub player_4_tiles (counter_of (middle_m ++ middle_m ++ middle_m ++ middle_m)).
(** 27-35 [initial_tiles]. *)
Definition initial_tiles (player_num : Z) (has_aka : bool) : list text :=
  let akas := counter_of [name 0 109; name 0 115; name 0 112] in
  let '(initials, akas) :=
    if player_num =? 3 then (player_3_tiles, counter_sub akas (counter_of [name 0 109]))
    else (player_4_tiles, akas) in
  let initials := if has_aka then counter_add (counter_sub initials (counter_of [name 5 109; name 5 115; name 5 112])) akas else initials in
  elements initials.
