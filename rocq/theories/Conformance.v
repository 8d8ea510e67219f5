(** The tests of the repository, replayed in the model: what tests/ asserts about functions that are
    modelled, with the same inputs. These are examples, computed; they tie the model to results the
    authors observed of the program. Left out: tests that need the network (test_tenhouRecord,
    test_checker), named tuples (the names of fields are not modelled), and AkaTile with a number other
    than 0 (test_AkaTile 31-33; the model has no such call). *)
From Verif Require Import Base Category Tile TileSet Parse Text Tenhou Event Const Stage Transfer Win Distinct Waiting Reader Paifu Show Url
  Value Json Universe Translator TenhouCommands Record Csv Export Logs.
From Coq Require Import String List ZArith Bool.
Import ListNotations.
Open Scope list_scope.
Open Scope Z_scope.

Definition tset_of (s : string) : tset := tile_set_from_string (t_ s).
Definition upto (n : nat) : list Z := map Z.of_nat (seq 0 n).

(** ** tests/utils/test_subCategory.py 7-21. *)
Definition sub_cases : list (list Z) := flat_map (fun a => flat_map (fun b => map (fun c => [a; b; c]) (upto 4)) (upto 3)) (upto 2).
Example test_sub_category : (do c <- new_subcat [2; 3; 4]; mapM (sub_category c) (upto 24)) = Ok sub_cases.
Proof. vm_compute. reflexivity. Qed.
Example test_sub_index : (do c <- new_subcat [2; 3; 4]; mapM (sub_index c) sub_cases) = Ok (upto 24).
Proof. vm_compute. reflexivity. Qed.

(** ** tests/utils/test_mixedCategory.py 8-48, 59-80. *)
Definition mixed_cases : list (list Z) := [[0; 0]; [0; 1]; [0; 2]; [1; 0]; [1; 1]; [2; 0]; [2; 1]; [2; 2]; [2; 3]].
Definition init_normal : res mixedcat := do a <- new_subcat [3]; do b <- new_subcat [2]; do c <- new_subcat [4]; new_mixed [a; b; c].
Example test_mixed_category : (do m <- init_normal; mapM (mixed_category m) (upto 9)) = Ok mixed_cases.
Proof. vm_compute. reflexivity. Qed.
Example test_mixed_index : (do m <- init_normal; mapM (mixed_index m) mixed_cases) = Ok (upto 9).
Proof. vm_compute. reflexivity. Qed.
Definition tenhou_categories : list (list Z) :=
  [[0; 0; 0]; [0; 0; 1]; [0; 0; 2]; [0; 0; 3]; [0; 1; 0]; [0; 1; 1]; [0; 1; 2]; [0; 1; 3]; [0; 2; 0]; [0; 2; 1]; [0; 2; 2]; [0; 2; 3];
   [0; 3; 0]; [0; 3; 1]; [0; 3; 2]; [0; 3; 3]; [0; 4; 0]; [0; 4; 1]; [0; 4; 2]; [0; 4; 3]; [0; 5; 0]; [0; 5; 1]; [0; 5; 2]; [0; 5; 3];
   [0; 6; 0]; [0; 6; 1]; [0; 6; 2]; [0; 6; 3]; [0; 7; 0]; [0; 7; 1]; [0; 7; 2]; [0; 7; 3]; [0; 8; 0]; [0; 8; 1]; [0; 8; 2]; [0; 8; 3];
   [1; 0; 0]; [1; 0; 1]; [1; 0; 2]; [1; 0; 3]; [1; 1; 0]; [1; 1; 1]; [1; 1; 2]; [1; 1; 3]; [1; 2; 0]; [1; 2; 1]; [1; 2; 2]; [1; 2; 3];
   [1; 3; 0]; [1; 3; 1]; [1; 3; 2]; [1; 3; 3]; [1; 4; 0]; [1; 4; 1]; [1; 4; 2]; [1; 4; 3]; [1; 5; 0]; [1; 5; 1]; [1; 5; 2]; [1; 5; 3];
   [1; 6; 0]; [1; 6; 1]; [1; 6; 2]; [1; 6; 3]; [1; 7; 0]; [1; 7; 1]; [1; 7; 2]; [1; 7; 3]; [1; 8; 0]; [1; 8; 1]; [1; 8; 2]; [1; 8; 3];
   [2; 0; 0]; [2; 0; 1]; [2; 0; 2]; [2; 0; 3]; [2; 1; 0]; [2; 1; 1]; [2; 1; 2]; [2; 1; 3]; [2; 2; 0]; [2; 2; 1]; [2; 2; 2]; [2; 2; 3];
   [2; 3; 0]; [2; 3; 1]; [2; 3; 2]; [2; 3; 3]; [2; 4; 0]; [2; 4; 1]; [2; 4; 2]; [2; 4; 3]; [2; 5; 0]; [2; 5; 1]; [2; 5; 2]; [2; 5; 3];
   [2; 6; 0]; [2; 6; 1]; [2; 6; 2]; [2; 6; 3]; [2; 7; 0]; [2; 7; 1]; [2; 7; 2]; [2; 7; 3]; [2; 8; 0]; [2; 8; 1]; [2; 8; 2]; [2; 8; 3];
   [3; 0; 0]; [3; 0; 1]; [3; 0; 2]; [3; 0; 3]; [3; 1; 0]; [3; 1; 1]; [3; 1; 2]; [3; 1; 3]; [3; 2; 0]; [3; 2; 1]; [3; 2; 2]; [3; 2; 3];
   [3; 3; 0]; [3; 3; 1]; [3; 3; 2]; [3; 3; 3]; [3; 4; 0]; [3; 4; 1]; [3; 4; 2]; [3; 4; 3]; [3; 5; 0]; [3; 5; 1]; [3; 5; 2]; [3; 5; 3];
   [3; 6; 0]; [3; 6; 1]; [3; 6; 2]; [3; 6; 3]].
Example test_tenhou_tiles_to_category : mapM ttc_category (upto 136) = Ok tenhou_categories.
Proof. vm_compute. reflexivity. Qed.
Example test_tenhou_tiles_to_index : mapM ttc_index tenhou_categories = Ok (upto 136).
Proof. vm_compute. reflexivity. Qed.

(** ** tests/utils/test_stageGroupby.py 7-45. *)
Definition groups_of (s stages : string) : res (list text) :=
  do gs <- consume Z.eqb (fun c => c) (t_ stages) 100 (start (t_ s)); Ok (map snd gs).
Example test_stage_group :
  groups_of "AAABBB" "AB" = Ok (map t_ ["AAABBB"]%string) /\
  groups_of "AAABBBAAACCC" "AC" = Ok (map t_ ["AAA"; "BBB"; "AAACCC"]%string) /\
  groups_of "AAABBBCCCABCDEDCBA" "BC" = Ok (map t_ ["AAA"; "BBBCCC"; "A"; "BC"; "D"; "E"; "D"; "C"; "B"; "A"]%string) /\
  groups_of "ABBBBBCBBBBBBA" "ABC" = Ok (map t_ ["ABBBBBC"; "BBBBBB"; "A"]%string).
Proof. repeat split; vm_compute; reflexivity. Qed.

(** ** tests/utils/test_transfer_dict.py. A path of keys, read from an object. *)
Definition sdict := heap text text.
Definition swalk (h : sdict) (a : nat) (path : list string) : res (option (Transfer.cell text)) :=
  fold_left (fun r k => do c <- r; match c with Some (Ref b) => td_get text_eqb h b (t_ k) | _ => Err KeyError end) path (Ok (Some (Ref a))).
Definition snew (l : list (text * pyv text text)) : res (sdict * nat) := new_td 10 (mkHeap [] 0) None l.
(** [trans[a].set(k, v)]. *)
Definition sset (x : sdict * nat) (a k v : string) : res (sdict * nat) :=
  do c <- swalk (fst x) (snd x) [a];
  match c with Some (Ref b) => td_set text_eqb 10 (fst x) b (t_ k) (PLeaf (t_ v)) | _ => Err KeyError end.
Definition leaf (s : string) : res (option (Transfer.cell text)) := Ok (Some (Leaf (t_ s))).
Definition entry (k v : string) : text * pyv text text := (t_ k, PLeaf (t_ v)).
Definition nested : list (text * pyv text text) :=
  [(t_ "a", PDict [entry "1" "z"]); (t_ "b", PDict [(t_ "2", PDict [entry "3" "y"])])].
(** All the versions are read in the last heap, where the objects of the earlier ones still are. *)
Example test_set : exists t1 t2,
  snew nested = Ok t1 /\ sset t1 "a" "1" "x" = Ok t2 /\
  swalk (fst t2) (snd t1) ["a"; "1"]%string = leaf "z" /\ swalk (fst t2) (snd t1) ["b"; "2"; "3"]%string = leaf "y" /\
  swalk (fst t2) (snd t2) ["a"; "1"]%string = leaf "x" /\ swalk (fst t2) (snd t2) ["b"; "2"; "3"]%string = leaf "y".
Proof. eexists. eexists. split; [vm_compute; reflexivity|]. split; [vm_compute; reflexivity|]. vm_compute. repeat split. Qed.
Example test_set_same_dict : exists t1 t2 t3,
  snew nested = Ok t1 /\ sset t1 "a" "2" "p" = Ok t2 /\ sset t2 "a" "3" "c" = Ok t3 /\
  swalk (fst t3) (snd t1) ["a"; "1"]%string = leaf "z" /\ swalk (fst t3) (snd t1) ["b"; "2"; "3"]%string = leaf "y" /\
  swalk (fst t3) (snd t2) ["a"; "1"]%string = leaf "z" /\ swalk (fst t3) (snd t2) ["b"; "2"; "3"]%string = leaf "y" /\
  swalk (fst t3) (snd t2) ["a"; "2"]%string = leaf "p" /\
  swalk (fst t3) (snd t3) ["a"; "1"]%string = leaf "z" /\ swalk (fst t3) (snd t3) ["b"; "2"; "3"]%string = leaf "y" /\
  swalk (fst t3) (snd t3) ["a"; "2"]%string = leaf "p" /\ swalk (fst t3) (snd t3) ["a"; "3"]%string = leaf "c".
Proof. do 3 eexists. do 3 (split; [vm_compute; reflexivity|]). vm_compute. repeat split. Qed.
Example test_trans_differ : exists t1 t2 t3,
  snew [(t_ "a", PDict [entry "1" "x"]); (t_ "b", PDict [entry "2" "y"])] = Ok t1 /\ sset t1 "a" "3" "p" = Ok t2 /\ sset t2 "b" "4" "q" = Ok t3 /\
  swalk (fst t3) (snd t1) ["a"; "1"]%string = leaf "x" /\ swalk (fst t3) (snd t1) ["b"; "2"]%string = leaf "y" /\
  swalk (fst t3) (snd t2) ["a"; "1"]%string = leaf "x" /\ swalk (fst t3) (snd t2) ["b"; "2"]%string = leaf "y" /\
  swalk (fst t3) (snd t2) ["a"; "3"]%string = leaf "p" /\
  swalk (fst t3) (snd t3) ["a"; "1"]%string = leaf "x" /\ swalk (fst t3) (snd t3) ["b"; "2"]%string = leaf "y" /\
  swalk (fst t3) (snd t3) ["a"; "3"]%string = leaf "p" /\ swalk (fst t3) (snd t3) ["b"; "4"]%string = leaf "q".
Proof. do 3 eexists. do 3 (split; [vm_compute; reflexivity|]). vm_compute. repeat split. Qed.

(** ** tests/tile. *)
(** test_AkaTile.py 8-14. *)
Definition same_tile (a b : Z) : res bool := do x <- tile_from_tenhou a; do y <- tile_from_tenhou b; Ok (tile_eqb x y).
Example test_tile_from_tenhou : same_tile 16 17 = Ok true /\ same_tile 52 53 = Ok true /\ same_tile 88 89 = Ok true.
Proof. vm_compute. auto. Qed.
(** 16-28. *)
Example test_AkaTile_Tile : Forall (fun c =>
  option_map (fun t => tile_eqb t (Plain 6 c)) (tile_next (Aka c)) = Some true /\ tile_leb (Aka c) (Plain 6 c) = true /\
  tile_neb (Aka c) (Plain 6 c) = true /\ tile_geb (Aka c) (Plain 4 c) = true) [Cm; Cs; Cp].
Proof. repeat constructor. Qed.
(** 34. *)
Example test_assert_error : pool_aka [] Cz = Err AssertionError.
Proof. reflexivity. Qed.
(** test_tile.py 8-18. *)
Definition hand1 : tset := tset_of "1234555s1234m4567p123s5547z".
Example test_count : TileSet.get hand1 (Plain 1 Cs) = 2 /\ TileSet.get hand1 (Plain 4 Cs) = 1 /\ TileSet.get hand1 (Plain 5 Cs) = 3 /\ TileSet.get hand1 (Plain 5 Cp) = 1.
Proof. vm_compute. auto. Qed.
Example test_tile_ordering :
  sorted_set (map fst (tset_of "123456789m123456789s123456789p1234567z")) = map fst (tset_of "123456789m123456789p123456789s1234567z").
Proof. vm_compute. reflexivity. Qed.
(** test_tile_hash_num.py 6-11. *)
Example test_unique_tile_hash_num : let l := map tile_hash (tiles_from_string (t_ "123456789s123456789m123456789p1234567z")) in
  length (nodup Z.eq_dec l) = length l /\ length l = 34%nat.
Proof. vm_compute. auto. Qed.

(** ** tests/paifu. *)
(** test_flush.py 7-31: the first tile of the answer is the borrowed one. *)
Definition flush_cases : list (Z * string) :=
  [(9239, "456m"); (33031, "645p"); (13511, "657m"); (26663, "423p"); (58615, "678s"); (50519, "435s"); (26687, "423p");
   (25007, "234p"); (39199, "867p"); (62791, "879s"); (62623, "879s"); (9639, "456m"); (59703, "768s")]%string.
Definition same_set (a b : list tile) : bool := forallb (fun x => existsb (tile_eqb x) b) a && forallb (fun x => existsb (tile_eqb x) a) b.
Definition flush_ok (c : Z * string) : bool :=
  match new_flush 0 (fst c), tiles_from_string (t_ (snd c)) with
  | Ok m, borrowed :: own =>
    match mapM tile_from_tenhou (m_borrowed m), mapM tile_from_tenhou (m_self m) with
    | Ok b, Ok s => same_set [borrowed] b && same_set own s
    | _, _ => false
    end
  | _, _ => false
  end.
Example test_self_tiles : forallb flush_ok flush_cases = true.
Proof. vm_compute. reflexivity. Qed.
(** 34-38. *)
Example test_flush_data_kui_3 : Forall (fun c => (do r <- unpack_with flush_desc (fst c); Ok (fld r "kui")) = Ok 3) flush_cases.
Proof. unfold flush_cases. repeat (constructor; [vm_compute; reflexivity|]). constructor. Qed.
(** test_gameType.py 5-16. *)
Example test_game_type_display : (do v <- py_int (t_ "169"); do g <- new_game_type v; game_type_str g) = Ok [22235; 40179; 21335; 21936; 36196].
Proof. vm_compute. reflexivity. Qed.
(** test_fromFile.py 8-11. *)
Example test_from_file : (do r <- new_record log_2009060321; Ok (length (r_games r))) = Ok 1%nat.
Proof. vm_compute. reflexivity. Qed.
(** test_paifu.py 9-48. The order of a set is not used by the counts: it is left alone. *)
Definition rows_of_events (r : record) : res (list (list Paifu.row)) :=
  do l <- mapM (fun g => mapM (event_paifu (fun x => x)) (g_events g)) (r_games r); Ok (concat l).
Example test_to_paifu : (do r <- new_record log_2009060321; do l <- rows_of_events r; Ok (length (concat l))) = Ok 50%nat.
Proof. vm_compute. reflexivity. Qed.
Example test_init_to_paifu_sanma : (do r <- new_record log_2009060321; do l <- rows_of_events r; Ok (length (hd [] l))) = Ok 5%nat.
Proof. vm_compute. reflexivity. Qed.
Example test_init_to_paifu_sima : (do r <- new_record log_2009100718; do l <- rows_of_events r; Ok (length (hd [] l))) = Ok 6%nat.
Proof. vm_compute. reflexivity. Qed.
Definition paifu_rows (l : list event) : res (nat * nat) :=
  do r <- new_record l; do rows <- record_paifu (fun x => x) r; do games <- mapM (game_paifu (fun x => x) (r_type r)) (r_games r);
  Ok (length rows, length (concat games)).
Example test_pd_fin_game : paifu_rows log_2009060321 = Ok (53, 53 - 3)%nat /\ paifu_rows log_2009100718 = Ok (75, 75 - 4)%nat.
Proof. vm_compute. auto. Qed.

(** ** tests/algo. *)
Definition normal : pattern := NormalTypeWin 1 4.
Definition seven_pairs : pattern := UniquePairs 7 [].
Definition sel (l : list string) : list tset := sel_sort (map tset_of l).
(** test_win_pattern.py 15-31: the first selection. *)
Definition first_selection (s : string) : option (list tset) := option_map sel_sort (hd_error (win_selections normal (tset_of s))).
Example test_win_selections : Forall (fun s => option_map (sel_eqb (sel ["111s"; "123s"; "456s"; "55p"; "567p"]%string)) (first_selection s) = Some true)
  ["111123456s55567p"; "11s555p1123456s67p"; "654321111s76555p"]%string.
Proof. repeat (constructor; [vm_compute; reflexivity|]). constructor. Qed.
(** 33-37: [>] is the reflected [<]. *)
Example test_compare_tile_set : let a := tset_of "567p" in let b := tset_of "55p" in xorb (ts_ltb a b) (ts_ltb b a) = true.
Proof. vm_compute. reflexivity. Qed.
(** 39-47. *)
Example test_unique_win_selections : length (unique_win_selections normal (tset_of "111123456s55567p")) = 1%nat.
Proof. vm_compute. reflexivity. Qed.
Example test_multi_win_selections : length (unique_win_selections normal (tset_of "111123456s55567p8p")) = 3%nat.
Proof. vm_compute. reflexivity. Qed.
(** 50-63. *)
Example test_tenhou_reasoning : map (sel_eqb (sel ["111m"; "22m"; "666m"; "789m"; "789m"]%string))
  (unique_win_selections normal (tset_of "1112246667778899m")) = [true].
Proof. vm_compute. reflexivity. Qed.

(** test_waiting.py 8-31. *)
Definition useful_is (s : string) (x : res (list tile)) : bool := match x with Ok l => ts_eqb (of_tiles l) (tset_of s) | Err _ => false end.
Example test_brute : brute_step 5 normal (tset_of "11246667778992m") true = Ok 1 /\ brute_step 5 normal (tset_of "112466677788992m") true = Ok 0.
Proof. vm_compute. auto. Qed.
Example test_brute_useful : useful_is "123789m" (brute_useful 5 normal (tset_of "11246667778992m") true) = true.
Proof. vm_compute. reflexivity. Qed.
(** test_pattern_waiting.py 8-37. *)
Definition pattern_cases : list (string * Z * string) :=
  [("11266677788992m", 0, "12m"); ("11246667778992m", 1, "123789m"); ("4677m2357p668s6z6s", 2, "5m1p4p6p")]%string.
Example test_pattern_waiting : forallb (fun c => let '(hand, step, useful) := c in
  match pm_step 20 normal (tset_of hand) true with Ok n => n =? step | Err _ => false end &&
  useful_is useful (pm_useful 20 normal (tset_of hand) true)) pattern_cases = true.
Proof. vm_compute. reflexivity. Qed.
(** test_heuristic_pattern_waiting.py 10-75. *)
Definition heuristic_cases : list (string * Z * Z * string) :=
  [("11266677788992m", 1, 0, "12m");
   ("11246667778992m", 1, 1, "123789m");
   ("4677m2357p668s6z6s", 4, 2, "5m1p4p6p");
   ("477m2357p668s46z6m", 4, 3, "5m7m1p4p6p6s7s");
   ("79m899p24668s256z", 4, 4, "8m6p7p8p9p1s2s3s4s5s6s7s8s9s2z5z6z");
   ("79m899p246689s56z", 4, 3, "8m7p9p3s6s7s");
   ("1115555s456m111z", 4, 1, "1m2m3m4m5m6m7m8m9m1p2p3p4p5p6p7p8p9p2s3s4s6s7s8s9s2z3z4z5z6z7z");
   ("4677m2307p668s6z6s", 4, 2, "5m1p4p6p");
   ("477m2307p668s46z6m", 4, 3, "5m7m1p4p6p6s7s");
   ("1110555s406m111z", 4, 1, "1m2m3m4m5m6m7m8m9m1p2p3p4p5p6p7p8p9p2s3s4s6s7s8s9s2z3z4z5z6z7z")]%string.
Example test_heuristic : forallb (fun c => let '(hand, pairs, step, useful) := c in
  match h_step normal (tset_of hand) true with Ok n => n =? step | Err _ => false end &&
  match h_step seven_pairs (tset_of hand) true with Ok n => n =? pairs | Err _ => false end &&
  useful_is useful (h_useful normal (tset_of hand) true)) heuristic_cases = true.
Proof. vm_compute. reflexivity. Qed.
(** 77-118. *)
Definition batch_cases : list (string * string) :=
  [("5m", "7m8m9m4p5p6p7p3s4s5s7s8s9s1z5z"); ("1z", "5m7m8m9m4p5p6p7p3s4s5s7s8s9s5z"); ("5z", "5m7m8m9m4p5p6p7p3s4s5s7s8s9s1z");
   ("8m", "5m9m4p7p4s7s1z5z"); ("9m", "5m8m4p7p4s7s1z5z"); ("3s", "5m7m4p7p5s7s1z5z"); ("5s", "5m7m4p7p3s7s1z5z");
   ("8s", "5m7m4p7p4s9s1z5z"); ("9s", "5m7m4p7p4s8s1z5z"); ("5p", "5m7m6p4s7s1z5z"); ("6p", "5m7m5p4s7s1z5z"); ("1p", "7m4p7p4s7s")]%string.
Definition batch_of (t : tile) : option string :=
  option_map snd (find (fun c => existsb (tile_eqb t) (tiles_from_string (t_ (fst c)))) batch_cases).
Example test_batch_convert : match h_batch normal (tset_of "589m1156p3089s15z1p") true with
  | Ok l => negb (length l =? 0)%nat && forallb (fun r => match batch_of (fst (fst r)) with Some s => ts_eqb (of_tiles (snd r)) (tset_of s) | None => false end) l
  | Err _ => false
  end = true.
Proof. vm_compute. reflexivity. Qed.

(** ** tests/uni_record. *)
Definition strict_commands (strict : bool) (l : list event) : res (list command) :=
  do r <- new_record l; to_commands (tenhou_command py_unquote (fun x => x)) strict (r_events r).
(** test_event_definition.py 28-33: nothing is unknown, and there are commands. *)
Example test_command_convert : map (fun l => do c <- strict_commands true l; Ok (Z.of_nat (length c))) test_logs = map Ok [194; 275; 505; 360; 974; 636].
Proof. vm_compute. reflexivity. Qed.
(** 36-43. *)
Example test_game_command_convert : let c := mkCmd PV_hand U_RESET_DEFAULT (SId 2) VNone None VNone None in
  exists r c', to_record c = Ok r /\ from_record r = Ok c' /\ to_record c' = Ok r.
Proof. eexists. eexists. split; [vm_compute; reflexivity|]. split; [vm_compute; reflexivity|]. vm_compute. reflexivity. Qed.
(** 66-81: the table is written to a file, read and cleaned; the commands have the records they had. *)
Definition read_again (l : list event) : res (list row * list row) :=
  do c <- strict_commands false l; do f <- to_csv c; do c' <- read_clean_csv true true [] f;
  do a <- mapM to_record c; do b <- mapM to_record c'; Ok (a, b).
Definition opt_eqb {A} (eqb : A -> A -> bool) (a b : option A) : bool :=
  match a, b with Some x, Some y => eqb x y | None, None => true | _, _ => false end.
Definition row_eqb (a b : row) : bool :=
  opt_eqb Z.eqb (r_time a) (r_time b) && opt_eqb text_eqb (r_event a) (r_event b) && text_eqb (r_scope a) (r_scope b) && sub_eqb (r_sub a) (r_sub b) &&
  text_eqb (r_prop a) (r_prop b) && text_eqb (r_update a) (r_update b) && val_eqb (r_value a) (r_value b) && val_eqb (r_state a) (r_state b).
(** For the first two of the logs; the computation is long for the checker of compiled files, which has no fast reduction. *)
Example test_command_clean : map (fun l => do x <- read_again l; Ok (forallb (fun p => row_eqb (fst p) (snd p)) (combine (fst x) (snd x)), Z.of_nat (length (snd x)))) (firstn 2 test_logs)
  = map (fun n => Ok (true, n)) [194; 275].
Proof. vm_compute. reflexivity. Qed.
