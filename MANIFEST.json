{
 "claims": [
  {
   "property": "C01",
   "status": "proved",
   "theorems": [
    "C01_sub_category_bijection",
    "C01_sub_category_constructor",
    "C01_sub_category_len"
   ],
   "note": "mixed-radix bijection, for every tuple of positive radices"
  },
  {
   "property": "C02",
   "status": "proved",
   "theorems": [
    "C02_sub_category_order",
    "C02_sub_category_error"
   ],
   "note": "lexicographic order; exactly the out-of-range indexes raise"
  },
  {
   "property": "C03",
   "status": "proved",
   "theorems": [
    "C03_mixed_category_locate",
    "C03_locate_range",
    "C03_len"
   ],
   "note": ""
  },
  {
   "property": "C04",
   "status": "partial",
   "theorems": [
    "C04_refuted",
    "C04_exactly",
    "C04_mixed_roundtrip_partial"
   ],
   "note": "the literal round trip fails for the flattened coordinates the library returns (C04_refuted); C04_exactly says for which categories it holds (the digits of each block are worth the same in the block before it, whose shape index() reads them in), among them the tile numbering"
  },
  {
   "property": "C05",
   "status": "partial",
   "theorems": [
    "C05_tile_of_number",
    "C05_rejected",
    "C05_range_partial",
    "C05_refuted",
    "C05_full_refuted"
   ],
   "note": "numbers to faces proved for every number; the inverse range is right for every plain tile and wrong for all three red fives (C05_refuted)"
  },
  {
   "property": "C06",
   "status": "proved",
   "theorems": [
    "C06_tile_comparison",
    "C06_strict_total_order",
    "C06_equal_tiles_equal_hash",
    "C06_legal_faces_distinct_hash"
   ],
   "note": ""
  },
  {
   "property": "C07",
   "status": "proved",
   "theorems": [
    "C07_pool_is_a_cache",
    "C07_out_of_range_collision"
   ],
   "note": "for every sequence of constructor calls; the collision theorem records what happens for out-of-range numbers"
  },
  {
   "property": "C08",
   "status": "proved",
   "theorems": [
    "C08_getitem",
    "C08_add",
    "C08_sub",
    "C08_and",
    "C08_or",
    "C08_contains",
    "C08_exclude",
    "C08_len_tiles",
    "C08_of_iterable",
    "C08_re_sort",
    "C08_eq"
   ],
   "note": ""
  },
  {
   "property": "C09",
   "status": "proved",
   "theorems": [
    "C09_print_parse",
    "C09_print_parse_any"
   ],
   "note": "with only positive counts the set comes back; in general the positive entries do"
  },
  {
   "property": "C10",
   "status": "proved",
   "theorems": [
    "C10_segments",
    "C10_segment_meaning",
    "C10_parse",
    "C10_only_legal_tiles",
    "C10_concatenation",
    "C10_parsed_set"
   ],
   "note": ""
  },
  {
   "property": "C100",
   "status": "proved",
   "theorems": [
    "C100_recipe",
    "C100_texts",
    "C100_columns"
   ],
   "note": "pivot and forward fill are modelled in Readme.v; the order of columns is not"
  },
  {
   "property": "C101",
   "status": "proved",
   "theorems": [
    "C101_states"
   ],
   "note": "three header lines, enum names, skipinitialspace and type inference are modelled in StateCsv.v"
  },
  {
   "property": "C102",
   "status": "partial",
   "theorems": [
    "C102_texts_partial",
    "C102_blanks",
    "C102_missing",
    "C102_texts_refuted"
   ],
   "note": "plain words are kept, without the blanks before them, and nan stands for every text that looks missing; a name that looks missing is lost (refuted with a log whose first player is called NA)"
  },
  {
   "property": "C103",
   "status": "partial",
   "theorems": [
    "C103_uninterrupted_partial",
    "C103_interleaved_refuted"
   ],
   "note": "holds for generators that are not interrupted; refuted with a proper log whose two generators take turns"
  },
  {
   "property": "C104",
   "status": "proved",
   "theorems": [
    "C104_script",
    "C104_only"
   ],
   "note": "the server and the XML parser are an arbitrary function from addresses to elements or exceptions"
  },
  {
   "property": "C105",
   "status": "proved",
   "theorems": [
    "C105_raw",
    "C105_tables"
   ],
   "note": ""
  },
  {
   "property": "C106",
   "status": "proved",
   "theorems": [
    "C106_texts",
    "C106_markup"
   ],
   "note": "how a browser reads a page is the small reader of Spec_Html.v (tags, quoted values, character references)"
  },
  {
   "property": "C107",
   "status": "proved",
   "theorems": [
    "C107_shown",
    "C107_colours"
   ],
   "note": "the two sections of C108 are empty in the page this describes"
  },
  {
   "property": "C108",
   "status": "partial",
   "theorems": [
    "C108_empty",
    "C108_sections_refuted"
   ],
   "note": "false: the template reads attributes that are never set, since the generator win_reasonings is exhausted when the loop that sets them runs; the sections of every report are empty, also when there is an analysis"
  },
  {
   "property": "C109",
   "status": "proved",
   "theorems": [
    "C109_pictures",
    "C109_complete"
   ],
   "note": "the files are an arbitrary function from names to bytes or exceptions"
  },
  {
   "property": "C11",
   "status": "proved",
   "theorems": [
    "C11_standard_match"
   ],
   "note": ""
  },
  {
   "property": "C110",
   "status": "partial",
   "theorems": [
    "C110_directory_partial",
    "C110_directory_refuted"
   ],
   "note": "false for names with a slash, which a log may contain; the theorem says exactly when"
  },
  {
   "property": "C111",
   "status": "proved",
   "theorems": [
    "C111_strict",
    "C111_exactly",
    "tests_strict"
   ],
   "note": "tests_strict applies it to the six logs of tests/"
  },
  {
   "property": "C112",
   "status": "proved",
   "theorems": [
    "C112_exactly",
    "C112_record",
    "C112_rows",
    "C112_unambiguous",
    "C112_logs"
   ],
   "note": "constructs logs do not use (declarations, comments, character data, name spaces) are outside the model of the parser; fromstring answers NotModelled for them"
  },
  {
   "property": "C113",
   "status": "proved",
   "theorems": [
    "C113_truncated",
    "C113_nothing_after"
   ],
   "note": ""
  },
  {
   "property": "C114",
   "status": "proved",
   "theorems": [
    "C114_again",
    "C114_ascii",
    "C114_distinct",
    "C114_carriage_return_refuted"
   ],
   "note": "the carriage return is the one exception, shown by the last theorem (Python 3.7, the version the project asks for)"
  },
  {
   "property": "C115",
   "status": "proved",
   "theorems": [
    "C115_legal_discard",
    "C115_rows",
    "C115_outcome",
    "C115_stops",
    "C115_no_report",
    "C115_page",
    "C115_no_page",
    "C115_script_stops",
    "C115_tests"
   ],
   "note": "the count of copies is right for four players, hands whose red fives are not useful and while tile 0 is not discarded; what each row counts otherwise is stated too (right_about)"
  },
  {
   "property": "C116",
   "status": "proved",
   "theorems": [
    "C116_transcript",
    "C116_all",
    "C116_only",
    "C116_seen"
   ],
   "note": "server, file system, pictures and the printing of floats are arbitrary functions; the log lines on stderr are not modelled"
  },
  {
   "property": "C117",
   "status": "proved",
   "theorems": [
    "C117_only",
    "C117_saved",
    "C117_clean",
    "C117_logs"
   ],
   "note": "server and file system are arbitrary functions; the shell command pause is not modelled"
  },
  {
   "property": "C118",
   "status": "proved",
   "theorems": [
    "C118_rows",
    "C118_made",
    "C118_none",
    "C118_goes_on_open",
    "C118_goes_on_closed"
   ],
   "note": "C118_goes_on_open and C118_goes_on_closed decide at every discard from a hand without useful red fives whether the report goes on; for other hands C55_rows says what is counted"
  },
  {
   "property": "C119",
   "status": "proved",
   "theorems": [
    "C119_float",
    "C119_order",
    "C119_deal"
   ],
   "note": "a rounding is any function on rationals that keeps the order, 0 and 1; overflow cannot occur, since the quotient is at most 1 for a rate that is not negative and the numerator is a number of tiles"
  },
  {
   "property": "C12",
   "status": "proved",
   "theorems": [
    "C12_distinct_pairs_match"
   ],
   "note": ""
  },
  {
   "property": "C120",
   "status": "proved",
   "theorems": [
    "C120_cut",
    "C120_moment"
   ],
   "note": "composes C32, C40, C41, C42, C48, C58 and C76 over every beginning of a proper log, which is shown to be proper itself; C96 says that proper logs are always converted"
  },
  {
   "property": "C121",
   "status": "proved",
   "theorems": [
    "C121_player",
    "C121_table",
    "C121_copies",
    "C121_tests"
   ],
   "note": "what is shown is compared as tiles, up to order; C121_tests says that the six logs of the tests meet the hypotheses at every moment of every deal"
  },
  {
   "property": "C122",
   "status": "proved",
   "theorems": [
    "C122_stationary",
    "C122_share",
    "C122_rows",
    "C122_errors",
    "C122_converges_refuted"
   ],
   "note": "LA.eig is an arbitrary function of the matrix; exact fractions; C122_converges_refuted is a run without any stationary vector"
  },
  {
   "property": "C123",
   "status": "proved",
   "theorems": [
    "C123_distance",
    "C123_answers",
    "C123_choice"
   ],
   "note": "the bounds are met: C123_tight and C123_choice_case; the brute force search is compared with the limit of four only, as in C17"
  },
  {
   "property": "C124",
   "status": "proved",
   "theorems": [
    "C124_names",
    "C124_steps",
    "C124_useful",
    "C124_discards"
   ],
   "note": "C124_names says which renamings there are; the brute force search is compared with the limit of four only, as in C17"
  },
  {
   "property": "C125",
   "status": "proved",
   "theorems": [
    "C125_seen",
    "C125_same"
   ],
   "note": "no hypothesis on the hand or the event; the wrong rate also depends on the number of unseen tiles, which C125_same covers by a permutation"
  },
  {
   "property": "C126",
   "status": "partial",
   "theorems": [
    "C126_order_partial",
    "C126_order_plain",
    "C126_refuted"
   ],
   "note": "false if a hand has a red five and another five of its suit: the first of the two is kept as the entry of the multiset, and a row counts a red five wrongly (C55); proved for all hands and orders in which the red five comes before the other fives of its suit in both orders or in neither"
  },
  {
   "property": "C127",
   "status": "proved",
   "theorems": [
    "C127_advice",
    "C127_no_hindsight",
    "C127_commands",
    "C127_refused",
    "C127_rows",
    "C127_states"
   ],
   "note": "C127_advice, C127_commands, C127_refused and C127_rows have no hypothesis on the events; C127_no_hindsight counts the discards, so it is about logs in which the player does not discard twice in a row; C127_states leaves out texts that were given lists, as C62 does"
  },
  {
   "property": "C128",
   "status": "proved",
   "theorems": [
    "C128_no_peeking"
   ],
   "note": "no hypothesis on the events"
  },
  {
   "property": "C129",
   "status": "proved",
   "theorems": [
    "C129_seats"
   ],
   "note": "any injective exchange of the four seats; that a call is from another seat is relative in the meld code, so the code stays the same"
  },
  {
   "property": "C13",
   "status": "proved",
   "theorems": [
    "C13_selections_sound",
    "C13_selections_complete"
   ],
   "note": ""
  },
  {
   "property": "C130",
   "status": "partial",
   "theorems": [
    "C130_plain",
    "C130_injective",
    "C130_red",
    "C130_refuted"
   ],
   "note": "full claim false of the code: C130_refuted (red fives get the character of another tile); proved for all other tiles"
  },
  {
   "property": "C131",
   "status": "proved",
   "theorems": [
    "C131_next"
   ],
   "note": ""
  },
  {
   "property": "C132",
   "status": "proved",
   "theorems": [
    "C132_table",
    "C132_no_table"
   ],
   "note": "the rows as handed to pd.DataFrame; of no commands at all there are no rows, which pandas then refuses to give three header levels (not modelled)"
  },
  {
   "property": "C133",
   "status": "proved",
   "theorems": [
    "C133_draw",
    "C133_discard",
    "C133_who"
   ],
   "note": ""
  },
  {
   "property": "C134",
   "status": "proved",
   "theorems": [
    "C134_open",
    "C134_added"
   ],
   "note": ""
  },
  {
   "property": "C135",
   "status": "proved",
   "theorems": [
    "C135_discard",
    "C135_draw",
    "C135_call_or_win",
    "C135_other",
    "C135_meld"
   ],
   "note": ""
  },
  {
   "property": "C136",
   "status": "proved",
   "theorems": [
    "C136_rows",
    "C136_table"
   ],
   "note": "rows as sets of cells without repeated path, as in C62; in the model the snapshots are flattened after all commands, so that the claim includes that later commands do not touch earlier snapshots"
  },
  {
   "property": "C137",
   "status": "proved",
   "theorems": [
    "C137_decoded",
    "C137_names",
    "C137_faithful"
   ],
   "note": "urllib's unquote as modelled in Url.v"
  },
  {
   "property": "C14",
   "status": "proved",
   "theorems": [
    "C14_unique_sound",
    "C14_unique_exactly_once"
   ],
   "note": ""
  },
  {
   "property": "C15",
   "status": "proved",
   "theorems": [
    "C15_distinct_first_occurrences",
    "C15_distinct_no_duplicates"
   ],
   "note": ""
  },
  {
   "property": "C16",
   "status": "proved",
   "theorems": [
    "C16_match_monotone",
    "C16_match_counts_only",
    "C16_match_keeps_counts"
   ],
   "note": ""
  },
  {
   "property": "C17",
   "status": "proved",
   "theorems": [
    "C17_brute_minimum"
   ],
   "note": ""
  },
  {
   "property": "C18",
   "status": "proved",
   "theorems": [
    "C18_pattern_match_minimum"
   ],
   "note": "both values of ignore_4counts"
  },
  {
   "property": "C19",
   "status": "proved",
   "theorems": [
    "C19_heuristic_minimum",
    "C19_heuristic_any_size",
    "C19_usual_sizes"
   ],
   "note": ""
  },
  {
   "property": "C20",
   "status": "proved",
   "theorems": [
    "C20_useful_brute",
    "C20_useful_pattern_match",
    "C20_useful_heuristic"
   ],
   "note": ""
  },
  {
   "property": "C21",
   "status": "partial",
   "theorems": [
    "C21_agree_partial",
    "C21_steps_agree",
    "C21_refuted",
    "C21_full_refuted",
    "C21_complete",
    "C21_complete_usual"
   ],
   "note": "false of the code on complete hands, where PatternMatchWaiting.waiting_and_useful_tiles never answers -1 (C21_refuted, for every complete hand); proved for every other hand; what it answers instead is C21_complete, and C21_complete_usual says that it is 0 or 1"
  },
  {
   "property": "C22",
   "status": "proved",
   "theorems": [
    "C22_batch"
   ],
   "note": ""
  },
  {
   "property": "C23",
   "status": "partial",
   "theorems": [
    "C23_returns_partial",
    "C23_refuted",
    "C23_full_refuted"
   ],
   "note": "false of BruteForceWaiting with ignore_4counts=False, which never returns on a non-winning hand (C23_refuted); every other combination proved"
  },
  {
   "property": "C24",
   "status": "proved",
   "theorems": [
    "C24_draw_distance",
    "C24_draw_pattern_match",
    "C24_draw_brute",
    "C24_draw_heuristic",
    "C24_discard_pattern_match",
    "C24_discard_brute",
    "C24_discard_heuristic"
   ],
   "note": ""
  },
  {
   "property": "C25",
   "status": "proved",
   "theorems": [
    "C25_decode",
    "C25_rejected",
    "C25_meld_type"
   ],
   "note": ""
  },
  {
   "property": "C26",
   "status": "partial",
   "theorems": [
    "C26_well_formed_partial",
    "C26_refuted",
    "C26_full_refuted"
   ],
   "note": "false for kita codes whose tile byte is 136 or more, which are accepted (C26_refuted); proved for every other code"
  },
  {
   "property": "C27",
   "status": "proved",
   "theorems": [
    "C27_player_melds",
    "C27_determined",
    "C27_four_tiles"
   ],
   "note": "the melds after any log; the relation determines them; four distinct copies when the added tile is not already in the pon"
  },
  {
   "property": "C28",
   "status": "proved",
   "theorems": [
    "C28_flags",
    "C28_equality",
    "C28_rejected"
   ],
   "note": ""
  },
  {
   "property": "C29",
   "status": "proved",
   "theorems": [
    "C29_partition",
    "C29_unique"
   ],
   "note": ""
  },
  {
   "property": "C30",
   "status": "partial",
   "theorems": [
    "C30_partial",
    "C30_in_order",
    "C30_refuted",
    "C30_full_refuted"
   ],
   "note": "false when an earlier group is pulled from after a later one was opened: an element is lost (C30_refuted); proved for every sequence of calls pulling only from the group opened last; whatever the schedule, no element is delivered twice or out of order (C30_in_order)"
  },
  {
   "property": "C31",
   "status": "partial",
   "theorems": [
    "C31_partial",
    "C31_starts_with_deal",
    "C31_refuted",
    "C31_full_refuted"
   ],
   "note": "false for a log whose first event is INIT: the first deal is then taken for the head (C31_starts_with_deal, C31_refuted); proved for every other log"
  },
  {
   "property": "C32",
   "status": "proved",
   "theorems": [
    "C32_player_hand"
   ],
   "note": ""
  },
  {
   "property": "C33",
   "status": "proved",
   "theorems": [
    "C33_discards",
    "C33_dora_indicators",
    "deal_cases"
   ],
   "note": ""
  },
  {
   "property": "C34",
   "status": "partial",
   "theorems": [
    "C34_partial",
    "C34_tile_zero",
    "C34_three_players",
    "C34_refuted",
    "C34_full_refuted"
   ],
   "note": "false for the discard of tile 0, which is not noticed, and for 1m and 9m with three players (C34_refuted); proved for every other tile, and what happens to these two is characterised"
  },
  {
   "property": "C35",
   "status": "proved",
   "theorems": [
    "C35_passed_is_scanning",
    "C35_passed_app",
    "C35_fresh"
   ],
   "note": ""
  },
  {
   "property": "C36",
   "status": "proved",
   "theorems": [
    "C36_set",
    "C36_roots_read"
   ],
   "note": "in any program using the class, at any depth and for any old version"
  },
  {
   "property": "C37",
   "status": "proved",
   "theorems": [
    "C37_snapshots",
    "C37_stops",
    "C37_all"
   ],
   "note": "also says where the iteration stops for commands that cannot be executed"
  },
  {
   "property": "C38",
   "status": "proved",
   "theorems": [
    "C38_replay",
    "C38_record",
    "C38_log"
   ],
   "note": ""
  },
  {
   "property": "C39",
   "status": "proved",
   "theorems": [
    "C39_strict",
    "C39_lenient"
   ],
   "note": ""
  },
  {
   "property": "C40",
   "status": "proved",
   "theorems": [
    "C40_hand"
   ],
   "note": "fair_play is the hypothesis of legal play; the event of a win shows the hand"
  },
  {
   "property": "C41",
   "status": "proved",
   "theorems": [
    "C41_flags"
   ],
   "note": "for the discards since the last deal, which is what the property holds"
  },
  {
   "property": "C42",
   "status": "proved",
   "theorems": [
    "C42_score"
   ],
   "note": "score_after is the specification of what the events say"
  },
  {
   "property": "C43",
   "status": "proved",
   "theorems": [
    "C43_rank"
   ],
   "note": ""
  },
  {
   "property": "C44",
   "status": "partial",
   "theorems": [
    "C44_yaku_refuted",
    "C44_yakuman_partial",
    "C44_yaku_partial"
   ],
   "note": "false for the yaku attribute: the han counts are looked up as yaku; true for yakuman"
  },
  {
   "property": "C45",
   "status": "partial",
   "theorems": [
    "C45_record",
    "C45_value_partial",
    "C45_value_refuted",
    "C45_distinct"
   ],
   "note": "the record round trip holds; the value is not recovered for properties of type str holding a number or None (player ratings)"
  },
  {
   "property": "C46",
   "status": "partial",
   "theorems": [
    "C46_dispatch_partial",
    "C46_swapped_partial",
    "C46_both_refuted",
    "C46_names"
   ],
   "note": "false for match_both, whose first two fields are swapped; proved for every handler table of the other matchers, and for the swapped meaning"
  },
  {
   "property": "C47",
   "status": "proved",
   "theorems": [
    "C47_lexical",
    "C47_restored"
   ],
   "note": ""
  },
  {
   "property": "C48",
   "status": "proved",
   "theorems": [
    "C48_order",
    "C48_times"
   ],
   "note": ""
  },
  {
   "property": "C49",
   "status": "proved",
   "theorems": [
    "C49_without_replacement",
    "C49_everything_possible"
   ],
   "note": "and every such sequence can be drawn"
  },
  {
   "property": "C50",
   "status": "proved",
   "theorems": [
    "C50_doras",
    "C50_total",
    "C50_unknown",
    "C50_initial_tiles"
   ],
   "note": ""
  },
  {
   "property": "C51",
   "status": "proved",
   "theorems": [
    "C51_n_a_r",
    "C51_n_a_r_outside",
    "C51_n_c_r",
    "C51_n_c_r_outside"
   ],
   "note": "n_c_r divides two integers whose exact quotient is the binomial coefficient; the rounding of that quotient to a double is not modelled"
  },
  {
   "property": "C52",
   "status": "partial",
   "theorems": [
    "C52_expected",
    "C52_open_partial",
    "C52_closed_partial",
    "C52_closed_exactly",
    "C52_refuted"
   ],
   "note": "false for closed hands: the rows of the two patterns are merged by position; proved with melds on the table, and for closed hands nearer to the standard shape each row is right (rows may be missing); C52_closed_exactly says what each row of a closed hand combines"
  },
  {
   "property": "C53",
   "status": "proved",
   "theorems": [
    "C53_one_row_per_discard",
    "C53_count",
    "C53_refuted"
   ],
   "note": "C53_refuted: two discards in a row give one row"
  },
  {
   "property": "C54",
   "status": "partial",
   "theorems": [
    "C54_outcomes",
    "C54_open_partial",
    "C54_closed_partial",
    "C54_closed_exactly",
    "C54_complete_refuted",
    "C54_no_tile_refuted",
    "C54_red_five_refuted"
   ],
   "note": "false: a complete hand ends the report with StopIteration, a hand with no useful tile left with ZeroDivisionError; C54_outcomes says these are all; C54_closed_exactly says when it is produced for a closed hand without useful red fives"
  },
  {
   "property": "C55",
   "status": "partial",
   "theorems": [
    "C55_convert_partial",
    "C55_merge_partial",
    "C55_exactly",
    "C55_merge_exactly",
    "C55_rows",
    "C55_red_held",
    "C55_red_shown",
    "C55_refuted"
   ],
   "note": "proved for plain tiles; false for red fives (tile_to_tenhou_range, C05); C55_exactly says what is counted instead, C55_rows says it for every row of a report by the texts it shows; C55_red_held: a row shows a red five among its useful tiles only if the hand holds it; C55_red_shown: of the fives of a suit the first in the list of the hand decides whether a row shows the five as 0 or as 5"
  },
  {
   "property": "C56",
   "status": "proved",
   "theorems": [
    "C56_end_events",
    "C56_no_end"
   ],
   "note": ""
  },
  {
   "property": "C57",
   "status": "proved",
   "theorems": [
    "C57_players",
    "C57_scores"
   ],
   "note": "the names as written in the log; their url-decoding is C77"
  },
  {
   "property": "C58",
   "status": "proved",
   "theorems": [
    "C58_play"
   ],
   "note": ""
  },
  {
   "property": "C59",
   "status": "proved",
   "theorems": [
    "C59_win",
    "C59_draw"
   ],
   "note": ""
  },
  {
   "property": "C60",
   "status": "partial",
   "theorems": [
    "C60_self_win_refuted",
    "C60_self_win_partial",
    "C60_bystander_partial"
   ],
   "note": "false: on a win by own draw every player is marked and has the yaku"
  },
  {
   "property": "C61",
   "status": "partial",
   "theorems": [
    "C61_winners_refuted",
    "C61_winners_partial"
   ],
   "note": "false for several winners: the last one replaces the others"
  },
  {
   "property": "C62",
   "status": "proved",
   "theorems": [
    "C62_cells",
    "C62_read"
   ],
   "note": ""
  },
  {
   "property": "C63",
   "status": "proved",
   "theorems": [
    "C63_choice"
   ],
   "note": "the count is claimed for hands none of whose red fives is useful"
  },
  {
   "property": "C64",
   "status": "partial",
   "theorems": [
    "C64_formula",
    "C64_open_partial",
    "C64_zero",
    "C64_range",
    "C64_refuted"
   ],
   "note": "false for closed hands, where the merged rows are wrong (C52); C64_range: for every hand it is at most 1, and negative exactly if the discard has more tiles than the expected row allows"
  },
  {
   "property": "C65",
   "status": "proved",
   "theorems": [
    "C65_hand",
    "C65_melds"
   ],
   "note": ""
  },
  {
   "property": "C66",
   "status": "proved",
   "theorems": [
    "C66_pictures"
   ],
   "note": "for the page itself see C106 to C109"
  },
  {
   "property": "C67",
   "status": "proved",
   "theorems": [
    "C67_rows"
   ],
   "note": "the order in which Python enumerates a set is a parameter; the table of rows (pandas) is not modelled"
  },
  {
   "property": "C68",
   "status": "proved",
   "theorems": [
    "C68_hand"
   ],
   "note": "dora rows count as seen and shown by seat 0, which leaves the balance intact"
  },
  {
   "property": "C69",
   "status": "proved",
   "theorems": [
    "C69_final"
   ],
   "note": ""
  },
  {
   "property": "C70",
   "status": "partial",
   "theorems": [
    "C70_cells_partial",
    "C70_full_refuted",
    "C70_blank_refuted"
   ],
   "note": "false: the row of a dora indicator turned during the deal holds tile objects, and the type of a pon row is 'PENG ' with a blank; proved: no other cells are not texts, event types come from a fixed list, every row ends with the name of the deal"
  },
  {
   "property": "C71",
   "status": "proved",
   "theorems": [
    "C71_reads",
    "C71_rejects"
   ],
   "note": "for the text of the log see C112"
  },
  {
   "property": "C72",
   "status": "proved",
   "theorems": [
    "C72_settings",
    "C72_seed"
   ],
   "note": ""
  },
  {
   "property": "C73",
   "status": "proved",
   "theorems": [
    "C73_never"
   ],
   "note": ""
  },
  {
   "property": "C74",
   "status": "proved",
   "theorems": [
    "C74_deal",
    "C74_late",
    "C74_dealer"
   ],
   "note": ""
  },
  {
   "property": "C75",
   "status": "proved",
   "theorems": [
    "C75_name",
    "C75_level",
    "C75_rate",
    "C75_connection"
   ],
   "note": "urllib.parse.unquote is an arbitrary function; the value of a rate is given by the model of the number parser (py_number)."
  },
  {
   "property": "C76",
   "status": "proved",
   "theorems": [
    "C76_riichi"
   ],
   "note": ""
  },
  {
   "property": "C77",
   "status": "proved",
   "theorems": [
    "C77_unquote",
    "C77_all_names",
    "C77_players",
    "C77_universal"
   ],
   "note": ""
  },
  {
   "property": "C78",
   "status": "proved",
   "theorems": [
    "C78_link",
    "C78_none",
    "C78_roundtrip"
   ],
   "note": ""
  },
  {
   "property": "C79",
   "status": "proved",
   "theorems": [
    "C79_text",
    "C79_record",
    "C79_identifies",
    "C79_equal",
    "C79_converse_refuted"
   ],
   "note": ""
  },
  {
   "property": "C80",
   "status": "proved",
   "theorems": [
    "C80_player",
    "C80_rounded",
    "C80_all"
   ],
   "note": ""
  },
  {
   "property": "C81",
   "status": "proved",
   "theorems": [
    "C81_caption",
    "C81_distinct"
   ],
   "note": ""
  },
  {
   "property": "C82",
   "status": "proved",
   "theorems": [
    "C82_record"
   ],
   "note": ""
  },
  {
   "property": "C83",
   "status": "proved",
   "theorems": [
    "C83_described",
    "C83_red_refuted",
    "C83_repr"
   ],
   "note": "The refutation witnesses that red fives in claims are not shown faithfully."
  },
  {
   "property": "C84",
   "status": "proved",
   "theorems": [
    "C84_complete",
    "C84_abstract",
    "C84_lossless",
    "C84_abstract_lossy"
   ],
   "note": ""
  },
  {
   "property": "C85",
   "status": "proved",
   "theorems": [
    "C85_log_id",
    "C85_no_extension"
   ],
   "note": "POSIX paths."
  },
  {
   "property": "C86",
   "status": "proved",
   "theorems": [
    "C86_files",
    "C86_identifies"
   ],
   "note": ""
  },
  {
   "property": "C87",
   "status": "proved",
   "theorems": [
    "C87_one",
    "C87_all"
   ],
   "note": ""
  },
  {
   "property": "C88",
   "status": "proved",
   "theorems": [
    "C88_page",
    "C88_pictures"
   ],
   "note": ""
  },
  {
   "property": "C89",
   "status": "proved",
   "theorems": [
    "C89_main",
    "C89_record",
    "C89_index",
    "C89_file_name_refuted"
   ],
   "note": ""
  },
  {
   "property": "C90",
   "status": "proved",
   "theorems": [
    "C90_win_counts",
    "C90_every_draw"
   ],
   "note": "for draws that the wall can supply"
  },
  {
   "property": "C91",
   "status": "proved",
   "theorems": [
    "C91_shares"
   ],
   "note": ""
  },
  {
   "property": "C92",
   "status": "proved",
   "theorems": [
    "C92_no_win",
    "C92_no_draw"
   ],
   "note": "a negative number of experiments makes none, as zero"
  },
  {
   "property": "C93",
   "status": "partial",
   "theorems": [
    "C93_rates_partial",
    "C93_sum_refuted"
   ],
   "note": "the rates do not add up to 100% (C93_sum_refuted; for hands with two different tiles never, C93_rates_partial); bounds proved"
  },
  {
   "property": "C94",
   "status": "proved",
   "theorems": [
    "C94_drop",
    "C94_missing"
   ],
   "note": "in any program using set, drop and the constructor, at any depth and for any old version"
  },
  {
   "property": "C95",
   "status": "partial",
   "theorems": [
    "C95_absent",
    "C95_present",
    "C95_root_refuted"
   ],
   "note": "full claim false: on an inner dictionary that has the key the inner dictionary is returned (C95_root_refuted); both cases characterised"
  },
  {
   "property": "C96",
   "status": "proved",
   "theorems": [
    "C96_converted",
    "C96_strict",
    "C96_unknown"
   ],
   "note": "premises of `proper` are about the log alone (Spec_Convert.v); a concrete 4-player log is shown to meet them (ex_proper)"
  },
  {
   "property": "C97",
   "status": "proved",
   "theorems": [
    "C97_no_settings",
    "C97_missing",
    "C97_no_deal",
    "C97_not_in_hand",
    "C97_lacking"
   ],
   "note": "C97_not_in_hand is for logs that were proper up to the offending event"
  },
  {
   "property": "C98",
   "status": "proved",
   "theorems": [
    "C98_commands",
    "C98_exact",
    "C98_converted",
    "C98_elsewhere",
    "C98_decimals"
   ],
   "note": "the csv writer, the tokenizer and the type inference of pandas are modelled in Csv.v; floats are exact decimals"
  },
  {
   "property": "C99",
   "status": "partial",
   "theorems": [
    "C99_texts_partial",
    "C99_words",
    "C99_missing",
    "C99_texts_refuted"
   ],
   "note": "holds for texts that cannot be taken for a number, a truth value or a missing value (C99_words), and in columns with a list in the same piece for all texts that are not one of the 18 (19) texts pandas takes for missing; those are read as nan, e.g. a player called NA (C99_texts_refuted)"
  }
 ]
}
