"""Writes /verif/MANIFEST.json from the table below."""
import json, os
P, H, N = "proved", "partial", "not_applicable"
T = {
"C01": (P, "C01_sub_category_bijection C01_sub_category_constructor C01_sub_category_len", "mixed-radix bijection, for every tuple of positive radices"),
"C02": (P, "C02_sub_category_order C02_sub_category_error", "lexicographic order; exactly the out-of-range indexes raise"),
"C03": (P, "C03_mixed_category_locate C03_locate_range C03_len", ""),
"C04": (H, "C04_refuted C04_exactly C04_mixed_roundtrip_partial", "the literal round trip fails for the flattened coordinates the library returns (C04_refuted); C04_exactly says for which categories it holds (the digits of each block are worth the same in the block before it, whose shape index() reads them in), among them the tile numbering"),
"C05": (H, "C05_tile_of_number C05_rejected C05_range_partial C05_refuted C05_full_refuted", "numbers to faces proved for every number; the inverse range is right for every plain tile and wrong for all three red fives (C05_refuted)"),
"C06": (P, "C06_tile_comparison C06_strict_total_order C06_equal_tiles_equal_hash C06_legal_faces_distinct_hash", ""),
"C07": (P, "C07_pool_is_a_cache C07_out_of_range_collision", "for every sequence of constructor calls; the collision theorem records what happens for out-of-range numbers"),
"C08": (P, "C08_getitem C08_add C08_sub C08_and C08_or C08_contains C08_exclude C08_len_tiles C08_of_iterable C08_re_sort C08_eq", ""),
"C09": (P, "C09_print_parse C09_print_parse_any", "with only positive counts the set comes back; in general the positive entries do"),
"C10": (P, "C10_segments C10_segment_meaning C10_parse C10_only_legal_tiles C10_concatenation C10_parsed_set", ""),
"C11": (P, "C11_standard_match", ""),
"C12": (P, "C12_distinct_pairs_match", ""),
"C13": (P, "C13_selections_sound C13_selections_complete", ""),
"C14": (P, "C14_unique_sound C14_unique_exactly_once", ""),
"C15": (P, "C15_distinct_first_occurrences C15_distinct_no_duplicates", ""),
"C16": (P, "C16_match_monotone C16_match_counts_only C16_match_keeps_counts", ""),
"C17": (P, "C17_brute_minimum", ""),
"C18": (P, "C18_pattern_match_minimum", "both values of ignore_4counts"),
"C19": (P, "C19_heuristic_minimum C19_heuristic_any_size C19_usual_sizes", ""),
"C20": (P, "C20_useful_brute C20_useful_pattern_match C20_useful_heuristic", ""),
"C21": (H, "C21_agree_partial C21_steps_agree C21_refuted C21_full_refuted C21_complete C21_complete_usual", "false of the code on complete hands, where PatternMatchWaiting.waiting_and_useful_tiles never answers -1 (C21_refuted, for every complete hand); proved for every other hand; what it answers instead is C21_complete, and C21_complete_usual says that it is 0 or 1"),
"C22": (P, "C22_batch", ""),
"C23": (H, "C23_returns_partial C23_refuted C23_full_refuted", "false of BruteForceWaiting with ignore_4counts=False, which never returns on a non-winning hand (C23_refuted); every other combination proved"),
"C24": (P, "C24_draw_distance C24_draw_pattern_match C24_draw_brute C24_draw_heuristic C24_discard_pattern_match C24_discard_brute C24_discard_heuristic", ""),
"C25": (P, "C25_decode C25_rejected C25_meld_type", ""),
"C26": (H, "C26_well_formed_partial C26_refuted C26_full_refuted", "false for kita codes whose tile byte is 136 or more, which are accepted (C26_refuted); proved for every other code"),
"C28": (P, "C28_flags C28_equality C28_rejected", ""),
"C27": (P, "C27_player_melds C27_determined C27_four_tiles", "the melds after any log; the relation determines them; four distinct copies when the added tile is not already in the pon"),
"C32": (P, "C32_player_hand", ""),
"C33": (P, "C33_discards C33_dora_indicators deal_cases", ""),
"C34": (H, "C34_partial C34_tile_zero C34_three_players C34_refuted C34_full_refuted", "false for the discard of tile 0, which is not noticed, and for 1m and 9m with three players (C34_refuted); proved for every other tile, and what happens to these two is characterised"),
"C35": (P, "C35_passed_is_scanning C35_passed_app C35_fresh", ""),
"C29": (P, "C29_partition C29_unique", ""),
"C30": (H, "C30_partial C30_in_order C30_refuted C30_full_refuted", "false when an earlier group is pulled from after a later one was opened: an element is lost (C30_refuted); proved for every sequence of calls pulling only from the group opened last; whatever the schedule, no element is delivered twice or out of order (C30_in_order)"),
"C31": (H, "C31_partial C31_starts_with_deal C31_refuted C31_full_refuted", "false for a log whose first event is INIT: the first deal is then taken for the head (C31_starts_with_deal, C31_refuted); proved for every other log"),
"C56": (P, "C56_end_events C56_no_end", ""),
"C57": (P, "C57_players C57_scores", "the names as written in the log; their url-decoding is C77"),
"C45": (H, "C45_record C45_value_partial C45_value_refuted C45_distinct", "the record round trip holds; the value is not recovered for properties of type str holding a number or None (player ratings)"),
"C46": (H, "C46_dispatch_partial C46_swapped_partial C46_both_refuted C46_names", "false for match_both, whose first two fields are swapped; proved for every handler table of the other matchers, and for the swapped meaning"),
"C47": (P, "C47_lexical C47_restored", ""),
"C49": (P, "C49_without_replacement C49_everything_possible", "and every such sequence can be drawn"),
"C50": (P, "C50_doras C50_total C50_unknown C50_initial_tiles", ""),
"C51": (P, "C51_n_a_r C51_n_a_r_outside C51_n_c_r C51_n_c_r_outside", "n_c_r divides two integers whose exact quotient is the binomial coefficient; the rounding of that quotient to a double is not modelled"),
"C36": (P, "C36_set C36_roots_read", "in any program using the class, at any depth and for any old version"),
"C37": (P, "C37_snapshots C37_stops C37_all", "also says where the iteration stops for commands that cannot be executed"),
"C38": (P, "C38_replay C38_record C38_log", ""),
"C40": (P, "C40_hand", "fair_play is the hypothesis of legal play; the event of a win shows the hand"),
"C41": (P, "C41_flags", "for the discards since the last deal, which is what the property holds"),
"C58": (P, "C58_play", ""),
"C42": (P, "C42_score", "score_after is the specification of what the events say"),
"C43": (P, "C43_rank", ""),
"C44": (H, "C44_yaku_refuted C44_yakuman_partial C44_yaku_partial", "false for the yaku attribute: the han counts are looked up as yaku; true for yakuman"),
"C59": (P, "C59_win C59_draw", ""),
"C60": (H, "C60_self_win_refuted C60_self_win_partial C60_bystander_partial", "false: on a win by own draw every player is marked and has the yaku"),
"C61": (H, "C61_winners_refuted C61_winners_partial", "false for several winners: the last one replaces the others"),
"C62": (P, "C62_cells C62_read", ""),
"C52": (H, "C52_expected C52_open_partial C52_closed_partial C52_closed_exactly C52_refuted", "false for closed hands: the rows of the two patterns are merged by position; proved with melds on the table, and for closed hands nearer to the standard shape each row is right (rows may be missing); C52_closed_exactly says what each row of a closed hand combines"),
"C53": (P, "C53_one_row_per_discard C53_count C53_refuted", "C53_refuted: two discards in a row give one row"),
"C54": (H, "C54_outcomes C54_open_partial C54_closed_partial C54_closed_exactly C54_complete_refuted C54_no_tile_refuted C54_red_five_refuted", "false: a complete hand ends the report with StopIteration, a hand with no useful tile left with ZeroDivisionError; C54_outcomes says these are all; C54_closed_exactly says when it is produced for a closed hand without useful red fives"),
"C55": (H, "C55_convert_partial C55_merge_partial C55_exactly C55_merge_exactly C55_rows C55_red_held C55_red_shown C55_refuted", "proved for plain tiles; false for red fives (tile_to_tenhou_range, C05); C55_exactly says what is counted instead, C55_rows says it for every row of a report by the texts it shows; C55_red_held: a row shows a red five among its useful tiles only if the hand holds it; C55_red_shown: of the fives of a suit the first in the list of the hand decides whether a row shows the five as 0 or as 5"),
"C63": (P, "C63_choice", "the count is claimed for hands none of whose red fives is useful"),
"C64": (H, "C64_formula C64_open_partial C64_zero C64_range C64_refuted", "false for closed hands, where the merged rows are wrong (C52); C64_range: for every hand it is at most 1, and negative exactly if the discard has more tiles than the expected row allows"),
"C65": (P, "C65_hand C65_melds", ""),
"C66": (P, "C66_pictures", "for the page itself see C106 to C109"),
"C67": (P, "C67_rows", "the order in which Python enumerates a set is a parameter; the table of rows (pandas) is not modelled"),
"C68": (P, "C68_hand", "dora rows count as seen and shown by seat 0, which leaves the balance intact"),
"C69": (P, "C69_final", ""),
"C70": (H, "C70_cells_partial C70_full_refuted C70_blank_refuted", "false: the row of a dora indicator turned during the deal holds tile objects, and the type of a pon row is 'PENG ' with a blank; proved: no other cells are not texts, event types come from a fixed list, every row ends with the name of the deal"),
"C71": (P, "C71_reads C71_rejects", "for the text of the log see C112"),
"C72": (P, "C72_settings C72_seed", ""),
"C73": (P, "C73_never", ""),
"C74": (P, "C74_deal C74_late C74_dealer", ""),
"C75": (P, "C75_name C75_level C75_rate C75_connection", "urllib.parse.unquote is an arbitrary function; the value of a rate is given by the model of the number parser (py_number)."),
"C76": (P, "C76_riichi", ""),
"C77": (P, "C77_unquote C77_all_names C77_players C77_universal", ""),
"C78": (P, "C78_link C78_none C78_roundtrip", ""),
"C79": (P, "C79_text C79_record C79_identifies C79_equal C79_converse_refuted", ""),
"C80": (P, "C80_player C80_rounded C80_all", ""),
"C81": (P, "C81_caption C81_distinct", ""),
"C82": (P, "C82_record", ""),
"C83": (P, "C83_described C83_red_refuted C83_repr", "The refutation witnesses that red fives in claims are not shown faithfully."),
"C84": (P, "C84_complete C84_abstract C84_lossless C84_abstract_lossy", ""),
"C85": (P, "C85_log_id C85_no_extension", "POSIX paths."),
"C86": (P, "C86_files C86_identifies", ""),
"C87": (P, "C87_one C87_all", ""),
"C88": (P, "C88_page C88_pictures", ""),
"C89": (P, "C89_main C89_record C89_index C89_file_name_refuted", ""),
"C90": (P, "C90_win_counts C90_every_draw", "for draws that the wall can supply"),
"C91": (P, "C91_shares", ""),
"C92": (P, "C92_no_win C92_no_draw", "a negative number of experiments makes none, as zero"),
"C93": (H, "C93_rates_partial C93_sum_refuted", "the rates do not add up to 100% (C93_sum_refuted; for hands with two different tiles never, C93_rates_partial); bounds proved"),
"C94": (P, "C94_drop C94_missing", "in any program using set, drop and the constructor, at any depth and for any old version"),
"C95": (H, "C95_absent C95_present C95_root_refuted", "full claim false: on an inner dictionary that has the key the inner dictionary is returned (C95_root_refuted); both cases characterised"),
"C96": (P, "C96_converted C96_strict C96_unknown", "premises of `proper` are about the log alone (Spec_Convert.v); a concrete 4-player log is shown to meet them (ex_proper)"),
"C97": (P, "C97_no_settings C97_missing C97_no_deal C97_not_in_hand C97_lacking", "C97_not_in_hand is for logs that were proper up to the offending event"),
"C98": (P, "C98_commands C98_exact C98_converted C98_elsewhere C98_decimals", "the csv writer, the tokenizer and the type inference of pandas are modelled in Csv.v; floats are exact decimals"),
"C99": (H, "C99_texts_partial C99_words C99_missing C99_texts_refuted", "holds for texts that cannot be taken for a number, a truth value or a missing value (C99_words), and in columns with a list in the same piece for all texts that are not one of the 18 (19) texts pandas takes for missing; those are read as nan, e.g. a player called NA (C99_texts_refuted)"),
"C100": (P, "C100_recipe C100_texts C100_columns", "pivot and forward fill are modelled in Readme.v; the order of columns is not"),
"C101": (P, "C101_states", "three header lines, enum names, skipinitialspace and type inference are modelled in StateCsv.v"),
"C102": (H, "C102_texts_partial C102_blanks C102_missing C102_texts_refuted", "plain words are kept, without the blanks before them, and nan stands for every text that looks missing; a name that looks missing is lost (refuted with a log whose first player is called NA)"),
"C103": (H, "C103_uninterrupted_partial C103_interleaved_refuted", "holds for generators that are not interrupted; refuted with a proper log whose two generators take turns"),
"C104": (P, "C104_script C104_only", "the server and the XML parser are an arbitrary function from addresses to elements or exceptions"),
"C105": (P, "C105_raw C105_tables", ""),
"C106": (P, "C106_texts C106_markup", "how a browser reads a page is the small reader of Spec_Html.v (tags, quoted values, character references)"),
"C107": (P, "C107_shown C107_colours", "the two sections of C108 are empty in the page this describes"),
"C108": (H, "C108_empty C108_sections_refuted", "false: the template reads attributes that are never set, since the generator win_reasonings is exhausted when the loop that sets them runs; the sections of every report are empty, also when there is an analysis"),
"C109": (P, "C109_pictures C109_complete", "the files are an arbitrary function from names to bytes or exceptions"),
"C110": (H, "C110_directory_partial C110_directory_refuted", "false for names with a slash, which a log may contain; the theorem says exactly when"),
"C111": (P, "C111_strict C111_exactly tests_strict", "tests_strict applies it to the six logs of tests/"),
"C112": (P, "C112_exactly C112_record C112_rows C112_unambiguous C112_logs", "constructs logs do not use (declarations, comments, character data, name spaces) are outside the model of the parser; fromstring answers NotModelled for them"),
"C113": (P, "C113_truncated C113_nothing_after", ""),
"C114": (P, "C114_again C114_ascii C114_distinct C114_carriage_return_refuted", "the carriage return is the one exception, shown by the last theorem (Python 3.7, the version the project asks for)"),
"C115": (P, "C115_legal_discard C115_rows C115_outcome C115_stops C115_no_report C115_page C115_no_page C115_script_stops C115_tests", "the count of copies is right for four players, hands whose red fives are not useful and while tile 0 is not discarded; what each row counts otherwise is stated too (right_about)"),
"C116": (P, "C116_transcript C116_all C116_only C116_seen", "server, file system, pictures and the printing of floats are arbitrary functions; the log lines on stderr are not modelled"),
"C117": (P, "C117_only C117_saved C117_clean C117_logs", "server and file system are arbitrary functions; the shell command pause is not modelled"),
"C118": (P, "C118_rows C118_made C118_none C118_goes_on_open C118_goes_on_closed", "C118_goes_on_open and C118_goes_on_closed decide at every discard from a hand without useful red fives whether the report goes on; for other hands C55_rows says what is counted"),
"C119": (P, "C119_float C119_order C119_deal", "a rounding is any function on rationals that keeps the order, 0 and 1; overflow cannot occur, since the quotient is at most 1 for a rate that is not negative and the numerator is a number of tiles"),
"C120": (P, "C120_cut C120_moment", "composes C32, C40, C41, C42, C48, C58 and C76 over every beginning of a proper log, which is shown to be proper itself; C96 says that proper logs are always converted"),
"C121": (P, "C121_player C121_table C121_copies C121_tests", "what is shown is compared as tiles, up to order; C121_tests says that the six logs of the tests meet the hypotheses at every moment of every deal"),
"C122": (P, "C122_stationary C122_share C122_rows C122_errors C122_converges_refuted", "LA.eig is an arbitrary function of the matrix; exact fractions; C122_converges_refuted is a run without any stationary vector"),
"C123": (P, "C123_distance C123_answers C123_choice", "the bounds are met: C123_tight and C123_choice_case; the brute force search is compared with the limit of four only, as in C17"),
"C124": (P, "C124_names C124_steps C124_useful C124_discards", "C124_names says which renamings there are; the brute force search is compared with the limit of four only, as in C17"),
"C125": (P, "C125_seen C125_same", "no hypothesis on the hand or the event; the wrong rate also depends on the number of unseen tiles, which C125_same covers by a permutation"),
"C126": (H, "C126_order_partial C126_order_plain C126_refuted", "false if a hand has a red five and another five of its suit: the first of the two is kept as the entry of the multiset, and a row counts a red five wrongly (C55); proved for all hands and orders in which the red five comes before the other fives of its suit in both orders or in neither"),
"C127": (P, "C127_advice C127_no_hindsight C127_commands C127_refused C127_rows C127_states", "C127_advice, C127_commands, C127_refused and C127_rows have no hypothesis on the events; C127_no_hindsight counts the discards, so it is about logs in which the player does not discard twice in a row; C127_states leaves out texts that were given lists, as C62 does"),
"C128": (P, "C128_no_peeking", "no hypothesis on the events"),
"C129": (P, "C129_seats", "any injective exchange of the four seats; that a call is from another seat is relative in the meld code, so the code stays the same"),
"C130": (H, "C130_plain C130_injective C130_red C130_refuted", "full claim false of the code: C130_refuted (red fives get the character of another tile); proved for all other tiles"),
"C131": (P, "C131_next", ""),
"C132": (P, "C132_table C132_no_table", "the rows as handed to pd.DataFrame; of no commands at all there are no rows, which pandas then refuses to give three header levels (not modelled)"),
"C133": (P, "C133_draw C133_discard C133_who", ""),
"C134": (P, "C134_open C134_added", ""),
"C135": (P, "C135_discard C135_draw C135_call_or_win C135_other C135_meld", ""),
"C136": (P, "C136_rows C136_table", "rows as sets of cells without repeated path, as in C62; in the model the snapshots are flattened after all commands, so that the claim includes that later commands do not touch earlier snapshots"),
"C137": (P, "C137_decoded C137_names C137_faithful", "urllib's unquote as modelled in Url.v"),
"C48": (P, "C48_order C48_times", ""),
"C39": (P, "C39_strict C39_lenient", ""),
}
here = os.path.dirname(os.path.dirname(os.path.abspath(__file__)))
claims = [{"property": k, "status": s, "theorems": t.split(), "note": n} for k, (s, t, n) in sorted(T.items())]
with open(os.path.join(here, "MANIFEST.json"), "w") as f:
    json.dump({"claims": claims}, f, indent=1)
    f.write("\n")
