#!/usr/bin/env python3
"""Writes /verif/properties.jsonl (kept as a script so that the wording lives in one place)."""
import json, os
P = []
def p(id, title, statement, quantifier, why, anchors):
    P.append(dict(id=id, title=title, statement=statement, quantifier=quantifier,
                  why_tests_cant=why, anchors=anchors))

CAT = "mahjong/record/category.py"
p("C01", "SubCategory numbering is a bijection",
  "For every shape given to SubCategory (including the open-ended shape with head -1), index(category(i)) == i for every valid i, and category(index(t)) == t for every tuple t whose components are within the shape; index(t) stays in [0, len).",
  "every shape (list of positive dimensions, any length), every index, every digit tuple",
  "shapes and indices are unbounded; tests only enumerate 2x3x4",
  [CAT + ":SubCategory.category", CAT + ":SubCategory.index"])
p("C02", "SubCategory order and range errors",
  "Indices and tuples are ordered the same way: i < j iff category(i) precedes category(j) lexicographically. category(i) raises AssertionError exactly when the shape is bounded and i >= len.",
  "every shape and every pair of indices",
  "an order property over all pairs of an unbounded domain",
  [CAT + ":SubCategory._category_iter"])
p("C03", "MixedCategory.category is positional lookup in the concatenation",
  "For every list of bounded sub-categories, MixedCategory.category(i) for 0 <= i < len is (b, *sub) where b is the block that contains position i in the concatenation of the blocks and sub is that block's own category of the offset; i >= len raises IndexError.",
  "every list of bounded sub-categories and every index",
  "the implementation subtracts the END of the block and relies on wrap-around of negative modulo; only a proof covers all shapes",
  [CAT + ":MixedCategory.category", CAT + ":MixedCategory._accumulate"])
p("C04", "MixedCategory.index inverts MixedCategory.category",
  "index(category(i)) == i for every MixedCategory and every 0 <= i < len.",
  "every list of bounded sub-categories and every index",
  "the repository only tests two families whose blocks share trailing dimensions",
  [CAT + ":MixedCategory.index"])
p("C05", "Physical tile numbering",
  "For every Tenhou tile number 0..135 tile_from_tenhou gives the face of block i//4 (red five exactly for 16, 52, 88), and tile_to_tenhou_range(tile_from_tenhou(i)) is the range of the four physical copies of that face (so it contains i).",
  "every physical tile number",
  "it underlies every count in the report; the inverse direction is not tested at all",
  ["mahjong/record/utils/value/tile.py:tile_from_tenhou", "mahjong/record/utils/value/tile.py:tile_to_tenhou_range"])
p("C06", "Tile comparison, equality and hashing are coherent",
  "On all tiles, red fives included, < is a strict total order modulo ==, all four derived comparisons agree with it, == is an equivalence that ignores redness, and equal tiles have equal hashes; distinct legal faces have distinct hashes.",
  "all pairs and triples of tiles",
  "sets, Counters and sorting all depend on it for every pair/triple",
  ["mahjong/tile/definition.py:Tile", "mahjong/tile/definition.py:AkaTile", "mahjong/tile/definition.py:tile_hash_num"])
p("C07", "Tile construction does not depend on what was constructed before",
  "Tile(n, c) for 0 <= n <= 9 returns a tile showing number n and colour c, after any history of earlier constructions (the pool is only a cache), and asking twice gives the same object.",
  "every finite history of constructor calls",
  "a shared mutable pool keyed by a hash; histories are unbounded",
  ["mahjong/tile/definition.py:Tile.__new__"])
p("C08", "TileSet arithmetic is multiset arithmetic",
  "For TileSets with non-negative counts: (a+b)[t] = a[t]+b[t], (a-b)[t] = max(0, a[t]-b[t]), (a&b)[t] = min, (a|b)[t] = max, contains is pointwise >=, exclude returns a-b exactly when contained and None otherwise, len is the total, and re_sort changes no count and yields strictly ascending keys.",
  "every pair of TileSets, any insertion order, any mixture of red and plain fives",
  "unbounded multisets and insertion orders",
  ["mahjong/container/set.py:TileSet"])
p("C09", "Printing a TileSet and parsing it back",
  "tile_set_from_string(str(s)) == s for every TileSet s of legal tiles with positive counts.",
  "every such TileSet (any counts, any insertion order)",
  "round-trip over an unbounded domain",
  ["mahjong/container/set.py:TileSet.__str__", "mahjong/container/utils.py:tile_set_from_string", "mahjong/container/utils.py:tiles_from_string"])
p("C10", "Parsing arbitrary text is total and only yields legal tiles",
  "tiles_from_string never fails on any text, yields only legal tiles (1-9 or red 0 in m/p/s, 1-7 in z), and for a text of well-formed groups yields exactly the listed tiles in order; parsing distributes over concatenation after a complete group.",
  "every string",
  "all strings",
  ["mahjong/container/utils.py:tiles_from_string", "mahjong/container/utils.py:_tile_group_regex"])
WIN = "mahjong/container/pattern/win.py"
p("C11", "NormalTypeWin.match decides the standard winning shape",
  "NormalTypeWin(pairs=p, melds=m).match(hand) is True iff the hand contains p pairs and m melds (triplets, or runs of three in one suit) as disjoint sub-collections.",
  "every p, m >= 0 and every hand (any size, any counts, any key order, red fives included)",
  "a pruned, mutating search; exhaustive hands are about 10^11 and sizes are unbounded",
  [WIN + ":WinPattern._win_selections", WIN + ":NormalTypeWin"])
p("C12", "UniquePairs.match decides n distinct pairs",
  "UniquePairs(n).match(hand) is True iff at least n distinct faces occur at least twice in the hand.",
  "every n >= 0 and every hand",
  "same search engine, unbounded hands",
  [WIN + ":UniquePairs"])
p("C13", "win_selections lists decompositions, all of them and nothing else",
  "Every selection yielded by win_selections is a list of p pairs and m melds jointly contained in the hand, and every such decomposition of the hand is yielded (up to order).",
  "every p, m >= 0, every hand, every decomposition",
  "soundness and completeness of a search",
  [WIN + ":WinPattern.win_selections"])
p("C14", "unique_win_selections lists each decomposition exactly once",
  "unique_win_selections yields each decomposition (as a multiset of units) exactly once, each sorted.",
  "every hand and every pattern size",
  "needs both completeness of the search and correctness of the bisecting duplicate filter",
  [WIN + ":WinPattern.unique_win_selections", "mahjong/container/utils.py:distinct"])
p("C15", "distinct keeps first occurrences",
  "distinct(xs) over totally ordered items yields the first occurrence of every item, in input order, without duplicates.",
  "every finite sequence over every totally ordered type",
  "binary search plus insertion on arbitrary inputs",
  ["mahjong/container/utils.py:distinct"])
p("C16", "match is monotone and ignores presentation",
  "Adding tiles to a matching hand keeps it matching; the answer depends only on the counts per face (not on key order, zero entries or which five is red).",
  "every pair of hands with pointwise larger counts",
  "relational property over pairs of hands",
  [WIN + ":WinPattern.match"])
RE = "mahjong/container/pattern/reasoning.py"
p("C17", "BruteForceWaiting.before_waiting_step is the minimum",
  "For every hand with at most four of each face, BruteForceWaiting(p).before_waiting_step(hand) + 1 is the least number of tiles that, added without exceeding four of a face, make the hand match p.",
  "every hand and pattern",
  "minimality over all additions",
  [RE + ":BruteForceWaiting.before_waiting_step"])
p("C18", "PatternMatchWaiting.before_waiting_step is the minimum",
  "Same as C17 for PatternMatchWaiting, for both values of ignore_4counts (without the limit of four when it is False).",
  "every hand, pattern and flag",
  "a pruned search with tile deletion",
  [RE + ":PatternMatchWaiting.before_waiting_step", RE + ":PatternMatchWaiting._win_selections_in_tiles"])
p("C19", "HeuristicPatternMatchWaiting.before_waiting_step is the minimum",
  "Same as C17 for HeuristicPatternMatchWaiting, the implementation used by the report, for every hand of a legal size for the pattern (3m+1 or 3m+2 tiles for 1 pair and m melds; 13 or 14 for seven pairs).",
  "every such hand",
  "branch-and-bound with a mutable bound, staged ordering and early return; about 10^11 hands",
  [RE + ":HeuristicPatternMatchWaiting._win_selections_in_tiles", RE + ":HeuristicPatternMatchWaiting.init_search_by_hand"])
p("C20", "Useful tiles are exactly the tiles that advance the hand",
  "useful_tiles(hand) of each of the three implementations is exactly the set of faces t with fewer than four in the hand such that hand + t is one step closer.",
  "every not-yet-winning hand and every face",
  "set equality against a minimum over all additions",
  [RE + ":BruteForceWaiting.useful_tiles", RE + ":PatternMatchWaiting.waiting_and_useful_tiles", RE + ":HeuristicPatternMatchWaiting.waiting_and_useful_tiles"])
p("C21", "The three waiting implementations agree",
  "BruteForceWaiting, PatternMatchWaiting and HeuristicPatternMatchWaiting return the same (step, useful tiles) from waiting_and_useful_tiles, on every legal hand including complete ones.",
  "every legal hand",
  "equivalence of three different searches",
  [RE + ":Waiting.waiting_and_useful_tiles"])
p("C22", "batch_waiting_and_useful_tiles covers exactly the step-preserving discards",
  "batch_waiting_and_useful_tiles(hand) yields a face t exactly when discarding t does not move the hand further from winning, and for each such t yields the current step and exactly the useful tiles of the hand without t.",
  "every hand and every discard",
  "relates one search to a family of other searches",
  [RE + ":HeuristicPatternMatchWaiting.batch_waiting_and_useful_tiles"])
p("C23", "Every waiting query terminates with a value",
  "before_waiting_step of each implementation returns on every legal hand and for both values of ignore_4counts.",
  "every legal hand, both flags",
  "termination of unbounded loops",
  [RE + ":BruteForceWaiting.before_waiting_step", RE + ":HeuristicPatternMatchWaiting.before_waiting_step"])
p("C24", "One tile changes the distance by at most one",
  "Adding any tile lowers before_waiting_step by 0 or 1 (by exactly 1 iff the tile is useful) and removing any tile raises it by 0 or 1.",
  "every hand and every tile",
  "relational property over pairs of hands",
  [RE])
MELD = "mahjong/record/utils/value/meld.py"
p("C25", "Meld codes decode according to the Tenhou bit layout",
  "For every 16-bit code and seat, meld_from picks chi / pon / added kan / kita / kan by bits 2,3,4,5 in this order and produces the tiles prescribed by the Tenhou layout (shift/mask formulas), or fails exactly on the codes whose tile field is out of range.",
  "all 65536 codes, all seats",
  "the whole code space; tests use 13 chi codes",
  [MELD + ":meld_from", MELD + ":Flush", MELD + ":Triplet", MELD + ":TenhouKan", MELD + ":TenhouAddedKan", MELD + ":Kita", "mahjong/record/utils/bit.py"])
p("C26", "Decoded melds are well formed",
  "For every accepted code: own and borrowed tiles are disjoint valid tile numbers; chi = three consecutive faces of one suit, one borrowed; pon = three copies of a face, one borrowed; kan = all four copies, one borrowed iff the source field is nonzero; the source seat is (who + source field) mod 4.",
  "all codes and seats",
  "whole code space",
  [MELD])
p("C27", "Added kan upgrades the matching pon",
  "After any sequence of a player's calls since the last deal, the meld list is the sequence of calls in order where an added-kan call turns each pon of the same face into a four-tile kan that keeps the borrowed tile and source, and changes nothing else.",
  "every call history",
  "histories are unbounded",
  ["mahjong/record/state.py:PlayerMeld.scan", MELD + ":KanFromTriplet", MELD + ":is_triplet_of_added_kan"])
p("C28", "Game type flags",
  "For every 16-bit game type: players, aka, tanyao, winds, speed, tips, level are the documented bits; two types compare equal iff they agree on all bits except bit 0 and bits 11-15; values outside 16 bits are rejected.",
  "all codes and all pairs of codes",
  "pairs of codes: 2^32 cases",
  ["mahjong/record/utils/value/gametype.py:GameType"])
p("C29", "StageGroupby partitions its input",
  "Fully consumed, StageGroupby(xs, *stages, key=f) splits xs into consecutive non-empty groups whose concatenation is xs; in each group the keys follow the stage order (or are all equal for an unknown key); groups are maximal.",
  "every input sequence, stage list and key function",
  "arbitrary sequences",
  ["mahjong/record/stage.py:StageGroupby"])
p("C30", "StageGroupby never loses elements under interleaved consumption",
  "For any schedule of 'next group' and 'pull from some earlier group' operations every element that is not in a skipped remainder of a group is delivered.",
  "every schedule of operations",
  "schedules",
  ["mahjong/record/stage.py:StageGroupby._grouper"])
p("C31", "A record is split into a head and one chunk per deal",
  "TenhouRecord splits the events into the head (events before the first INIT) and chunks that each start with INIT and contain no later INIT that follows a non-INIT event; concatenated they give back all events; header values come from the first event of each tag.",
  "every event sequence",
  "arbitrary logs",
  ["mahjong/record/reader.py:TenhouRecord", "mahjong/record/reader.py:list_of_xml_configs"])
ST = "mahjong/record/state.py"
p("C32", "PlayerHand tracks the physical hand",
  "After any event sequence a tile is in PlayerHand.value iff the last event of this player that touches it (deal, draw, discard, call) put it there.",
  "every event history",
  "histories",
  [ST + ":PlayerHand.scan"])
p("C33", "Discard and dora lists since the last deal",
  "After any event sequence DiscardTiles is the list, in order, of the player's discards since the last deal, and DoraIndicators the initial indicator followed by the later ones.",
  "every event history",
  "histories",
  [ST + ":DiscardTiles.scan", ST + ":DoraIndicators.scan"])
p("C34", "InvisibleTiles is the set of tiles not yet shown to the table",
  "After any event sequence, InvisibleTiles is the full tile set of the game type minus all dora indicators, discards and called tiles shown since the last deal.",
  "every event history, 3 and 4 players",
  "histories; one particular tile number and one player count are special",
  [ST + ":InvisibleTiles"])
p("C35", "passed_events loses no update",
  "passed_events(es) equals scanning every event one by one, for every state class, and passed_events(a+b) == passed_events(a).passed_events(b).",
  "every event sequence and split point",
  "the key-event filter is evaluated on the starting state only",
  [ST + ":GameState.passed_events", ST + ":GameState.with_key_events"])
EX = "mahjong/record/universe/executor.py"
p("C36", "TransferDict.set is a persistent nested update",
  "d.set(k, v) on a dictionary at any nesting depth returns a whole new root in which exactly that entry differs; every previously obtained dictionary still reads the same.",
  "every nesting depth, path, key and value, every sequence of sets",
  "arbitrary trees and update histories",
  [EX + ":TransferDict"])
p("C37", "The executor yields one snapshot per command",
  "GameExecutor.execute yields exactly one state per command; the n-th snapshot reflects exactly the first n commands and carries the n-th command's timestamp.",
  "every command sequence",
  "sequences",
  [EX + ":GameExecutor.execute"])
p("C38", "The state column and the executor agree",
  "Replaying the translated commands through GameExecutor gives, after each command, exactly the value recorded in that command's state column for its property and player.",
  "every command sequence addressed as the translator addresses it",
  "two independent interpreters over arbitrary histories",
  [EX + ":GameExecutor.execute_update_state", "mahjong/record/universe/interpreter.py:GameInterpreter.interpret"])
p("C39", "Strict mode stops at the first contradiction",
  "With strict_mode the executor raises exactly at the first ASSERT_EQUAL_OR_SET command whose property already has a different value (hands compared as multisets); without it, execution never stops for that reason and the asserted value is stored.",
  "every command sequence",
  "sequences",
  [EX + ":GameExecutor.execute_update_state"])
EV = "mahjong/record/universe/tenhou/event_definition.py"
p("C40", "Universal hand and tracked hand agree",
  "For every legal play sequence (only held tiles leave the hand, only new tiles enter) the universal-format hand of a player is, as a multiset, the printed faces of the physical tiles tracked by PlayerHand.",
  "every legal event history",
  "two independent trackers over arbitrary histories",
  [EV + ":hand_update", ST + ":PlayerHand.scan"])
p("C41", "discard_from_hand marks hand discards",
  "The flag recorded for a discard is False iff the player's latest hand event was the draw of that very tile.",
  "every event history",
  "histories",
  [EV + ":discard_command", EV + ":hand_update"])
p("C42", "Scores follow the log",
  "After a winning or drawn deal with score data, each player's universal score is 100*(listed score + listed delta); a declared riichi takes 1000.",
  "every event history and score list",
  "histories and integers",
  [EV + ":game_finish", EV + ":richii_command"])
p("C43", "Final ranks",
  "Ranks form a permutation of 1..n, a strictly higher final score gives a strictly better rank, ties are broken by seat.",
  "every final score list",
  "all integer score lists",
  [EV + ":game_finish"])
p("C44", "faans lists the yaku of the winning hand",
  "The faans recorded for the winner are exactly the names of the yaku ids listed in the log (the yaku attribute alternates id and han count).",
  "every yaku list",
  "all lists",
  [EV + ":agari_command"])
p("C45", "Command records round-trip",
  "GameCommand.from_record(c.to_record()).to_record() == c.to_record(), and the value and state are recovered, for every command with a JSON value.",
  "every command",
  "arbitrary nested values",
  ["mahjong/record/universe/command.py:GameCommand", "mahjong/record/universe/property_manager.py"])
p("C46", "Handler dispatch",
  "The translator uses, for an event, the first registered handler producing commands in the order name+attribute, name, attribute, default; a handler registered for (name, attribute) is used for such events; with strict an untranslated event raises.",
  "every registration table and event",
  "arbitrary tables",
  ["mahjong/record/universe/tenhou/xml_macher.py:TenhouCommandTranslator", "mahjong/record/universe/translator.py:CommandTranslator"])
p("C47", "Builder scopes are lexical",
  "Inside nested 'with builder.when(...)' blocks the innermost binding of each field wins and after leaving a block (normally or by exception) the bindings are as before.",
  "every nesting of blocks and calls",
  "arbitrary nesting",
  ["mahjong/record/utils/builder.py:Builder"])
p("C48", "Commands keep event order and carry the event's timestamp",
  "to_commands(record) is the concatenation of the events' commands in order, each stamped with the event's position; no command has an empty event type.",
  "every record",
  "sequences",
  ["mahjong/record/universe/tenhou/__init__.py:to_commands", "mahjong/record/universe/tenhou/xml_macher.py:TenhouCommandTranslator.postprocess"])
p("C49", "Sampling draws without replacement",
  "Whatever the random source does, the tiles sampled from a StaticWall are jointly contained in the wall, as long as no more tiles are drawn than the wall has.",
  "every wall, number of draws and every run of the random source",
  "all random outcomes",
  ["mahjong/container/distribution.py:TileDistribution.sample", "mahjong/container/distribution.py:StaticWall.pick"])
p("C50", "Dora and tile-pool tables",
  "doras(indicators) concatenates, in order, the successor face of each indicator (cyclic in its suit, winds and dragons), both fives after a four; initial_tiles has 136 (108 for three players) tiles, four per face, with one red five replacing a plain one per suit in play.",
  "every indicator list, every configuration",
  "arbitrary lists of indicators",
  ["mahjong/record/const.py:doras", "mahjong/record/const.py:initial_tiles"])
p("C51", "Combinatorial helpers",
  "n_a_r(n, r) is the falling factorial and n_c_r(n, r) the binomial coefficient, for all 0 <= r <= n.",
  "all naturals",
  "unbounded integers",
  ["mahjong/tenhou_record_check.py:n_a_r", "mahjong/tenhou_record_check.py:n_c_r"])
CK = "mahjong/tenhou_record_check.py"
p("C52", "Each row of the report is about one discard",
  "Every merged reasoning row combines analyses of one and the same discarded face, and the expected rows are exactly the rows with minimal (step, -count).",
  "every hand and set of winning patterns",
  "all hands",
  [CK + ":discard_reasoning", CK + ":reasoning_merge"])
p("C53", "One report row per discard, computed from the hand before it",
  "game_reasoning produces exactly one row per discard of the player, in order; the row is computed from the state after all events before that discard; the riichi flag is set iff a riichi happened up to then.",
  "every log of any length in which the player never discards twice in a row (a draw or a call comes between)",
  "histories",
  [CK + ":game_reasoning"])
p("C54", "The report is produced for every legal game",
  "discard_reasoning returns for every hand the player may legally hold, also when the hand is complete or when no useful tile is left.",
  "every hand and visible set",
  "all hands",
  [CK + ":discard_reasoning"])
p("C55", "Useful-tile counts",
  "useful_tiles_count is the number of unseen physical tiles whose face is one of the useful tiles, for every useful set (red or plain fives) and every unseen set.",
  "every useful set and every set of unseen physical tiles",
  "all subsets",
  [CK + ":convert_to_reasoning", CK + ":reasoning_merge"])
RD = "mahjong/record/reader.py"
p("C56", "A deal's end events",
  "Every TenhouGame of a record starts with an INIT event, has at least one end event, and end_events are exactly its AGARI and RYUUKYOKU events in order; a deal without such an event cannot be read (StopIteration).",
  "every event sequence",
  "arbitrary positions and numbers of ending events",
  [RD + ":TenhouGame.__init__"])
p("C57", "Players and final results of a record",
  "Player i of a TenhouRecord has the i-th name, dan, rate and sex of the first UN event of the head, and there are no more players than the game type allows; end_score[i] and end_point[i] are the numbers 2i and 2i+1 of the owari attribute of the last event.",
  "every event sequence that can be read",
  "arbitrary logs",
  [RD + ":TenhouRecord.__init__"])

p("C58", "Universal discards, melds, rounds and dora indicators follow the log",
  "After the translated commands of a log have been executed, the universal state of each seat holds, in log order since the last deal, exactly its discards, the melds it called with the tiles shown in them (one entry per call, so an added kan is a further entry of one tile) and the kita tiles it set aside, and as round the number of its discards; the dora indicators of the table are the one dealt followed by those revealed since.",
  "every recorded log of any length",
  "arbitrary interleavings of draws, discards and calls",
  [EV + ":draw_command", EV + ":discard_command", EV + ":open_hand", EV + ":game_init_command"])
p("C59", "Outcome of a deal",
  "After a winning event is_win holds for exactly the winner and is_discard_lose_game for exactly the player whose tile was won with (nobody on a win by own draw), and nobody_win is false; after a drawn deal nobody_win is true and every player's is_win, is_self_win and is_discard_lose_game are false and faans is empty.",
  "every event history ending with such an event",
  "arbitrary histories and seats",
  [EV + ":game_finish", EV + ":no_win_command"])
p("C60", "Wins by own draw",
  "is_self_win is true for exactly the player who won by their own draw, and players who neither won nor dealt in have no faans.",
  "every winning event",
  "all winners and seats",
  [EV + ":game_finish"])
p("C61", "Several winners",
  "When several players win the same deal (several AGARI events), is_win is true for each of them after the last of these events.",
  "every deal",
  "arbitrary histories",
  [EV + ":agari_command", EV + ":game_finish"])

p("C62", "Flattened snapshots have one text cell per written place",
  "GameExecutor.execute(...) snapshots flattened (execute_as_dataframe) have distinct columns: one for the timestamp and one for every property written so far, no others; the cell is the property's text of the value in force; read back with state_series_apply it is the value again for every property not of type str.",
  "every command sequence, every snapshot",
  "arbitrary histories and nested values",
  [EX + ":TransferDict.flatten", EX + ":state_series_apply", EX + ":GameExecutor.execute_as_dataframe"])
p("C63", "The row about the tile that was discarded",
  "your_choice_reasoning of a report row names the face of the discarded tile; its step is the smallest distance of the remaining hand to one of the considered patterns minus one; its useful tiles are exactly the faces, in order, that bring the remaining hand closer to a nearest pattern; its count is the number of physical tiles of these faces the player does not see.",
  "every discard from a legal hand with at most four melds (count: hands none of whose red fives is useful)",
  "all hands, melds and sets of unseen tiles",
  [CK + ":discard_reasoning", CK + ":reasoning_discards"])
p("C64", "The wrong rate is a rate",
  "wrong_rate lies between 0 and 1 and is 0 when the discard is as good as an expected one; it is 1 - your count / (best count * unseen ^ (your step - best step)).",
  "every discard from a legal hand",
  "all hands and sets of unseen tiles",
  [CK + ":discard_reasoning"])
p("C65", "Hand and melds of a report row",
  "The hand of a report row lists the faces of exactly the tiles in hand (with multiplicity) in tile order (a five may be shown as 5 or as 0, equal faces alike; without red fives all are shown plain); each meld lists the texts of its tiles, own tiles first, red fives as 0.",
  "every discard from a legal hand",
  "all hands and melds",
  [CK + ":discard_reasoning"])
p("C66", "Every tile shown has a picture",
  "Every text shown in the hand, the melds, the discards and the useful tiles of a report row is one of the names 0m-9m, 0p-9p, 0s-9s, 1z-7z for which the page holds a picture.",
  "every discard from a legal hand",
  "all hands and melds",
  [CK + ":discard_reasoning", CK + ":render_template"])
p("C67", "Row export: every event of a deal",
  "For a deal whose events carry the attributes Tenhou writes, the row export gives, in the order of the events, exactly the rows that tell them: for the deal one row per player who got tiles, with the tiles in the order of their numbers and the score in points, one row for the first dora indicator and one for the sticks on the table; one row for a draw, a discard, a call (own tiles, all tiles, the seat the tile came from), a new dora indicator, a declared riichi, a win, a drawn deal with its reason; two rows for an accepted riichi; none for other events. Every row ends with the name of the deal (wind, number within the wind, counters). The export never fails on such a deal.",
  "every deal of complete events, any number of events, every order in which sets are enumerated",
  "event sequences and calls are unbounded; the meld bit fields alone have 65536 values",
  ["mahjong/record/utils/event.py:TenhouEvent.to_paifu", RD + ":TenhouGame.to_paifu", RD + ":TenhouGame.game_index"])
p("C68", "Row export: what was seen is what was shown plus the hand",
  "In the rows of a fair deal, after any number of events, the tiles a seat has seen (column player_see) are, with multiplicity, the tiles it has shown (column player_show) together with the tiles it then has in its hand.",
  "every fair deal, every seat, every number of events",
  "an invariant over unbounded sequences",
  ["mahjong/record/utils/event.py:TenhouEvent.to_paifu", RD + ":TenhouGame.to_paifu"])
p("C69", "Row export: final results",
  "The rows of a record are the rows of its deals, in order, followed by one row per player with the final score: the hundreds of the last event's results, written with two zeros.",
  "every record that can be read whose last event has the results",
  "all records",
  [RD + ":TenhouRecord.to_paifu"])
p("C70", "Row export: cells are texts",
  "Every cell of a row is a text and every event type is a name without blanks.",
  "every deal of complete events",
  "all event sequences",
  ["mahjong/record/utils/event.py:TenhouEvent.to_paifu"])
p("C71", "Complete logs can be read, logs with unknown tiles cannot",
  "A log with settings (GO) and players (UN) before the first deal, deals that each start with INIT and contain an ending, tile numbers below 136 in all draws and discards, and final results in its last event is read without error, and the record has exactly these deals. A log in which some draw or discard names a tile number of 136 or more raises IndexError when read.",
  "every log of that form, of any length; every log with such a tile",
  "logs are unbounded; names and numbers range over all texts",
  [RD + ":TenhouRecord", RD + ":TenhouGame", "mahjong/record/utils/event.py:TenhouEvent"])
p("C72", "The universal format shows the settings of the table",
  "After a Tenhou log has been converted, the record properties player_count, play_wind_count, allow_tanyao_open, speed_up, show_discard_shadow, play_level and using_tiles are those encoded by the bits of the type in the last GO event (using_tiles: exactly the tiles of that kind of table, with or without red fives), and seed is the text of the last SHUFFLE event.",
  "all logs that convert, all game types, all events before and after the last GO and SHUFFLE",
  "There are 65536 types and arbitrarily many logs; later events of any kind must leave the settings alone.",
  [EV + ":game_type_command", EV + ":shuffle_command", "mahjong/record/const.py:initial_tiles"])
p("C73", "Two properties of the universal format are never filled in",
  "RecordView.has_aka_dora and GameView.dealer have no value after any converted Tenhou log: whether red fives are used shows only in using_tiles, and who deals only in PlayerView.is_dealer.",
  "all logs that convert", "That a value never appears is a statement about all logs.",
  [EV + ":game_type_command", EV + ":game_init_command", "mahjong/record/universe/format.py:RecordView", "mahjong/record/universe/format.py:GameView"])
p("C74", "The universal format shows the header of the current deal",
  "After a Tenhou log has been converted, wind, round, sub_round and richii_remain_scores are the quotient and remainder by four of the round number, the repeat counter and 1000 times the sticks of the last INIT event; is_dealer is true exactly for the player named by oya in the last INIT or TAIKYOKU event. A log with a deal beyond the wind that follows the last wind of the game cannot be converted.",
  "all logs, all seeds with a non-negative round number, all seats the table has",
  "The header must survive every later event, and the round counter depends on an earlier GO event.",
  [EV + ":game_init_command", EV + ":set_oya_command_yield", EV + ":set_oya_command"])
p("C75", "The universal format shows the players",
  "The name of a seat is the unquoted name in the last UN event that gives it a non-blank name; its level is the name of the grade in the last such event that lists grades, its extra_level the rate in the last such event that lists rates; disconnected is true exactly when the last event that announces or disconnects the seat is a BYE event.",
  "all logs that convert, all seats, all grades, any number of reconnections",
  "Reconnections repeat only part of the data, at any time and in any order.",
  [EV + ":set_player_command", EV + ":disconnected_command", "mahjong/record/utils/constant.py:RANKS"])
p("C76", "The universal format shows who is in riichi",
  "in_richii of a player is true if and only if the player has declared riichi (REACH with step 1) since the last deal.",
  "all logs that convert, all seats the table has", "All interleavings of deals and declarations of four players.",
  [EV + ":richii_command", EV + ":game_init_command"])

p("C77", "Quoted names are read as they were written",
  "If the player event (UN) quotes a name -- some of its characters, and every percent sign, written as percent escapes of their UTF-8 bytes, with hexadecimal digits of either case -- then the player of the record has exactly that name, and so has the seat in the universal format. Every name of Unicode characters has such a quoted form.",
  "all names, all ways of quoting them, all complete logs, all seats",
  "Names range over all Unicode texts and each has many quoted forms.",
  ["mahjong/record/player.py:TenhouPlayer", EV + ":set_player_command"])
p("C78", "The identifier of a log is found in its link",
  "log_id_from_url gives the value of the first non-empty log parameter of a link, whatever other parameters stand before or after it and whether or not a fragment follows, and raises KeyError if there is none; download_url names that log; log_id_from_url(log_id_to_url(id)) is id for every non-empty id of letters, digits and -._~.",
  "all links with any host and path, any number of parameters, both behaviours of Python's query parser (with and without semicolons)",
  "Links are unbounded texts.",
  [RD + ":log_id_from_url", RD + ":log_id_to_url", RD + ":download_url"])

p("C79", "The text of a table's settings",
  "The text of a game type names the number of players, the level of the table, the number of winds, and then one sign each for open tanyao, red fives, the fast table, the dark discards, and the tips with their amount, as the bits of the type say; a record shows the text of the type its GO event gives. Two types have the same text exactly if they agree on every setting that applies (the amount of the tips counts only where there are tips). Equal types have the same text; types with the same text need not be equal.",
  "all types of 16 bits, all complete logs",
  "There are 1024 combinations of the settings and the claim compares all pairs.",
  ["mahjong/record/utils/value/gametype.py:GameType.__str__"])
p("C80", "The text of a player",
  "A player of a complete log is shown as the unquoted name, the name of the grade and the rating with exactly two decimals, equal to the rating of the log or, if that has more decimals, as near to it as possible; a grade beyond the highest is refused with IndexError. A record has a player for every seat of its table if the lists of its player event are long enough.",
  "all complete logs, all seats, all names, grades and ratings",
  "Names, grades and ratings are unbounded.",
  ["mahjong/record/player.py:TenhouPlayer.__str__", RD + ":TenhouRecord"])
p("C81", "The caption of a deal",
  "A deal of a complete log is shown by the wind and number of its round, its repeat counter, and for every ending, in order, who won how much (by own draw or off whom), or that the deal was drawn and why. A round beyond the longest the type allows raises an error. Deals with different rounds or counters have different captions.",
  "all complete logs, all deals, all endings",
  "Rounds, counters, scores and names are unbounded.",
  [RD + ":TenhouGame.__str__", RD + ":TenhouGame.end_stringify"])
p("C82", "The text of a record lists the players in their final order",
  "A record is shown by its settings and one entry for every player: the places from 1 on, name, and final points with one decimal. The entries are in the order of the final scores, the higher first, and seats with equal scores in the order of the seats; every seat occurs exactly once.",
  "all complete logs, all final scores and points with up to one decimal",
  "The claim is about sorting arbitrary scores.",
  [RD + ":TenhouRecord.__str__"])
p("C83", "The texts of the events of a deal",
  "Every event of a log is described by what it does: who draws or discards which tile, who claims which tiles with which of the own ones from whom, riichi, new indicators, wins with their score, and draws with their reason. The tiles of a claim are shown up to red fives: reading the text gives as many tiles of every face as were laid down and taken. Red fives in claims are not shown faithfully, and asking for the representation (repr) of an event always raises TypeError.",
  "all legal actions of a table and all events that write them, all orders in which sets are iterated",
  "Claims have thousands of codes, and the order of sets is not fixed by the language.",
  ["mahjong/record/utils/event.py:TenhouEvent.base_str", MELD + ":Meld.__str__"])
UF = "mahjong/record/util_functions.py"
p("C84", "The table of raw events loses nothing",
  "Without abstract, the table of a log has, for every event in order, rows that give its tag (split into word and number when it is a word followed by digits) and all its attributes in order, marked with the event's position: two different logs have different tables. With abstract, exactly the events whose tag is a word followed by a number (draws and discards) are left out, the other events are told completely and keep their positions; then different logs can have the same table.",
  "all lists of XML elements (distinct attribute names)",
  "Injectivity quantifies over pairs of logs.",
  [UF + ":_event_df_iter"])
p("C85", "The log id of a table",
  "Every row of the table read from a file is marked with the file's name, without its folder and its extension.",
  "all paths, extensions and logs",
  "Paths are unbounded.",
  [UF + ":light_dataframe_from_file"])
p("C86", "Every report goes to its own file",
  "The files written by one run of the report script have pairwise different names, each made of the log id, the player's name and index, also when an error cuts the run short; without error there is one for every selected player, in order. Reports of different logs (ids without underscore) or players never share a name.",
  "all records, links and answers",
  "Names are arbitrary texts and can contain the separator of the file name.",
  [CK + ":main", CK + ":render_template"])
p("C87", "Who gets a report",
  "Typing the number of a player (with or without leading zeros) selects that player only; typing anything else, a number out of range, a number with a blank, or nothing, selects all players.",
  "all tables and all typed texts of ASCII characters",
  "The answers are arbitrary texts.",
  [CK + ":main"])
p("C88", "What a report page shows",
  "The page of a player has one part per deal of the log in order, each with the deal's caption and one row per discard of that player in that deal; it names player and record and has the link that was given. The pictures handed to it are exactly 0-9 of the three suits and 1-7 of the honors.",
  "all complete logs, players and links for which a page is made",
  "Logs have any number of deals and discards.",
  [CK + ":render_template", CK + ":game_reason_list"])
p("C89", "The checker object makes the same pages as the script",
  "TenhouChecker.parse of a link and an index returns the file name and the page that the script writes for that player; for a record object it returns the same page without the link. Negative indices count from the last player, indices outside the table raise IndexError. With a record object a file name is never generated: the call always fails.",
  "all records, links, indices",
  "Compares two entry points on all inputs.",
  ["mahjong/record/checker.py:TenhouChecker.parse", CK + ":main"])
WR = "mahjong/win_rate_demo.py"
p("C90", "The printed win counts",
  "For the first typed hand of 14 tiles and every behaviour of the random source, each experiment draws the requested number of tiles without replacement from what the hand leaves of the 136 tiles, and every such draw is possible; the count printed for a tile of the hand is the number of experiments in which the hand without that tile, together with the drawn tiles, contains four melds and a pair or seven different pairs. Every different tile of the hand is printed once and the counts never exceed the number of experiments.",
  "all typed lines, numbers of draws and experiments, all random choices",
  "The program is random: a run shows one of astronomically many draws.",
  [WR + ":main"])
p("C91", "Wins are shared out completely",
  "The total number of wins is the sum of the win counts of all tiles. An experiment that several discards win gives each the same share, so that the shares of all tiles add up to the number of experiments that could be won; a discard that loses has its loss attributed to the winning ones in the same shares.",
  "all hands, draws and random choices",
  "A statement about sums over arbitrarily many random experiments.",
  [WR + ":main"])
p("C92", "When the estimation fails",
  "The estimation ends with ZeroDivisionError exactly if no discard won in any experiment, whatever the number of experiments; in particular always when no tile is drawn.",
  "all hands, numbers of draws and experiments, all random choices",
  "Depends on what is drawn; tests cannot make every draw.",
  [WR + ":main"])
p("C93", "The rough pick rates",
  "Rough pick rates are between 0 and 100% and add up to at most 100%. They are meant to be a distribution over the discards, i.e. to add up to exactly 100%; in fact they always fall short of it when the hand has two different tiles.",
  "all hands, draws and random choices",
  "Rates are sums over arbitrary random experiments.",
  [WR + ":main"])
p("C94", "TransferDict.drop is a persistent removal",
  "x.drop(k) on a dictionary found anywhere below a root returns a whole new root in which nothing is found under that key, everything else reads as before, and all dictionaries there were still read the same; without the key it is a KeyError.",
  "all programs using the class, dictionaries, depths, keys",
  "Sharing between versions and parent links at any depth are not visible to tests of single calls.",
  [EX + ":TransferDict.drop"])
p("C95", "TransferDict.setdefault",
  "x.setdefault(k, v) returns, like set, a whole root that has the key. In fact it does so where the key is absent; where it is present the object x itself is returned, which is not a whole root if x is an inner dictionary.",
  "all programs using the class, dictionaries, depths, keys, values",
  "The difference shows only for inner dictionaries that have the key already.",
  [EX + ":TransferDict.setdefault"])
p("C96", "Every proper log is converted to the universal format",
  "A log of a game for three or four players in which every event says what it has to, the settings come before what depends on them and a deal before the play, and everybody plays only tiles they have, is converted without an error. Strict conversion succeeds too if all its events are known (a tile event, GO, SHUFFLE, TAIKYOKU, INIT, N, DORA, BYE, AGARI, RYUUKYOKU, UN announcing somebody, REACH with step 1 or 2), and fails on every log with an event that is not.",
  "all logs, lengths, players, tiles, orders of iterating over sets",
  "Whether some handler or some update raises depends on the whole history of the game; tests convert a few sample records.",
  [EV, "mahjong/record/universe/tenhou/__init__.py:to_commands", "mahjong/record/universe/tenhou/xml_macher.py"])
p("C97", "Corrupt logs are refused",
  "Conversion fails, strict or not, on a log where a TAIKYOKU, INIT, AGARI or RYUUKYOKU event has no GO event before it; where an event lacks what it cannot do without (the type of GO, the seed of SHUFFLE, the oya of TAIKYOKU, seed and oya of INIT, who and m of N, hai of DORA, who and step of REACH, who of BYE, who, fromWho, hai, sc and ten of AGARI); where an event does not tell enough for the table of the last GO event (INIT without the scores, with too few scores or without the hand of a player in the game, or with a seed of fewer than three numbers; AGARI or RYUUKYOKU with sc or owari too short; AGARI without yaku and yakuman, with a yaku number above 54, without the points, on a discard without machi or with a machi that is not in hai; RYUUKYOKU of an unknown type; UN with a list of grades, ratings or sexes too short for a player it names); where a discard, a call or a new dora indicator has no deal before it; and where a player discards a tile or lays it down for a call and has no tile printed like it in the hand.",
  "all logs and positions of the offending event",
  "The failure comes from values missing in the interpreter state, or from a list removal far from the cause.",
  [EV, "mahjong/record/universe/tenhou/__init__.py:to_commands", "mahjong/record/universe/tenhou/xml_macher.py"])
CM = "mahjong/record/universe/command.py"
p("C98", "A CSV file of commands is read back as the same commands",
  "Writing the table of commands with to_csv and reading it with GameCommand.read_clean_csv gives, row by row, the same property, update method, sub scope, timestamp and event. Values and states of properties that are not of type str compare equal in Python to the written ones (integers may have become floats, booleans 1 or 0), and are exactly the same if some value (state) in the same piece of the file is a list. If there is a list anywhere in the column, whole numbers in a piece of whole numbers and booleans in a piece of booleans are exactly the same too; in a column of numbers only, a single decimal number turns all whole numbers into decimal ones. This holds for every converted log that names no seat but 0 to 3 and has no carriage return in its texts.",
  "all command tables with a timestamp per row and sub scopes all or 0..3; all ways in which pandas cuts the file into pieces; pandas versions before and after the change of missing texts and of mixing booleans",
  "What pandas reads in a cell depends on all other cells of the column and on how the file is cut into pieces; tests write and read a few small tables.",
  [CM, "mahjong/universe_paifu_convert.py:main", "mahjong/record/universe/property_manager.py"])
p("C99", "Texts survive the CSV file of commands",
  "A text (player name, level, seed, reason) written to a CSV file of commands is read back as the same text.",
  "all texts without carriage return and NUL",
  "Which texts pandas takes for a missing value or a number depends on the text and on the column; a name such as NA is not in any test.",
  [CM, "mahjong/record/universe/property_manager.py"])
p("C100", "The README recipe gives the exact state after each command",
  "The recipe of the README - read the CSV file of commands, clean it, arrange the states by sub_scope_id and property, forward fill - gives a table whose n-th row shows, for every property of the game, the record and each seat, the state it has after the first n+1 commands of the log: nothing if no command has set it yet, otherwise a value that compares equal to the state (for text properties: the text itself if it cannot be taken for a number, a truth value or a missing value, otherwise some text, see C99). Every column appears once and has one cell per command.",
  "all converted logs that name no seat but 0 to 3 and have no carriage return in their texts; all rows; all properties and seats; all ways pandas cuts the file",
  "Forward filling is only right if no state is ever None and every command leaves the complete new value in its row; a test looks at one log.",
  ["README.md", CM, "mahjong/record/universe/interpreter.py", "mahjong/record/universe/translator.py"])
p("C101", "The table of states survives its CSV file",
  "For a converted log, GameExecutor().execute_as_dataframe(cmds).to_csv(f) followed by GameExecutor.read_clean_csv(f) succeeds and gives a table with one row per command and no column twice: the column (global, time, timestamp) shows the times of the commands as integers, and the column of each property of the game, the record or a seat shows in row n a value that compares equal to the state after the first n+1 commands (for text properties: some text, see C102). A property no command has set yet is shown as None (as the text nan for text properties) if it has a column.",
  "all converted logs with at least one command that name no seat but 0 to 3 and have no carriage return in their texts; all rows; all properties and seats; all ways pandas cuts the file",
  "The enum members in the three header lines, the quoting and the types pandas guesses depend on the whole table; a test reads one file and checks nothing of it.",
  [EX, "mahjong/record/universe/property_manager.py"])
p("C102", "Text states survive the CSV file of states",
  "If a text property (a name, a level, ...) has a text as its state after n+1 commands, the table read back by GameExecutor.read_clean_csv shows this text in row n. This holds for texts with a character that no number or truth value has, that are none of the texts pandas takes as missing and do not begin with a blank; it is false in general: a player named NA is shown as nan, just like a player whose name was not announced yet.",
  "all converted logs that name no seat but 0 to 3; all rows; all text properties; all ways pandas cuts the file",
  "Which names are lost depends on pandas' list of missing texts and on its number parsing.",
  [EX, "mahjong/record/universe/property_manager.py"])
p("C103", "Logs converted lazily do not affect each other",
  "A program may hold several to_command_iter generators, though they share one translator. If the calls of next on a generator are not interrupted by calls on another one, it gives the commands to_commands gives for its log (or those of the events before the one that raises, then the exception), whatever was converted, abandoned or failed before. In general it is false: a log that is converted without exception raises when its generator takes turns with another, as in zip.",
  "all logs, strict or not; all numbers of generators, advanced, abandoned or failed; all schedules before and after; all contexts left by exceptions",
  "The shared context makes every conversion depend on all the earlier ones of the process; a test converts one log after another to the end.",
  ["mahjong/record/universe/tenhou/__init__.py", "mahjong/record/universe/translator.py", "mahjong/record/universe/tenhou/xml_macher.py"])
p("C104", "The converter script saves the whole game under the id of its log",
  "For a line with the link of a game, with white space around it, universe_paifu_convert.main downloads the log the link names, writes one file <log id>_command.csv and prints its name; GameCommand.read_clean_csv of this file gives the commands to_commands gives for the log, one for each, with the same event, time, scope, property and update, and with equal values and states (texts: see C98, C99). A file is written only if the link names a log, the log is found and read, and all of its commands are converted and printed.",
  "all links with a log parameter, other parameters and a fragment; all proper logs of three or four players; all servers; all ways pandas cuts the file; both versions of parse_qs",
  "The script joins link parsing, download, reading, conversion and printing; nothing of it is tested.",
  ["mahjong/universe_paifu_convert.py", RD, "mahjong/record/universe/tenhou/__init__.py"])
p("C105", "All tables of commands agree",
  "For a converted log, to_command_records, GameCommand.to_dataframe, command_to_raw_dataframe and parse_dataframe_from_tenhou_record succeed and have the same rows, one for each command: with raw the fields themselves, from which from_raw_record gives exactly the command; otherwise texts, from which from_record gives a command with equal fields. parse_dataframe_from_tenhou_record also gives the table of states of GameExecutor().execute_as_dataframe, one row for each command, if it is wanted.",
  "all converted logs with at least one command that name no seat but 0 to 3 and have no carriage return in their texts; all flags",
  "Each function prints the commands on its own; a test would have to compare them for every log.",
  [UF, CM, "mahjong/record/universe/tenhou/__init__.py"])
TP = "mahjong/templates/record_checker_template.html"
p("C106", "Texts of a log cannot change the markup of a report",
  "However a player is called and whatever the texts of record, captions and link contain, the report page is complete HTML in which the player and the record are read back as the text of the first two paragraphs, the captions as the texts of the caption elements, and the link as the value of the only link of the page. Two pages that differ only in these texts have the same tags in the same order.",
  "all pages: any texts of player, record, captions and link, any rounds",
  "Names in a log are chosen by strangers; tests use harmless ones.",
  [TP, "mahjong/tenhou_record_check.py:137-149"])
p("C107", "A report shows the analysis",
  "Somebody looking at a report sees, in this order, all tiles in both sizes, the player, the record and the link, the hints, and for each deal its caption, the headings, and for each decision its number counted from 1, the melds and the hand, the tile discarded, the better tiles, the distance and the number of useful tiles of the best and of the actual choice, and all rows of the analysis with discard, distance, number and useful tiles; nothing is missing and nothing is added. The row of a decision is blue after a riichi and red before, as strong as its rate, one row for each decision in order.",
  "all records, players and links for which a report is made",
  "The page is made by a template with nested loops and macros; no test looks at it.",
  [TP, "mahjong/tenhou_record_check.py:183-198"])
p("C108", "The sections of the two patterns list their analysis",
  "The sections 'Normal-Type Reasoning' and 'Seven-Pair Reasoning' of a decision list the rows of the analysis for that pattern.",
  "all decisions of all reports",
  "An empty section looks like a pattern that has nothing to say.",
  [TP, "mahjong/tenhou_record_check.py:247-289"])
p("C109", "A report contains the pictures of all tiles",
  "The style sheet of a report has, for each picture class the page uses, a rule whose base64 text decodes to exactly the bytes of the file of that tile; a report can be made for every analysis as long as the pictures of all 37 tiles can be loaded.",
  "all pages; all contents of the picture files",
  "Tests would have to decode every picture of every page.",
  [TP, "mahjong/tenhou_record_check.py:126-149"])
p("C110", "A report is saved in the current directory",
  "The file of a report is in the current directory, whatever the log id and the name of the player are.",
  "all log ids, all players",
  "Tests use names without slashes.",
  ["mahjong/tenhou_record_check.py:176-196"])
p("C111", "The strict replay of a log finds exactly its contradictions",
  "The commands converted from a proper log replay in strict mode to the end exactly if the log never contradicts itself: the scores listed at a deal and at the end of a deal are those that the seats have, and a seat that is announced again has the same name. Otherwise the replay stops with AssertionError at a command of the first event that says something else; it never stops for the winning hand, nor with another exception.",
  "all proper logs with whole scores, for all orders of sets",
  "test_executor.py replays six logs that are right; nothing says what strict mode reports and what it cannot report.",
  ["mahjong/record/universe/executor.py:120-136", "mahjong/record/universe/tenhou/event_definition.py:88-118", "mahjong/record/universe/tenhou/event_definition.py:196-218", "mahjong/record/universe/tenhou/event_definition.py:236-290"])
p("C112", "The text of a log is read as its elements",
  "Reading a log from a file or a download gives the elements below the root in their order, with their attributes in their order and the values decoded (references, quotes of both kinds), however the text is laid out: blanks and line breaks between the elements and inside the tags, empty elements written with one tag or two. Exactly the texts that are such documents are read (as far as the constructs of logs go), and a text has one reading only. The six logs of the tests are read as the events the other checks use.",
  "all texts made of elements, attributes, references and blanks, in any layout",
  "The tests read six files that were written by one program in one layout; no test changes the layout, uses references or compares what was read with the text.",
  ["mahjong/record/reader.py:193-198", "mahjong/record/util_functions.py:54-60"])
p("C113", "A log cut short is refused",
  "If a log is cut off anywhere before its last tag is closed, reading what is left raises ParseError; it is never taken for a shorter log. Nor is a log read with anything but blanks after it.",
  "all documents, all places to cut",
  "No test reads a broken file; one would be needed for every place.",
  ["mahjong/record/reader.py:193-198"])
p("C114", "The text of an event contains the event",
  "str(event) is the description, a colon and the element as XML in ASCII; read again, it is the same tag with the same attributes and values, whatever characters the values contain except carriage returns (which become newlines). Events with different tags or attributes are never shown alike.",
  "all events with legal names and values, for every order of attributes",
  "The tests print events but compare nothing, and none has a value that needs escaping.",
  ["mahjong/record/utils/event.py:109-112"])
p("C115", "The report on a deal played by the rules",
  "If a player plays a deal by the rules (13 tiles dealt, draw or call, then discard, closed and added kans and north tiles followed by a further draw, only tiles in hand are discarded or laid down), the report on it has one row per discard, in order, and every row is about the hand the player actually held then: it shows that hand, and the line about the choice has the discarded face, the distance of the remaining hand for the patterns its melds leave open, the faces that bring it closer, their unseen copies (four players, no red five in hand that is itself useful, tile 0 not discarded) and whether somebody had declared riichi; it shows the player's melds as they are on the table. In every game the number of every row follows from the useful tiles it shows: it counts the copies not seen, but for 0m none, for 0p those of 9m, for 0s those of 9p, with three players no 1m and 9m, and tile 0 also after its discard. If no report is made, it ends with RuntimeError, and then the player discarded from a complete hand, or with ZeroDivisionError. It stops at a first discard: the report on all that happened before that is made, and together with it the report ends with the same error, which is RuntimeError if the hand was complete then and ZeroDivisionError otherwise. A player who discards from a complete hand once gets no page; the script, asked for all, stops there. All deals of the six logs of the tests are played by the rules.",
  "all deals of any length, all seats, three and four players",
  "The test renders one page of one log and looks at nothing in it; that hand, melds and turn fit together at every discard is a property of all deals.",
  ["mahjong/tenhou_record_check.py:152-289", "mahjong/record/state.py:72-114"])
p("C116", "The report script, from the link typed in to the page looked at",
  "For the link of a log (with blanks around it) and an answer, tenhou_record_check.main asks for the link, downloads the text of the log the link names, reads it, lists the players numbered from 1, asks whose report is wanted and writes the pages of the selected players in order, each to tenhou_record_<log id>_<name>_<index>.html, printing where; if a page cannot be made or written, the run ends there with the error and nothing further is written; otherwise all selected pages are written. Nothing else is ever written, and nothing unless the log was found and read. Somebody looking at a page sees the player, the record and, for each deal the player plays by the rules, one row for each discard that is right about it in the sense of C115, blue if somebody had declared riichi before and red otherwise.",
  "all lines typed in, all servers, all texts of logs of three and four players of any length, all contents of the picture files",
  "The tests never run the script: it reads from the terminal and the network. That the right hand ends up in the right cell of the page concerns all logs.",
  ["mahjong/tenhou_record_check.py:152-198", "mahjong/record/reader.py:20-39", "mahjong/record/reader.py:193-198", "mahjong/templates/record_checker_template.html:100-185"])
p("C117", "The converter script, from the link typed in and the text of the log to the file",
  "universe_paifu_convert.main asks for a link; then either an error ends the run and no file is touched, or exactly one file, <log id>_command.csv, is written and its name printed, and this file is the table of all commands of the log the link names, which was found, is well-formed XML and was read. For the link of a proper log of three or four players, with blanks around it, the file is written, and GameCommand.read_clean_csv gets the commands back from it (as in C98). What the attributes of the events may contain is said on the text itself: no carriage return and no %0D, %0d or %00 in a quoted name; every other text that can stand in an XML document and in a quoted name survives. The six logs under tests/ are converted from their texts.",
  "all lines typed in, all servers and texts they send, all file systems, all orders of sets, all ways pandas cuts the file",
  "The tests never run the script, and convert a handful of logs with ordinary names only; which characters of a quoted name, decoded from any bytes, can spoil the table is a question about all names.",
  ["mahjong/universe_paifu_convert.py:11-18", "mahjong/record/reader.py:20-39", "mahjong/record/reader.py:193-198", "mahjong/record/universe/tenhou/__init__.py:11-16", "mahjong/record/universe/command.py:78-99"])
p("C118", "The advice on a deal that a player plays by the rules, and when there is a report",
  "For a deal that a player plays by the rules, every row of tenhou_record_check.game_reason_list is about one discard, in order, and its advice follows from the table alone: the expected rows are the first ones, equally good and better than all others; with a meld on the table there is one row for each discard that keeps the distance, with the right tiles and number of tiles; with nothing on the table the rows pair the discards for the standard shape with those for seven pairs (see C52); the wrong rate is 1 - c/(b*u^d), with u the number of tiles taken for unseen, to which a game of three adds eight that stand for no tile; it is at most 1, is 0 for a choice as good as an expected row, and with a meld on the table and no useful red five in hand is not negative. The report is made if at each discard there is something to advise (no useful red five in hand; with a meld, some discard that keeps the distance leaves an unseen advancing tile; without, the hand is not complete and every such discard does), and is not made if at one discard the hand is complete or, with a meld and no useful red five, no advancing tile is left. If the report on what happened before a discard is made and no red five in hand is useful after such a discard, the report goes on past the discard exactly if a tile taken for unseen advances the hand after a discard that keeps the distance (with nothing on the table: in one of the rows that pair the discards for the two shapes).",
  "all seats, games of three and four players, deals of any length and their logs",
  "Tests run the checker on single hands or a few logs; that the hand, the melds and the unseen tiles of each row are those of the moment, whatever happened before, is a claim about all deals.",
  ["mahjong/tenhou_record_check.py:97-119", "mahjong/tenhou_record_check.py:201-321", "mahjong/record/state.py:66-197"])
p("C119", "The wrong rate, computed with rounding",
  "The report computes the wrong rate with floats: your_counts / base and then 1 - that, each rounded. For every rounding that keeps the order and leaves 0 and 1 alone, as Python's does, the rate shown is at most 1, is not negative unless the exact rate is, is exactly 0 for a choice as good as an expected row, and of two choices the one with the greater exact rate never gets the smaller computed one. In a deal played by the rules it therefore lies between 0 and 1 whenever a meld is on the table and no red five in hand is useful.",
  "all roundings, hands, melds, unseen sets, deals",
  "Tests look at a few floats; that rounding can never push the opacity of a row over 1 or make a perfect choice look wrong has to hold for every quotient.",
  ["mahjong/tenhou_record_check.py:252-261", "mahjong/templates/record_checker_template.html:136"])
p("C120", "The universal format shows the table at every moment",
  "Take the commands of a proper log and keep those whose time is below k, for any k: they are a beginning of the table, they are exactly the commands of the first k events, and after them every seat in play shows the table as it was at that moment: the hand (as tiles, up to order), the discards in order, the melds in order, the north tiles set aside, the dora indicators, the score and whether riichi was declared. So replaying a game and stopping anywhere shows the truth, not only replaying it to the end.",
  "all proper logs, all moments, all seats, strict or not",
  "Tests replay a few logs and look at the last state; a command given one event too early or too late leaves every final state as it is.",
  ["mahjong/record/universe/translator.py", "mahjong/record/universe/tenhou/__init__.py:to_commands", "mahjong/record/universe/executor.py"])
p("C121", "The universal format accounts for every tile once",
  "Stop the replay of a proper log at any moment of a deal. The cells hand, meld_public_tiles and discard_tiles of a player, taken together, are exactly the tiles that player was dealt and has drawn: none is missing, none is shown twice, whatever was called, added to a pon, set aside or won in between. Over all players, with the dora indicators, they are exactly the tiles that left the wall. So when the wall holds different tiles no red five is shown more than once, no other five more than three times, and no other tile more than four times.",
  "all proper logs, all moments, all seats, strict or not",
  "Tests compare a few cells of a few logs; a tile lost in one kind of call, or left in the hand after it was laid down, shows only in logs with that call.",
  ["mahjong/record/universe/tenhou/xml_macher.py", "mahjong/record/universe/tenhou/__init__.py:to_commands", "mahjong/record/universe/executor.py"])
p("C122", "The accurate pick rates",
  "The win rate demo prints one row for every different tile of the hand: the win count, the number of experiments and the rough rate of C90 and C93, with an accurate rate beside them. Whatever vector the eigenvalue routine returns for the matrix (rational, of the right length, with a sum other than 0), the accurate rates add up to 100%, the rows are in descending order of them, and tiles with equal rates keep the order of the hand. The demo fails for no other reason than C92. A vector that the matrix leaves as it is, which is what the accurate rates are meant to be, exists if and only if at most one discard wins in all the experiments; then that discard has 100% and the others 0%. Otherwise there is none: the columns of the matrix do not add up to 1 (the FIXME of line 79), and what is printed is an eigenvector of some other eigenvalue.",
  "all typed hands, all numbers of draws and experiments, all behaviours of the random source, all results of the eigenvalue routine",
  "Which eigenvalues a matrix has depends on all of the experiments; a test fixes one random source and cannot tell a stationary distribution from the nearest thing to one.",
  ["mahjong/win_rate_demo.py:main"])
p("C123", "How far a hand can be from winning",
  "A hand of at most four tiles of each face that is at most one tile short of one pair and m melds is at most 2m steps from waiting, so a hand of 13 or 14 tiles is at most 8 steps away; one that is at most one tile short of n different pairs is at most n - 1 steps away, so 6 for seven pairs. All three searches answer a number from -1 to this bound, with and without the limit of four tiles. In the report, the step shown for the tile that the player discarded is at least 0 and at most twice the number of melds still to be made, and at most 6 for a closed hand.",
  "all legal hands at most one tile short, all numbers of melds and pairs up to 33 and 34, all legal discards in all games",
  "The bound is a statement about the worst hand of billions; a test sees the hands it was given and the searches take long exactly on the hands that are far away.",
  ["mahjong/container/pattern/reasoning.py:HeuristicPatternMatchWaiting.before_waiting_step", "mahjong/container/pattern/reasoning.py:PatternMatchWaiting.before_waiting_step", "mahjong/container/pattern/reasoning.py:BruteForceWaiting.before_waiting_step", "mahjong/tenhou_record_check.py:discard_reasoning"])
p("C124", "The answers do not depend on how suits, ranks and honours are called",
  "Exchange the three suits among each other, count the ranks of some of the suits from the other end (9..1), exchange the seven honours among each other: then each search answers the same step for the renamed hand, its useful tiles are the renamed useful tiles, and batch_waiting_and_useful_tiles lists as many discards, the renamed ones, each with the same step and the renamed useful tiles.",
  "all hands of legal tiles with at most four of each face, all renamings of faces that keep runs",
  "The number of renamings (over a hundred thousand) times the number of hands cannot be tried; a search that prunes by suit or by order can differ on a few of them only.",
  [RE + ":BruteForceWaiting", RE + ":PatternMatchWaiting", RE + ":HeuristicPatternMatchWaiting", "mahjong/container/pattern/win.py"])
p("C125", "What has been seen of the other tiles changes only the counts of a report",
  "Two reports on the same discard from the same hand that differ only in which other tiles are still unseen have the same rows up to their order: the same discards with the same steps and useful tiles. If all tiles unseen in the first are unseen in the second, no count of the first is larger. If the same tiles are unseen, all rows are equal and in the same order, however the set of unseen tiles is listed.",
  "all events, hands, melds, numbers of players and sets of unseen tiles for which both reports exist",
  "two sets of up to 136 unseen tiles for every hand; a search that looks at the unseen tiles, or a set whose order of iteration leaks into the rows, shows on few of them only",
  [CK + ":discard_reasoning", CK + ":one_win_reasoning", CK + ":reasoning_merge", CK + ":convert_to_reasoning"])
p("C126", "The order in which the tiles of a hand came does not matter for a report",
  "The report on a discard is the same, with all its rows and their order, the hand shown and the wrong rate, for every order in which the tiles of the hand are listed.",
  "all hands of physical tiles and all orders of them",
  "14 tiles have 14! orders",
  [CK + ":discard_reasoning", "mahjong/container/set.py"])
p("C127", "No hindsight",
  "What is shown of a moment of a game does not depend on what happens later. The rows of a report on the discards made so far are the first rows of the report on the whole deal, so two deals that went the same way up to a moment get the same advice on the discards before it. The commands of the first events of a log are the first commands of the log, with the times of these events; a log that is refused stays refused with the same error when events are added. The exported rows of the first events of a deal are the first exported rows of the deal, and a row of the table of states keeps its cells when more commands follow.",
  "all events, players, deals, logs and ways to go on",
  "every way to go on after every moment of every game",
  [CK + ":game_reasoning", "mahjong/record/universe/tenhou/__init__.py:to_commands", "mahjong/record/reader.py:to_paifu", "mahjong/record/universe/executor.py:execute"])
p("C128", "No peeking",
  "The report for a player uses only what the player can see at the table. Two deals that differ only in the hands dealt to others, in the tiles others draw and in how the deal ends have the same report for the player, or fail with the same error.",
  "all players, events and pairs of such deals",
  "two deals differ in the hidden tiles in astronomically many ways; a tracker that counts a hidden tile as seen changes a few counts only",
  [CK + ":game_reasoning", "mahjong/record/state.py:PlayerHand", "mahjong/record/state.py:InvisibleTiles", "mahjong/record/state.py:PlayerMeld"])
p("C129", "All seats are treated alike",
  "If the same deal is played with the players in other seats (the hands, draws, discards and calls of each seat happen at another seat, in the same order, and riichi is declared at the same moments), the report on a player is the report on whoever has that player's place, row by row, or both fail with the same error.",
  "all ways to exchange seats, all logs of legal actions, all players",
  "the seat is written in letters, attribute names and attributes; a report is computed for one seat at a time, and a mistake in one letter concerns one seat only",
  [CK + ":game_reasoning", "mahjong/record/player.py", "mahjong/record/state.py:PlayerHand", "mahjong/record/state.py:PlayerMeld", "mahjong/record/utils/constant.py:DRAW_REGEX"])
p("C130", "The Unicode character of a tile",
  "The character printed for a tile is the one the Unicode block of mahjong tiles has for it, and no two kinds of tiles share a character. It holds for every tile that is not a red five; a red five is printed as another tile (the red five of characters as the white dragon, that of bamboos as nine of characters, that of circles as nine of bamboos).",
  "all tiles of the game",
  "the index is computed over groups of different sizes; a test of a few tiles does not tell whether two of them share a character, and none has a red five",
  [CK + ":to_unicode_tile", CK + ":UNICODE_HONOR_ORDER", CK + ":TILE_CATEGORY", "mahjong/record/category.py"])
p("C131", "The tile after a tile",
  "In a suit the next tile has the next number and the same suit; after a red five comes the six of its suit; a nine and an honour have no next tile; the next tile of a tile of the game is a tile of the game.",
  "all tiles of the game",
  "a red five has number 0 in the code, and the two classes compute the next tile differently",
  ["mahjong/tile/definition.py:Tile.next", "mahjong/tile/definition.py:AkaTile.next"])
p("C132", "A table of states is whole or there is none",
  "GameExecutor().execute_as_dataframe(commands) gives a table only if every command can be executed after those before it, and then with exactly one row per command. If some command cannot be executed, the table fails with an error: rows of the commands before it are not returned.",
  "all lists of commands",
  "rows are made by a generator that may end early at any command; a test tries one list of commands that can all be executed",
  [EX])
p("C133", "An element has one meaning and one owner",
  "An element T, U, V or W followed by a number is, for every function that looks at it, a draw of that tile by seat 0, 1, 2 or 3 and by no other seat, and no discard; D, E, F, G likewise for discards. The functions on a whole log and the methods of a player agree on it. An element N, REACH or AGARI with attribute who is a call, a riichi or a win of that player and of nobody else.",
  "all such elements, all tile numbers, all seats",
  "there are two sets of regular expressions for the same tags, anchored differently; a test has a few tags of one seat",
  ["mahjong/record/utils/event.py:draw_value", "mahjong/record/utils/event.py:tile_change", "mahjong/record/player.py", "mahjong/record/utils/constant.py:DRAW_REGEX"])
p("C134", "Which calls are open",
  "Meld.is_opened is true exactly of a chi, a pon and a kan of another player's discard; it is false of a concealed kan, of a kita and of the element of an added kan taken alone; the kan made of a pon and an added tile is open.",
  "all meld codes that can be decoded, all players",
  "it depends on the tiles decoded from the bits of the code, for 65536 codes",
  ["mahjong/record/utils/value/meld.py:is_opened", "mahjong/record/utils/value/meld.py:KanFromTriplet"])
p("C135", "What a player decides",
  "TenhouPlayer.is_player_choice is true of the player's own discards, calls and wins; it is false of draws, of everything the other players do, of riichi declarations, new dora indicators and the elements that begin and end deals. opened_hand_type gives the meld the caller's element encodes.",
  "all elements of Tenhou logs, all four seats",
  "three tests with two regular expressions are combined; a wrong letter or seat shows for one seat only",
  ["mahjong/record/player.py:is_player_choice", "mahjong/record/player.py:opened_hand_type", "mahjong/record/utils/constant.py:DISCARD_REGEX"])
p("C136", "Further commands change no row of the table of states",
  "If commands are appended to a list of commands, the rows that execute_as_dataframe makes of the first commands stay the same: row n of the longer table has the same cells (path and text) as row n of the shorter one. If there is a table of all commands, there is one of the first ones.",
  "all lists of commands that put no list into a text property, all rows",
  "all snapshots share one structure that later commands extend; that an earlier one is not altered shows only if it is read after them, and the rows are read between them",
  [EX])
p("C137", "Names that are no UTF-8",
  "Whatever bytes an escaped name encodes, the name of a player consists of Unicode characters only (no half surrogate pair, nothing beyond U+10FFFF), so it can be written to a UTF-8 file. If it has no replacement character U+FFFD, the escaped bytes are exactly the UTF-8 bytes of the name: forbidden spellings of a character (overlong ones, say) are never taken for the character.",
  "all texts as names, all sequences of bytes",
  "there are infinitely many ill-formed sequences, in several classes; a test has well-formed names",
  ["mahjong/record/player.py:TenhouPlayer", "mahjong/record/universe/tenhou/event_definition.py"])
out = os.path.join(os.path.dirname(os.path.abspath(__file__)), "..", "properties.jsonl")
with open(out, "w") as f:
    for x in P:
        f.write(json.dumps(x, ensure_ascii=False) + "\n")
print(len(P))
