# Formal model of auto-white-reimu: design

Source: `/repo` (Python, read as text, never executed). Model: Rocq (Coq 8.16.1), standard library only,
under `rocq/theories`. Properties: `properties.jsonl` (generated by `tools/gen_properties.py`).

## 1. Method

* Every modelled Python function becomes a total Gallina function that mirrors it branch by branch; the comment
  above each definition cites file and lines.
* Exceptions are values: `res A := Ok a | Err e` with `e` naming the Python exception class.
* Generators are modelled as the finite list of values they yield (where interleaving matters -- `StageGroupby`,
  the heuristic search with its shared mutable bound -- as explicit state machines / state passing).
* Unbounded loops take fuel; running out is the separate result `Err OutOfFuel`, and every theorem about such a
  function either gives a fuel that suffices or (divergence) shows that no fuel suffices.
* Mutable Python objects (TileSet, pool, builder stack, ...) are threaded as state.
* Specifications live in separate `Spec_*.v` files that mention only tiles, counts (functions face -> number) and
  lists; they do not import the search code.
* `Prop_*.v` files hold only the final statements (`Proof. exact ... Qed.`), `Print Assumptions`, and Examples showing
  the hypotheses are met.
* Where the English property is false of the code, the natural statement is kept, `..._refuted` proves its negation
  with a concrete witness, and a `..._partial` theorem proves the strongest true version found.

## 2. Plan per property

| id | modelled | proof method |
|----|----------|--------------|
| C01 | `SubCategory` over Z with Python `%`, `//` (= Coq `Z.modulo`, `Z.div`, both floor) | induction on dimension list |
| C02 | same | induction; lexicographic order |
| C03 | `MixedCategory` with accumulated lengths, `bisect_right` as a binary search | bisect correctness + modular argument for the negative offset |
| C04 | `MixedCategory.index` | refuted for shapes with different trailing dimensions; proved when they agree |
| C05 | `tile_from_tenhou`, `tile_to_tenhou_range` | corollary of C03/C04, red-five case refuted |
| C06 | `Tile`, `AkaTile`, `total_ordering` expansion | case analysis |
| C07 | the tile pool as state | invariant over construction histories; out-of-range numbers refuted |
| C08 | `TileSet` as insertion-ordered association list keyed by tile equality | induction |
| C09, C10 | regex scanner `[0-9]+[mps]\|[1-7]+z` with backtracking semantics, printer | induction on strings |
| C11-C14, C16 | `_win_selections` with the deletion of exhausted tiles | soundness/completeness by induction on fuel and sorted remaining keys |
| C15 | `distinct` with `bisect_left` | invariant: sorted accumulator |
| C17-C24 | the three `Waiting` classes | soundness + completeness of each search against the spec "least number of tiles to add"; heuristic: branch-and-bound invariant |
| C25-C28 | 16-bit field extraction, constructors | exhaustive case split is avoided: bit arithmetic; or complete `vm_compute` over the finite code space when the space really is finite (that is a proof, not a sample) |
| C29, C30 | `StageGroupby` as a state machine | invariant; interleaving refuted |
| C31 | `TenhouRecord.__init__` splitting | corollary of C29 |
| C32-C35 | `GameState` classes | induction on event lists |
| C36-C39 | `TransferDict`, `GameExecutor`, `GameInterpreter` | induction on paths / command lists |
| C40-C44, C48 | `event_definition.py` handlers | induction on event lists |
| C45 | `GameCommand` records with an abstract JSON codec given as section variables discharged in theorems | equational |
| C46 | dispatch tables | case analysis; `match_both` refuted |
| C47 | context stack as state machine | induction on programs |
| C49 | `sample` with an arbitrary choice oracle | induction on draws |
| C50 | tables | induction on indicator list + computation |
| C51 | loops | induction |
| C52-C55 | `tenhou_record_check.py` | refutations + partial theorems; `RedKeys.v`: an entry of the hand's multiset stays red or plain through every operation of the search |
| C56, C57, C71 | `TenhouGame`, `TenhouRecord` as built from events | inversion of the construction; C71 also the converse (which logs read) |
| C58-C61 | the remaining handlers: discards, melds, rounds, dora, outcome, winners | induction on the log over a ghost state per seat |
| C62 | `TransferDict.flatten` | induction on the nested dictionary |
| C63-C66 | the report rows, their rates and pictures | corollaries of C17-C24 on the hand before the discard |
| C67-C70 | `to_paifu` of event, game and record | case analysis per tag, induction on events |
| C72-C76 | settings, deal header, players, riichi in the universal format | "last writer" argument: later events keep the place |
| C77 | `unquote` and UTF-8 decoding | induction on a quoting relation; arithmetic per length of the encoding |
| C78 | `urlparse(..).query`, `parse_qs` | lemmas on cutting and splitting |
| C79 | text of a game type | bits from C28; a decoder of the text |
| C80 | text of a player | decimals as exact digit strings; C57, C77 |
| C81 | caption of a deal | per ending; digits end before the next sign |
| C82 | text of a record | insertion sort on seats: sorted and a permutation |
| C83 | text of an event | per action; print/parse of sets (C09, C10) |
| C84 | table of raw events | a relation telling one event, inverted; positions separate the events |
| C85 | log id of a table | last slash, last dot |
| C86 | report files | the index is the last number of the name; indices are distinct (C57) |
| C87 | selected players | digits read positionally |
| C88 | report page | per deal; rows counted by C53 |
| C89 | checker object | unfolding both entry points |
| C90 | win counts | per experiment C11, C12 and C49; counters as sums over the experiments |
| C91 | shares | exchange of sums |
| C92 | no win | the total is a sum of lengths; 13 tiles are too few |
| C93 | rough pick rates | column sums of the matrix in closed form |
| C94-C95 | `TransferDict.drop`, `setdefault` | as C36, on paths |
| C96-C97 | conversion succeeds on every proper log, fails on corrupt ones | `proper` (Spec_Convert.v) states what a log must say, in terms of events and actions; progress lemma per handler; each missing piece read off the handler that needs it (Spec_Refused.v lists them); plus the invariants of C40, C41, C58, C72 |
| C98-C99 | CSV files of commands are read back | model of csv writer, pandas tokenizer, inference per piece and common type (Csv.v); write/read inverse by induction over fields; token lemmas per kind of JSON text; invariant of all handlers that values are writable |
| C100 | README recipe gives the exact states | states written beside commands are never None (invariant of all handlers and of the interpreter); last filled cell = state after the last command for the place |
| C101, C102 | CSV of the table of states | write then read of three header lines (injective names of enums); each column read cell by cell; cell of a place = text of its state after n+1 commands (C62), so reading = `recovered` (C98); texts: plain words kept, blanks before them lost, missing-looking texts become nan; NA name as counterexample |
| C103 | generators on the shared translator | outputs of a generator = the stream of its commands up to the first exception (induction on the calls); other generators' calls leave it untouched; computed counterexample for turns |
| C104, C105 | converter script, tables of commands | composition of C71 (reading), C78 (link), C96 (conversion), C98 (CSV); `strip` by induction; raw records by cases; a short game that meets all hypotheses at once |
| C106-C110 | report page | literal parts of the template read by computation, variable parts by lemmas on escaping; composition of token lists; what is seen by a machine that flushes at tags and blanks; base64 by induction in steps of three bytes |
| C111 | strict replay | the assertions of one event per key, against what is known from the events before (scores, names, hands); induction over the log; the first failing command is traced back to its event |
| C112 | reading the text | a reader that takes one character at a time; each construct of the grammar leads from one state of the reader to the next; for the converse, each accepting run is cut at the constructs |
| C113 | truncation | only the state after the root accepts, and from there only blanks lead back to it |
| C114 | str(event) | what tostring writes is in the grammar of C112, value by value |
| C115 | deals played by the rules | induction over the deal: hand and melds always make 13 or 14 tiles, so the conditions of the theorems about single rows hold at every discard; the trackers hold these hands by C27, C32, C34; the loop over the events fails only with the error of some row |
| C116 | the report script as a whole | composition of the link (C78), the text (C112), the record, the selection (C87), the analysis (C115), the page (C107) and the order of output in a model of main that records every prompt, line and file |
| C117 | the converter script as a whole | a model of main that records every prompt, line and file; the values of a document and what unquote makes of them are shown to be of Unicode characters, by induction over the text and the UTF-8 decoder; then C104 |
| C118 | the advice on a deal played by the rules | the trackers at each discard from C115 put into C52, C54 and C64; the eight tuples of the three-player set are an invariant of the scan; the first failing discard by induction over the groups of the loop (CheckerFirst) |
| C119 | the rate with rounding | rounding as an arbitrary monotone function that keeps 0 and 1; composition with C64 and C118 |
| C120 | the table at every moment | beginnings of proper logs are proper; the commands of a beginning are those before its time; composition of C40-C42, C58, C76 |
| C121 | every tile once | per player: induction over the play since the deal (draw, discard, call); the table by composition over the seats; counts by NoDup of the wall inside the 136 tiles |
| C122 | accurate rates | a non-negative matrix with column sums at most 1 keeps a vector only where the columns add up to 1 (sum of absolute values); such a column belongs to a discard that alone wins; rows by insertion sort (permutation, sortedness, stability) |
| C123 | largest distance | an explicit layout of a pair and triplets (or of pairs) on distinct faces, held faces first; counting the missing tiles, with the number of held faces bounded from below by the number of tiles; the report by C63 |
| C124 | renaming of faces | the distance in counts is invariant under a bijection of faces that keeps runs: units, added tiles and counts are mapped, and mapped back by the inverse; the searches by C17-C20 and C22 |
| C125 | `merged_rows`, `choice_row` with two sets of unseen tiles | the rows before sorting are related one by one; the searches do not see the unseen tiles |
| C126 | `hand_tiles` of two orders | both multisets sort to the same list: keys by `RedKeys.v`, counts by permutation |
| C127 | cutting lists of events | `pass_states` splits at every cut (C35), discards are no riichi declarations, so a group of `groupby` cut short gives the same row; C48 and C62 for the rest |
| C128 | `scan` of the three trackers on two events | the trackers answer the same to events that the player cannot tell apart; then induction over `groupby` |
| C129 | simulation between the trackers of two seats | states related up to the seat and `m_from`; the report reads neither |
| C130 | the table of the Unicode standard as a specification | number 0 of a red five falls into the group before: refuted for red fives |
| C131 | cases | the specification names the face number of a red five, 5 |
| C132 | from C37's description of the replay | tightened after a seeded bug that returned the rows before a failing command |
| C133 | cases over the letters | both sets of regular expressions on a letter and a number |
| C134 | from C25 | |
| C135 | cases; C25 for the meld | |
| C136 | from C132 and the cells of C62 | |
| C137 | one step of the decoder, then induction on the length | found missing by two seeded bugs that survived C77 |

## 3. Trusted base

1. Coq's kernel (8.16.1), with `vm_compute` used for closed computations (complete checks of finite code spaces and
   examples).
2. Axioms: none. Every theorem named in `MANIFEST.json` is "Closed under the global context" (`Print Assumptions` after
   each theorem in the `Prop_*.v` files). No axiom, parameter, admitted proof or section-less variable is declared.
   Section variables (for example `unquote`, `set_order`) are discharged: the theorems quantify over them.
3. The reading of Python recorded in the comments above the definitions: `/repo` is only read, never run, so no run
   of the program ties the model to it. Instead the tests of the repository are replayed in the model: `Conformance.v` states
   every assertion of `/repo/tests` about modelled code as an `Example` on the model, with the same inputs, and all hold
   (left out: tests that need the network, tests of named tuples, and the strict executor on whole logs, which is
   computed too slowly in Coq; C111 proves instead when it succeeds). `Logs.v` holds the six logs of `/repo/tests` as lists of events (written by
   `tools/gen_logs.py`), `LogCheck.v` has boolean checks of the conditions of the theorems about logs, with proofs that
   the checks can be relied on (`StrictCheck.v` those of C111), and `Prop_Logs.v` shows that the six logs meet these conditions,
   and that all of them are read, converted, saved and replayed in strict mode.

### Modelled

| source | model |
|--------|-------|
| `record/category.py` | Category.v (`SubCategory`, `MixedCategory`; captions and names only as data that is not used) |
| `tile/definition.py` | Tile.v (tiles, order, hash, pool as state) |
| `container/set.py` | TileSet.v, TileSetOps.v, printing in Parse.v |
| `container/utils.py` | Parse.v, Distinct.v |
| `container/pattern/win.py` | Win.v |
| `container/pattern/reasoning.py` | Waiting.v |
| `container/distribution.py` | Distribution.v (`random.choices` as an arbitrary oracle) |
| `record/utils/bit.py`, `value/meld.py`, `value/tile.py`, `value/gametype.py`, `value/general.py` | Tenhou.v, Text.v |
| `record/utils/event.py`, `record/player.py` | Event.v, Choice.v, Paifu.v, Show.v; `__str__` in FromText.v |
| `record/state.py` | State.v |
| `record/stage.py` | Stage.v |
| `record/reader.py` | Reader.v, Paifu.v, Show.v, Url.v; the text of a log in Xml.v, FromText.v |
| `record/utils/builder.py` | Builder.v |
| `record/const.py` | Const.v |
| `record/universe/format.py`, `property_manager.py`, `interpreter.py`, `executor.py`, `command.py` | Value.v, Universe.v, Transfer.v, Json.v, Record.v; the CSV files in Csv.v (`command.py` 74-102) and StateCsv.v (`executor.py` 60-77, 113-114); the recipe of README.md in Readme.v |
| `record/universe/translator.py`, `tenhou/xml_macher.py`, `tenhou/__init__.py` | Translator.v; the generators on the shared translator in Session.v |
| `record/universe/tenhou/event_definition.py` | TenhouCommands.v |
| `tenhou_record_check.py`, `record/checker.py` | Comb.v, Checker.v, Report.v, CheckScript.v |
| `templates/record_checker_template.html` (with `tenhou_record_check.py` 126-149) | Html.v |
| `record/util_functions.py` | Table.v (31-60), Export.v (12-28) |
| `universe_paifu_convert.py` | Export.v, ConvertScript.v |
| `win_rate_demo.py` 14-102 | WinRate.v, PickRate.v |

### Simplified or assumed

* Numbers of a log are exact integers or decimals (`num`), not floats: Python rounds from 2^53 on and when it prints more
  digits than given. `int()` and `float()` accept only plain spellings (sign, ASCII digits, one point).
* The order in which Python iterates a `set` of integers is an arbitrary function `set_order`; theorems hold for every
  such function that lists each element once.
* `random.choices` is an oracle; only that it picks an index of positive weight is used.
* Logging writes nothing. Making the text of a message can fail, though: for a win (`event_definition.py` 139) the text of the
  event needs its score, which is modelled (`logged_win`). The text of the game in the message of `tenhou_record_check.py` 202 is the caption
  that the script has made just before; the texts of the other messages always exist.
* The wrong rate of the checker and the fractions of `win_rate_demo.py` are exact rationals, not floats (for the wrong rate C119 says what
  every rounding keeps).
* Texts are lists of code points. JSON texts are those of `json.dumps` with its defaults.
* Of XML, Xml.v models what logs use: elements, attributes, references, blanks. For declarations, comments, character data
  between the elements, name spaces, names beyond ASCII and raw carriage returns in values it answers `NotModelled`. Bytes are
  taken as decoded. Everywhere else a log is its list of elements (tag, attributes in order).

### Not modelled

* Network and file access (`fetch_record_content`, and what of `from_url`, `from_file` comes before the text), `main` of the scripts except where a definition says so.
  In CheckScript.v and ConvertScript.v the server (address to text), the opening of files, `os.path.abspath` and the line with the link are arbitrary
  functions, and what `loguru` writes to the error stream is left out, as is the shell command `pause`.
* jinja2 in general: Html.v is the page it makes of this template. The picture files are an arbitrary function from names to
  bytes or exceptions, the text of the rate an arbitrary function. HTML is read by a small reader (Spec_Html.v) without the special
  rules for scripts and styles, and without style sheets being applied.
* pandas: data frames are lists of rows. Of its CSV functions only what the tables of commands and of states need is modelled
  (Csv.v: minimal quoting, the C tokenizer, type inference per piece of the file); parameters stand for the texts taken as
  missing, the mixing of booleans with numbers, and the lengths of the pieces. The table of states (StateCsv.v) has three header lines;
  the names pandas makes up for empty header fields are modelled only as texts that are no enum members.
* `win_rate_demo.py`: `LA.eig` is an arbitrary function from the matrix to a vector of rationals (PickRate.v); complex results and the progress
  messages are left out.
* Run time and memory.
