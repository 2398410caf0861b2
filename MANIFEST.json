{
 "claims": [
  {
   "property": "C01",
   "status": "proved",
   "theorems": [
    "C01_valid_utf8"
   ],
   "note": ""
  },
  {
   "property": "C02",
   "status": "proved",
   "theorems": [
    "C02_no_zwsp"
   ],
   "note": ""
  },
  {
   "property": "C14",
   "status": "proved",
   "theorems": [
    "C14_pattern_letters",
    "C14_rpattern_letters"
   ],
   "note": "For every order in which the Go map of letters may be read."
  },
  {
   "property": "C18",
   "status": "proved",
   "theorems": [
    "C18_deterministic",
    "C18_meaning",
    "C18_overlapping_refuted"
   ],
   "note": "Proved under the proviso of the property; the refutation shows the proviso is needed."
  },
  {
   "property": "C19",
   "status": "proved",
   "theorems": [
    "C19_deterministic",
    "C19_normalization",
    "C19_overlapping_refuted"
   ],
   "note": "Proved under the proviso of the property; the refutation shows the proviso is needed."
  },
  {
   "property": "C29",
   "status": "proved",
   "theorems": [
    "C29_compose_decompose",
    "go_hangul_satisfies_laws"
   ],
   "note": "The external package go-hangul enters through the record hangul_laws, which the model of its documented behaviour satisfies."
  },
  {
   "property": "C30",
   "status": "proved",
   "theorems": [
    "C30_no_hyphen_no_jamo",
    "C30_idempotent",
    "C30_keeps_others",
    "C30_misplaced_jamo_refuted"
   ],
   "note": "Isolated Jamo are excluded exactly for well placed Jamo input; the refutation shows misplaced Jamo can survive."
  },
  {
   "property": "C31",
   "status": "proved",
   "theorems": [
    "C31_local"
   ],
   "note": ""
  },
  {
   "property": "C32",
   "status": "proved",
   "theorems": [
    "C32_text_kept",
    "C32_merging",
    "C32_negative_level_refuted"
   ],
   "note": "Levels >= 0, the only ones the procedure uses; the reserved level -1 is refuted separately."
  },
  {
   "property": "C33",
   "status": "proved",
   "theorems": [
    "C33_rounds",
    "C33_bytes"
   ],
   "note": "Character-level statement for valid UTF-8, byte-level statement for arbitrary bytes."
  },
  {
   "property": "C41",
   "status": "proved",
   "theorems": [
    "C41_localization",
    "C41_no_stray_spaces",
    "C41_zwsp_space_refuted"
   ],
   "note": "The no-stray-space clause holds for texts without U+200B; with U+200B it is refuted."
  },
  {
   "property": "C42",
   "status": "partial",
   "theorems": [
    "C42_latin_plain",
    "C42_latin_basic",
    "C42_idempotent_partial",
    "C42_idempotent_refuted",
    "C42_stays_in_script"
   ],
   "note": "Idempotence is false for exactly eight Latin characters, proved for every other character."
  },
  {
   "property": "C43",
   "status": "partial",
   "theorems": [
    "C43_first_letter_partial",
    "C43_later_letters_refuted"
   ],
   "note": "True for the first letter of each target, false for the other letters of a longer target."
  },
  {
   "property": "C08",
   "status": "proved",
   "theorems": [
    "C08_matches",
    "C08_inside",
    "C08_apart",
    "C08_matches_partial",
    "C08_disjoint_partial",
    "C08_accepted_compiled",
    "C08_order_refuted"
   ],
   "note": "For every expression whose parts (edges, lookaround, body) are expressions on their own after macros and variables are expanded (reads, PropPattern.v), the reading of balanced brackets taken here. C08_matches_partial: the same for every compiled pattern passing a decidable check. C08_order_refuted: brackets hidden in character classes, outside of the property."
  },
  {
   "property": "C09",
   "status": "partial",
   "theorems": [
    "C09_balanced_partial",
    "C09_terminates_partial",
    "C09_hang_refuted"
   ],
   "note": "Proved for every pattern with balanced brackets, refuted in general."
  },
  {
   "property": "C10",
   "status": "proved",
   "theorems": [
    "C10_limit",
    "C10_negative",
    "C10_zero"
   ],
   "note": ""
  },
  {
   "property": "C11",
   "status": "partial",
   "theorems": [
    "C11_same",
    "C11_balanced_partial",
    "C11_edits_partial",
    "C11_converse_refuted"
   ],
   "note": "Equality holds for every rule whenever Pattern.Replace returns; the editing statement is for patterns with balanced brackets; refuted for patterns reporting reversed spans."
  },
  {
   "property": "C12",
   "status": "partial",
   "theorems": [
    "C12_body_partial",
    "C12_only_zero_width",
    "C12_no_panic_partial",
    "C12_zero_width_refuted",
    "C12_lookaround_only_refuted",
    "C12_submatches_refuted"
   ],
   "note": "Refuted in general in three ways. For patterns with balanced brackets the only panic is the one for a match of nothing, and there is none when the body cannot match nothing."
  },
  {
   "property": "C17",
   "status": "partial",
   "theorems": [
    "C17_adjoining_partial",
    "C17_first_partial",
    "C17_later_start_refuted"
   ],
   "note": "False as stated. True: matches of a ^^ pattern adjoin each other from offset 0 on (no alternation at the top of the body, no negative lookahead)."
  },
  {
   "property": "C03",
   "status": "proved",
   "theorems": [
    "C03_transparent",
    "C03_unnumbered_refuted"
   ],
   "note": "For every parsed spec. The refutation shows a spec whose exported rule list was edited by hand can panic only when traced."
  },
  {
   "property": "C04",
   "status": "proved",
   "theorems": [
    "C04_faithful"
   ],
   "note": "Events in the order of delivery."
  },
  {
   "property": "C05",
   "status": "proved",
   "theorems": [
    "C05_loads"
   ],
   "note": "All 40 files, all iteration orders, any cache. The bundled files are in the model byte for byte."
  },
  {
   "property": "C06",
   "status": "proved",
   "theorems": [
    "C06_returns",
    "C06_returns_word"
   ],
   "note": "Under the assumption that the transliterators named by the spec themselves return."
  },
  {
   "property": "C34",
   "status": "proved",
   "theorems": [
    "C34_chain"
   ],
   "note": ""
  },
  {
   "property": "C35",
   "status": "proved",
   "theorems": [
    "C35_contract",
    "C35_unknown",
    "C35_returns"
   ],
   "note": ""
  },
  {
   "property": "C36",
   "status": "proved",
   "theorems": [
    "C36_registry",
    "C36_copies"
   ],
   "note": ""
  },
  {
   "property": "C37",
   "status": "proved",
   "theorems": [
    "C37_installed",
    "C37_undone"
   ],
   "note": ""
  },
  {
   "property": "C38",
   "status": "proved",
   "theorems": [
    "C38_cache"
   ],
   "note": "Specs are immutable in the model: a caller writing into a cached *Spec is not covered."
  },
  {
   "property": "C39",
   "status": "partial",
   "theorems": [
    "C39_race",
    "C39_footprint",
    "C39_race_refuted",
    "C39_settled_partial",
    "C39_atomic_partial"
   ],
   "note": "False with an empty cache: two goroutines race. No race when all languages asked for are loaded (or unknown) before the goroutines start. In every schedule of atomic map accesses each goroutine gets the result of a call on its own."
  },
  {
   "property": "C40",
   "status": "proved",
   "theorems": [
    "C40_list",
    "C40_order"
   ],
   "note": ""
  },
  {
   "property": "C07",
   "status": "proved",
   "theorems": [
    "C07_foreign",
    "C07_identity",
    "C07_between"
   ],
   "note": "C07_foreign: a word of foreign characters comes out as its localization. C07_identity: unchanged when it has no punctuation and no U+200B. C07_between: a foreign run inside a word is kept and both sides are treated independently (iff). Side conditions that the code needs: no transliterator in the spec, and no normalization source occurs in the word (normalization replaces substrings of any script)."
  },
  {
   "property": "C50",
   "status": "partial",
   "theorems": [
    "C50_fresh_partial",
    "C50_bundled",
    "C50_dot_refuted"
   ],
   "note": "False in general: a rule whose pattern matches NUL (a dot) replaces the mask of earlier output (C50_dot_refuted). True for rules that match no NUL (C50_fresh_partial), and every bundled transcribe rule is of that kind (C50_bundled)."
  },
  {
   "property": "C51",
   "status": "proved",
   "theorems": [
    "C51_sequential",
    "C51_returns"
   ],
   "note": ""
  },
  {
   "property": "C52",
   "status": "proved",
   "theorems": [
    "C52_partition",
    "C52_normalized_text"
   ],
   "note": ""
  },
  {
   "property": "C21",
   "status": "proved",
   "theorems": [
    "C21_round_trip",
    "C21_empty_sections_vanish",
    "C21_no_backslash"
   ],
   "note": "Wider than the quantifier: quotes and NUL are allowed. Sections without entries leave no trace; a backslash cannot be written in HSL at all."
  },
  {
   "property": "C22",
   "status": "proved",
   "theorems": [
    "C22_layout",
    "C22_layouts_agree"
   ],
   "note": "HslDoc is an independent description of how documents are written."
  },
  {
   "property": "C23",
   "status": "partial",
   "theorems": [
    "C23_refuted",
    "C23_trailing_comment_joins",
    "C23_comment_before_blank_line_partial"
   ],
   "note": "False: the comment takes the line break with it, and for every section and comment the next entry is read as further values. Harmless when a blank line follows."
  },
  {
   "property": "C24",
   "status": "partial",
   "theorems": [
    "C24_terminates_refuted",
    "C24_hang_cause_partial",
    "C24_unclosed_hangs",
    "C24_even_quotes_partial"
   ],
   "note": "False for an unclosed quote. C24_hang_cause_partial: that is the only cause."
  },
  {
   "property": "C25",
   "status": "partial",
   "theorems": [
    "C25_no_panic_refuted",
    "C25_repeated_key_panics",
    "C25_outcomes_partial",
    "C25_no_panic_partial"
   ],
   "note": "False: a lone dash and a repeated dictionary key panic. C25_outcomes_partial lists all outcomes."
  },
  {
   "property": "C26",
   "status": "proved",
   "theorems": [
    "C26_order",
    "C26_lines",
    "C26_unique"
   ],
   "note": ""
  },
  {
   "property": "C27",
   "status": "proved",
   "theorems": [
    "C27_source",
    "C27_source_suffices"
   ],
   "note": "Also: parsing the kept source again gives the same spec."
  },
  {
   "property": "C15",
   "status": "partial",
   "theorems": [
    "C15_bound_partial",
    "C15_uncounted",
    "C15_engine_partial",
    "C15_counted_refuted",
    "C15_minus_one_refuted"
   ],
   "note": "False for an unlimited repetition inside of a counted one. Proved for all other expressions, in particular all without counted repetition."
  },
  {
   "property": "C16",
   "status": "partial",
   "theorems": [
    "C16_ahead_partial",
    "C16_behind_partial",
    "C16_ahead_width_partial",
    "C16_short_text_refuted",
    "C16_bytes_refuted",
    "C16_edge_refuted",
    "C16_alternative_refuted"
   ],
   "note": "False in four ways (short text before the match, characters of several bytes, next to an edge, alternatives at the top). Proved with these excluded."
  },
  {
   "property": "C53",
   "status": "partial",
   "theorems": [
    "C53_accepted",
    "C53_rejects",
    "C53_edge_refuted",
    "C53_contradiction_refuted"
   ],
   "note": "Every negative lookaround that is tested at all is bounded in every accepted spec. Lookaround that the dissolving drops (next to an edge, or in a contradictory pattern) is not checked."
  },
  {
   "property": "C55",
   "status": "partial",
   "theorems": [
    "C55_ahead_partial",
    "C55_behind_partial",
    "C55_alternative_refuted"
   ],
   "note": "Proved for bodies without alternation at the top, refuted with one."
  },
  {
   "property": "C13",
   "status": "partial",
   "theorems": [
    "C13_partial",
    "C13_undefined_panics",
    "C13_group_refuted",
    "C13_optional_refuted",
    "C13_no_values_refuted"
   ],
   "note": "Proved for pieces between variables that are sequences without capturing groups, and values without ^ $ braces and U+FFFD. False with a capturing group before a variable, which shifts the numbering. Proved that a replacement with an undefined variable panics at the first match. False for an optional variable and for a variable without values. Missing: other quantified variables."
  },
  {
   "property": "C54",
   "status": "proved",
   "theorems": [
    "C54_literal"
   ],
   "note": "Ordinary: not a meta character, not <, and no macro occurs in the text."
  },
  {
   "property": "C28",
   "status": "partial",
   "theorems": [
    "C28_outcomes_partial",
    "C28_no_panic_partial",
    "C28_accepts",
    "C28_kind_refuted",
    "C28_right_refuted",
    "C28_hsl_refuted",
    "C28_hang_refuted"
   ],
   "note": "False: sections of the wrong kind, arrows with nothing on the right, and the HSL parser's own panics and hangs. Proved that there is no other way to panic, and exactly which documents are accepted."
  },
  {
   "property": "C20",
   "status": "partial",
   "theorems": [
    "C20_order_refuted",
    "C20_order_partial",
    "C20_unchanged_refuted",
    "C20_unchanged_partial"
   ],
   "note": "False: the result depends on the order of the map in all four countries, and Russia and Ukraine replace the apostrophe. Proved for words without a key that begins with another key, and for text with neither Latin letters nor (ru, ua) apostrophes."
  },
  {
   "property": "C44",
   "status": "proved",
   "theorems": [
    "C44_repeat",
    "C44_repeat_only_marks",
    "C44_merge",
    "C44_merge_only_vowels"
   ],
   "note": "Exact: also which marks and vowels change. The table of long vowels leaves out some matching pairs, listed in not_long."
  },
  {
   "property": "C45",
   "status": "proved",
   "theorems": [
    "C45_pinyin",
    "C45_kept"
   ],
   "note": "The characters are those of the word after NFC, which is a parameter; invalid bytes become U+FFFD."
  },
  {
   "property": "C56",
   "status": "partial",
   "theorems": [
    "C56_typewriter_partial",
    "C56_empty_refuted",
    "C56_features",
    "C56_reading"
   ],
   "note": "False when a token has an empty pronunciation: the text ends there. Proved for tokens with non-empty valid texts. A space is also put when only auxiliaries stand between the names."
  },
  {
   "property": "C46",
   "status": "proved",
   "theorems": [
    "C46_arguments",
    "C46_bundled"
   ],
   "note": "For every schedule of the reader goroutine. An error or panic of one word ends the process, with the lines before it printed."
  },
  {
   "property": "C47",
   "status": "partial",
   "theorems": [
    "C47_input",
    "C47_lines_partial",
    "C47_lines_refuted"
   ],
   "note": "False: a blank line ends the command and a last line without a newline is lost. Exact for every input in C47_input."
  },
  {
   "property": "C49",
   "status": "proved",
   "theorems": [
    "C49_prints",
    "C49_command",
    "C49_verbose"
   ],
   "note": "For any display width function, even a negative one. C49_command: at every moment, the command has printed one such text for each line, of the traces of that word."
  },
  {
   "property": "C48",
   "status": "proved",
   "theorems": [
    "C48_verdict",
    "C48_coverage_transparent",
    "C48_coverage"
   ],
   "note": "For every run that ends (C06, C28 say when parsing and transcribing panic). An unreadable file is an error of its own. A word that needs a transliterator counts as an empty result: the command installs none. Coverage is a pair of numbers; 0 of 0 is printed as NaN."
  },
  {
   "property": "C57",
   "status": "partial",
   "theorems": [
    "C57_profile_partial",
    "C57_command_partial",
    "C57_text",
    "C57_fields",
    "C57_saved_partial",
    "C57_section_refuted",
    "C57_long_line_refuted",
    "C57_saved_refuted"
   ],
   "note": "False: it panics when a section of rules is missing, or at a line of 64 KiB, and lines of a longer older profile stay in the file. Proved without these."
  },
  {
   "property": "C58",
   "status": "proved",
   "theorems": [
    "C58_no_leak",
    "C58_source_partial"
   ],
   "note": "The library that joins Jamo is a parameter with its laws. C58_source_partial: for any spec with safe rules, a script letter in the result was written by a transcribe rule or joined by the library."
  },
  {
   "property": "C59",
   "status": "proved",
   "theorems": [
    "C59_only_hangul"
   ],
   "note": "The input is meant after transliteration and normalization."
  },
  {
   "property": "C60",
   "status": "proved",
   "theorems": [
    "C60_bundled",
    "C60_files"
   ],
   "note": "For files on which the parser returns (C28 says when it panics). Alignment is proved for the bundled languages, whose names fit in the columns."
  },
  {
   "property": "C61",
   "status": "proved",
   "theorems": [
    "C61_manifest"
   ],
   "note": "The value that is encoded; C74 is about the text."
  },
  {
   "property": "C62",
   "status": "partial",
   "theorems": [
    "C62_dev",
    "C62_bundled_partial",
    "C62_translit",
    "C62_same_refuted"
   ],
   "note": "The first half is proved in general. The second is proved for languages without transliterators (C62_bundled_partial) and fails for the others: dev installs none and ends with an error at the first word (C62_translit, C62_same_refuted)."
  },
  {
   "property": "C63",
   "status": "proved",
   "theorems": [
    "C63_calls",
    "C63_settles"
   ],
   "note": "Exceptions and never settled promises of the JavaScript functions are covered by C63_calls, which says nothing about calls that are not settled. C63_settles asks for transliterators that return a promise that is fulfilled, or rejected with an object."
  },
  {
   "property": "C64",
   "status": "partial",
   "theorems": [
    "C64_rejects_partial",
    "C64_fulfils",
    "C64_rejects_refuted"
   ],
   "note": "Proved for rejections with an object or function. False otherwise: the program ends. The scheme is the first of the spec."
  },
  {
   "property": "C65",
   "status": "proved",
   "theorems": [
    "C65_specs"
   ],
   "note": "The text of the file as bytes; C72 says what becomes of it in JavaScript."
  },
  {
   "property": "C66",
   "status": "partial",
   "theorems": [
    "C66_known_partial",
    "C66_unknown_refuted"
   ],
   "note": "The first half is proved. The second is false: an unknown scheme dereferences a nil interface and ends the program."
  },
  {
   "property": "C67",
   "status": "partial",
   "theorems": [
    "C67_case_partial",
    "C67_case_refuted"
   ],
   "note": "Proved for all bundled languages without a transliterator but Georgian, and all letters but a computed list (case_exceptions, at most 15 per language) and U+01EE. False for a capital C in Serbo-Croatian."
  },
  {
   "property": "C68",
   "status": "proved",
   "theorems": [
    "C68_syntax",
    "C68_search"
   ],
   "note": "The syntax is given as a grammar with a meaning of its own. Limits of the engine on nesting and on the size of repetitions are not modelled. Flags, named groups, word boundaries and Unicode classes are not covered."
  },
  {
   "property": "C69",
   "status": "proved",
   "theorems": [
    "C69_find",
    "C69_positive",
    "C69_none"
   ],
   "note": "Which match is preferred at the leftmost place is not stated. The start of a match counts from what its lookbehind takes."
  },
  {
   "property": "C70",
   "status": "partial",
   "theorems": [
    "C70_shows_partial",
    "C70_rests",
    "C70_late",
    "C70_blank",
    "C70_cleared",
    "C70_cleared_refuted",
    "C70_loading_refuted",
    "C70_blocked_refuted"
   ],
   "note": "Proved if the worker answers every request, for answers that are not empty. False after a failure or an empty transcription, when the page is loading for ever, and after a request that is never answered, which all later inputs wait for. An input that is cleared while no request runs leaves nothing of the word before (C70_cleared); one that is cleared while one runs keeps its answer, which shows for the next word until that is answered or late (C70_cleared_refuted)."
  },
  {
   "property": "C71",
   "status": "partial",
   "theorems": [
    "C71_once_partial",
    "C71_latest_refuted"
   ],
   "note": "The last part is proved. The others are false: inputs that come while a job runs are all asked for when it ends."
  },
  {
   "property": "C72",
   "status": "partial",
   "theorems": [
    "C72_to_go",
    "C72_repaired",
    "C72_from_go_partial",
    "C72_round",
    "C72_round_go",
    "C72_always_text",
    "C72_mended",
    "C72_mark_refuted"
   ],
   "note": "False for text from Go that begins with U+FEFF, which TextDecoder drops. Proved for all other text, and exactly what is lost."
  },
  {
   "property": "C73",
   "status": "partial",
   "theorems": [
    "C73_name",
    "C73_once_partial",
    "C73_bundled",
    "C73_once_refuted",
    "C73_failure_refuted"
   ],
   "note": "False: a method named like a property of every object gets no worker, and a failure is answered with an object that becomes the text <object>. Proved for other names; for the bundled languages without exception, as far as the transliterator of the library returns and the texts do not begin with U+FEFF."
  },
  {
   "property": "C74",
   "status": "proved",
   "theorems": [
    "C74_unique",
    "C74_text",
    "C74_html",
    "C74_manifest"
   ],
   "note": "The grammar of RFC 8259 without numbers and literal names. C74_unique: a text says one thing, so that every correct reader finds the value of C74_text."
  },
  {
   "property": "C75",
   "status": "partial",
   "theorems": [
    "C75_same_partial",
    "C75_answers",
    "C75_shows_partial",
    "C75_mark_refuted"
   ],
   "note": "Proved for words and transliterations that do not begin with U+FEFF, and results that are neither empty nor errors (see C70 for those). False with U+FEFF before a word that is transliterated."
  },
  {
   "property": "C76",
   "status": "proved",
   "theorems": [
    "C76_best"
   ],
   "note": "At most three renderings for each size. A text fits or not depending on the size alone, and in a smaller size if in a larger one."
  },
  {
   "property": "C77",
   "status": "partial",
   "theorems": [
    "C77_serialized",
    "C77_typed",
    "C77_others_partial",
    "C77_others_refuted",
    "C77_start_partial",
    "C77_start_refuted",
    "C77_plain"
   ],
   "note": "What is typed is proved; a surrogate without a partner is read back as U+FFFD, as the URL Standard has it. Other parameters stay unless a link was followed in between: then those of the first address come back. The part about the first visit is false with an empty language in the address: every rendering is in another random language. Proved for all other addresses."
  },
  {
   "property": "C78",
   "status": "partial",
   "theorems": [
    "C78_link_partial",
    "C78_bundled",
    "C78_link_refuted"
   ],
   "note": "False for a word with an ampersand. Proved for text without # % & + and line breaks that does not end in a space or control character, which covers all examples of the bundled languages."
  },
  {
   "property": "C79",
   "status": "proved",
   "theorems": [
    "C79_rewrite",
    "C79_transcribe",
    "C79_log"
   ],
   "note": "C79_log gives the whole log of a traced run; the steps of the rules are described by replacing spans of the parts."
  },
  {
   "property": "C80",
   "status": "proved",
   "theorems": [
    "C80_puncts",
    "C80_hints"
   ],
   "note": "The letters of a pattern are those of C53."
  },
  {
   "property": "C81",
   "status": "proved",
   "theorems": [
    "C81_rules",
    "C81_shown"
   ],
   "note": "C81_rules: for any source. C81_shown: what the trace function gets for a settled call."
  },
  {
   "property": "C82",
   "status": "partial",
   "theorems": [
    "C82_right",
    "C82_left_partial",
    "C82_first_partial",
    "C82_middle_refuted",
    "C82_rejected_refuted",
    "C82_alternative_refuted"
   ],
   "note": "$ and $$ are proved for bodies without an alternation at the top (false with one). ^ is proved for the first match; a later one can start in the middle of a word, exactly where the one before it, or one that a negative lookahead passed over, has ended."
  },
  {
   "property": "C83",
   "status": "proved",
   "theorems": [
    "C83_shown",
    "C83_settles",
    "C83_links"
   ],
   "note": "Between a change of the language and the effect after it the examples of the language before are still shown; the theorem is about the page at rest."
  },
  {
   "property": "C84",
   "status": "proved",
   "theorems": [
    "C84_options",
    "C84_choose",
    "C84_flags"
   ],
   "note": "The search in the list (Fuse) is not modelled."
  },
  {
   "property": "C85",
   "status": "proved",
   "theorems": [
    "C85_separate",
    "C85_many",
    "C85_alone"
   ],
   "note": "The ranges of characters are listed in elsewhere (SeparateFacts.v). A word has to end or begin next to a run with a character that the language speaks about."
  },
  {
   "property": "C86",
   "status": "proved",
   "theorems": [
    "C86_order",
    "C86_given",
    "C86_uses",
    "C86_page",
    "C86_served",
    "C86_translit_order",
    "C86_translit",
    "C86_early_refuted"
   ],
   "note": "C86_page: the answers that C70 and C75 speak of are exactly those that come through the worker; C86_answers_partial is C75_same_partial seen through it. C86_early_refuted: without load first a call is rejected, so the order in spawnWorkers is needed."
  },
  {
   "property": "C87",
   "status": "proved",
   "theorems": [
    "C87_linear",
    "C87_source",
    "C87_bundled"
   ],
   "note": "C87_linear is about the rules the matches of which are in order and not empty; C87_source and C87_bundled show that these are those of balanced sources and of all bundled languages."
  },
  {
   "property": "C88",
   "status": "proved",
   "theorems": [
    "C88_calls",
    "C88_settles"
   ],
   "note": "C88_settles asks for the types of C89. The traces reach the trace function in order; when between two answers is not stated."
  },
  {
   "property": "C89",
   "status": "partial",
   "theorems": [
    "C89_alive",
    "C89_missing",
    "C89_null",
    "C89_refuted"
   ],
   "note": "Proved while the types are kept. False otherwise: a missing argument, and a third argument that is neither undefined nor a function, such as null, end the program."
  },
  {
   "property": "C90",
   "status": "proved",
   "theorems": [
    "C90_shows",
    "C90_thrown",
    "C90_settled",
    "C90_changed",
    "C90_link",
    "C90_page"
   ],
   "note": "C90_shows is about every state at rest; an answer that is empty or a failure shows as in C70. C90_page joins it with C75."
  },
  {
   "property": "C91",
   "status": "partial",
   "theorems": [
    "C91_rests_partial",
    "C91_rests_refuted"
   ],
   "note": "Proved for addresses whose lang is missing or not empty. False for ?lang= : each rendering chooses a language at random, which is a new input, which causes a rendering."
  },
  {
   "property": "C92",
   "status": "partial",
   "theorems": [
    "C92_words",
    "C92_dashes",
    "C92_command",
    "C92_help",
    "C92_kept_partial",
    "C92_kept_refuted",
    "C92_bundled"
   ],
   "note": "False only in that a word that begins with -test. (after letters of flags, too) is dropped without a message, which pflag does for Go's tests: C92_kept_refuted. C92_kept_partial: nothing else is. cobra and pflag are modelled from their published sources, which are not in the repository."
  },
  {
   "property": "C93",
   "status": "partial",
   "theorems": [
    "C93_korean",
    "C93_again",
    "C93_refuted"
   ],
   "note": "Proved but for runs of spaces, each of which becomes one space: C93_korean. False as stated: a zero width space between two spaces is dropped from the result, so that a result can contain two spaces beside each other, which the next call joins (C93_refuted). C93_again: a result of a text of the language and such characters is left alone by every other language, and from the second call on nothing changes; it asks for a result without an apostrophe, which only Dutch writes."
  },
  {
   "property": "C94",
   "status": "proved",
   "theorems": [
    "C94_first",
    "C94_one",
    "C94_ways",
    "C94_find",
    "C94_greedy",
    "C94_lazy"
   ],
   "note": "Ways are stated on the syntax tree by the choices made. C94_ways: they lead to what the expression describes (C68). Rounds of a repetition after the first that match nothing are left out, as documented for the matcher."
  },
  {
   "property": "C95",
   "status": "proved",
   "theorems": [
    "C95_phrase",
    "C95_words",
    "C95_two",
    "C95_transliterated",
    "C95_cyrillic",
    "C95_cyrillic_text",
    "C95_welsh_refuted",
    "C95_middle_welsh_refuted",
    "C95_dutch_refuted",
    "C95_empty_refuted"
   ],
   "note": "C95_welsh_refuted, C95_middle_welsh_refuted, C95_dutch_refuted: the three languages that the property leaves out do transcribe across spaces. C95_empty_refuted: an empty word in the middle takes a space with it. C95_transliterated, C95_cyrillic, C95_cyrillic_text: also with transliterators, for the four Cyrillic ones without assumptions about them."
  },
  {
   "property": "C96",
   "status": "proved",
   "theorems": [
    "C96_mark",
    "C96_sentence",
    "C96_transliterated",
    "C96_cyrillic",
    "C96_semicolon_refuted",
    "C96_commas_refuted"
   ],
   "note": "C96_semicolon_refuted, C96_commas_refuted: the semicolon, which the property leaves out, and two commas vanish and join the words around them."
  },
  {
   "property": "C97",
   "status": "proved",
   "theorems": [
    "C97_lines",
    "C97_words",
    "C97_sentence",
    "C97_transliterated",
    "C97_cyrillic",
    "C97_welsh_refuted",
    "C97_middle_welsh_refuted",
    "C97_dutch_refuted",
    "C97_no_break_refuted"
   ],
   "note": "C97_welsh_refuted, C97_middle_welsh_refuted, C97_dutch_refuted: the three languages that the property leaves out read a line break in another way than a space. C97_no_break_refuted: before a no-break space a German word is not read as one that ends there."
  },
  {
   "property": "C98",
   "status": "proved",
   "theorems": [
    "C98_gaps",
    "C98_sentence",
    "C98_run",
    "C98_transliterated",
    "C98_cyrillic",
    "C98_cyrillic_gaps",
    "C98_cyrillic_sentence",
    "C98_welsh_refuted",
    "C98_middle_welsh_refuted",
    "C98_dutch_refuted"
   ],
   "note": "C98_welsh_refuted, C98_middle_welsh_refuted, C98_dutch_refuted: the three languages that the property leaves out read two spaces in another way than one."
  }
 ]
}