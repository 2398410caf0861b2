{"id": "C01", "title": "Output is always valid UTF-8", "statement": "Whenever Hangulizer.Hangulize returns a string without error, that string is valid UTF-8, even if the input word, the transliterators' output or the spec text contains invalid byte sequences.", "quantifier": "every spec accepted by ParseSpec, every registry of transliterators, every input byte string", "why_tests_cant": "Tests use a handful of well-formed words; ill-formed inputs and rule replacements are an infinite space.", "anchors": ["procedure.go: procedure.forward, procedure.localize", "hangulize.go: hangulizer.Hangulize"]}
{"id": "C02", "title": "Zero-width spaces never leak", "statement": "A string returned by Hangulize never contains U+200B, whatever the input, the transliterators or the rules injected.", "quantifier": "every spec, transliterator registry and input byte string", "why_tests_cant": "The separator can be introduced by input, transliterator, normalization or a rule; tests only cover the pinyin path.", "anchors": ["procedure.go: procedure.localize", "translit/pinyin/pinyin.go: Transliterate"]}
{"id": "C03", "title": "Tracing is transparent", "statement": "Registering a trace function on a Hangulizer never changes the string or error Hangulize returns, nor turns a returning call into a panicking one.", "quantifier": "every spec, registry and word", "why_tests_cant": "Tracing code runs inside every rule application; tests compare only a few words.", "anchors": ["trace.go: tracer, subwordsTracer.RecordSubword, subwordsTracer.Commit", "procedure.go"]}
{"id": "C04", "title": "The trace stream is a faithful log", "statement": "In the sequence of events delivered to the trace function by one Hangulize call: the first event has a non-empty word, no two consecutive events carry the same word, steps appear in the documented order Input, Transliterate, Normalize, Rewrite, Transcribe, Syllabify, Localize, an event names a rule exactly when its step is Rewrite or Transcribe, rules of one step appear in ascending ID, and the word of the last event is the returned string.", "quantifier": "every spec with rule IDs assigned by ParseSpec, registry and word", "why_tests_cant": "Depends on every combination of rules that fire.", "anchors": ["trace.go", "procedure.go: rewrite, transcribe"]}
{"id": "C05", "title": "Every bundled language loads", "statement": "For every name in ListLangs(), LoadSpec returns a spec and neither fails nor panics.", "quantifier": "every bundled language, every map iteration order used while parsing", "why_tests_cant": "Loading iterates Go maps, so a passing run covers one order only.", "anchors": ["specs.go: ListLangs, LoadSpec", "spec.go: ParseSpec", "specs/*.hsl"]}
{"id": "C06", "title": "Bundled languages never panic", "statement": "For every bundled language and every word, Hangulize returns; no rule of a bundled spec can trigger the zero-width-match panic, an index panic, a divide-by-zero panic or a non-terminating search.", "quantifier": "every bundled spec and every input byte string", "why_tests_cant": "A single unlucky word suffices to crash; the word space is infinite.", "anchors": ["pkg/hre/pattern.go: Find", "pkg/hre/rpattern.go: Interpolate", "specs/*.hsl"]}
{"id": "C07", "title": "Text outside the language passes through unchanged", "statement": "A run of characters that are not in the script of the spec, not punctuation used by its rules, and not spaces, and which no rewrite rule matches, comes out of Hangulize exactly as it went in (apart from punctuation localization and U+200B removal).", "quantifier": "every spec and every valid UTF-8 word made of such characters", "why_tests_cant": "Foreign text is an open-ended set of Unicode strings.", "anchors": ["procedure.go: partition, rewrite, transcribe, syllabify, localize"]}
{"id": "C08", "title": "Find returns ordered, disjoint, non-empty, in-bounds matches", "statement": "For a pattern whose expression has balanced brackets, the matches returned by Pattern.Find are non-empty, inside the word, pairwise disjoint, listed from left to right, and start and stop on character boundaries.", "quantifier": "every such pattern, every word, every limit n", "why_tests_cant": "Offsets depend on lookaround, group numbering and multi-byte characters in combination.", "anchors": ["pkg/hre/pattern.go: Pattern.Find, pickStartStop"]}
{"id": "C09", "title": "Find terminates for every accepted pattern", "statement": "For every pattern NewPattern accepts and every word, Find stops.", "quantifier": "every pattern accepted by NewPattern and every word", "why_tests_cant": "Non-termination needs an unanticipated pattern shape.", "anchors": ["pkg/hre/pattern.go: NewPattern, Find", "pkg/hre/assertions.go"]}
{"id": "C10", "title": "Find(word, n) is the first n of Find(word, -1)", "statement": "Limiting the number of matches returns exactly the prefix of the unlimited result; n = 0 returns nothing.", "quantifier": "every pattern, word and n", "why_tests_cant": "Interaction of the limit with rejected negative-lookaround candidates.", "anchors": ["pkg/hre/pattern.go: Find"]}
{"id": "C11", "title": "Rule.Replace equals Pattern.Replace and only touches matches", "statement": "Applying a rule to a word gives the same string as Pattern.Replace(word, To, -1): the matched ranges are replaced by the interpolated text and every byte outside of them is kept in place; a match whose interpolation fails keeps its original text.", "quantifier": "every rule and word", "why_tests_cant": "Two independent implementations must agree for all match layouts.", "anchors": ["rule.go: Rule.Replace, Rule.replacements", "pkg/hre/pattern.go: Pattern.Replace", "internal/subword/replace.go"]}
{"id": "C12", "title": "Accepted patterns never panic at match time", "statement": "A pattern accepted by NewPattern (hence a spec accepted by ParseSpec) never makes Find panic.", "quantifier": "every accepted pattern and word", "why_tests_cant": "The panic depends on the text being matched, long after the pattern was accepted.", "anchors": ["pkg/hre/pattern.go: Find"]}
{"id": "C13", "title": "Variables map by index", "statement": "If the k-th <var> of a replacement is applied to a match whose k-th pattern <var> matched the i-th value, the replacement contributes value number i modulo the number of values of the replacement variable.", "quantifier": "all variable definitions, rules and words in which variables are not nested in lookaround or other groups", "why_tests_cant": "Unbounded choice of variables, positions and words.", "anchors": ["pkg/hre/rpattern.go: Interpolate", "pkg/hre/var.go: expandVars"]}
{"id": "C14", "title": "Letters() is a strictly ascending set", "statement": "Pattern.Letters and RPattern.Letters return every collected character exactly once in ascending order.", "quantifier": "every pattern and replacement", "why_tests_cant": "Set is gathered from a Go map in arbitrary order.", "anchors": ["pkg/hre/pattern.go: Letters", "pkg/hre/rpattern.go: Letters"]}
{"id": "C15", "title": "RegexpMaxWidth bounds every match", "statement": "If RegexpMaxWidth returns w >= 0, no text matched by the expression is longer than w characters; it returns -1 exactly for expressions that repeat something without limit.", "quantifier": "every parsed regular expression and every text", "why_tests_cant": "Infinite set of expressions and texts.", "anchors": ["pkg/hre/width.go: RegexpMaxWidth"]}
{"id": "C16", "title": "Negative lookaround is respected", "statement": "If a pattern starts with {~X} (ends with {~X}), no reported match is immediately preceded (followed) by text matching X.", "quantifier": "every such pattern and word", "why_tests_cant": "Widths are computed in characters but applied to bytes; tests are ASCII.", "anchors": ["pkg/hre/pattern.go: Find", "pkg/hre/assertions.go: dissolveLookaround"]}
{"id": "C17", "title": "^^ matches only at the beginning of the word", "statement": "A match of a pattern beginning with ^^ always starts at offset 0.", "quantifier": "every such pattern and word", "why_tests_cant": "Needs words in which a match is adjacent to a previous match.", "anchors": ["pkg/hre/pattern.go: Find", "pkg/hre/assertions.go: expandEdges"]}
{"id": "C18", "title": "Macro expansion is deterministic", "statement": "Expanding macros gives the same expression on every run, no matter in which order the macro table is iterated, provided no macro name is a prefix of another; without the proviso the result can depend on the run.", "quantifier": "every macro table, every iteration order, every expression", "why_tests_cant": "Go randomizes map iteration, so a passing test run is one sample.", "anchors": ["pkg/hre/macro.go: expandMacros"]}
{"id": "C19", "title": "Spec normalization is deterministic", "statement": "The spec's own character normalization gives the same result on every run whatever the iteration order of the normalize table, provided no source string is a prefix of another one; without the proviso the result can depend on the run.", "quantifier": "every normalize table, iteration order and word", "why_tests_cant": "Go randomizes map iteration.", "anchors": ["spec.go: ParseSpec (normReplacer)", "procedure.go: normalize"]}
{"id": "C20", "title": "Cyrillic transliteration is deterministic", "statement": "The bundled cyrillic transliterators return the same text for the same input on every run, and leave text without Latin letters unchanged.", "quantifier": "all four countries, all map iteration orders, all words", "why_tests_cant": "The replacer is built from a Go map whose iteration order differs per process.", "anchors": ["translit/cyrillic/cyrillic.go: mustNew, Transliterate", "translit/cyrillic/dict.json"]}
{"id": "C21", "title": "HSL round trip", "statement": "Printing a structured document (sections of dictionary entries or ordered pairs with quoted strings) in HSL layout and parsing it gives back the same sections, keys, values and order.", "quantifier": "every document whose strings contain neither quotes, backslashes nor NUL and are valid text", "why_tests_cant": "Unbounded documents and strings.", "anchors": ["pkg/hsl/lexer.go", "pkg/hsl/parser.go: parse, parseValues"]}
{"id": "C22", "title": "HSL ignores own-line comments, blank lines and indentation", "statement": "Inserting blank lines, comment lines or extra spaces between the lines of an HSL document does not change the parsed sections (other than line numbers).", "quantifier": "every printed document and every such decoration", "why_tests_cant": "Infinitely many layouts.", "anchors": ["pkg/hsl/lexer.go: scanComment, scanSpace", "pkg/hsl/parser.go"]}
{"id": "C23", "title": "HSL trailing comments do not change values", "statement": "A comment after the values of an entry on the same line does not change what is parsed.", "quantifier": "every document and comment", "why_tests_cant": "Effect only visible on the following line.", "anchors": ["pkg/hsl/lexer.go: scanComment", "pkg/hsl/parser.go: parseValues"]}
{"id": "C24", "title": "HSL parsing terminates", "statement": "hsl.Parse returns for every input.", "quantifier": "every byte stream", "why_tests_cant": "Infinite inputs; a hang is not observable by example tests.", "anchors": ["pkg/hsl/lexer.go: scanQuotedString", "pkg/hsl/parser.go"]}
{"id": "C25", "title": "HSL parsing reports malformed input as an error", "statement": "hsl.Parse never panics; malformed input gives an error.", "quantifier": "every byte stream", "why_tests_cant": "Infinite inputs.", "anchors": ["pkg/hsl/lexer.go: scanArrow", "pkg/hsl/parser.go: parse"]}
{"id": "C26", "title": "HSL keeps order, uniqueness and line numbers", "statement": "In any successfully parsed document a list section keeps pairs in source order with non-decreasing line numbers, and a dictionary section never holds two entries with the same key.", "quantifier": "every byte stream that parses", "why_tests_cant": "Infinite inputs.", "anchors": ["pkg/hsl/structures.go", "pkg/hsl/parser.go"]}
{"id": "C27", "title": "Spec keeps its source", "statement": "Spec.Source of a successfully parsed spec is a prefix of the text given to ParseSpec and equals it when the text contains no NUL character.", "quantifier": "every source text", "why_tests_cant": "Infinite inputs.", "anchors": ["spec.go: ParseSpec"]}
{"id": "C28", "title": "ParseSpec reports malformed specs as errors", "statement": "ParseSpec never panics; a malformed spec gives an error.", "quantifier": "every source text", "why_tests_cant": "Infinite inputs.", "anchors": ["spec.go: ParseSpec, newRules, newLanguage"]}
{"id": "C29", "title": "Composing decomposed Hangul restores it", "statement": "Writing each syllable of a Hangul text as lead, medial and hyphen-prefixed tail Jamo and composing gives back the text.", "quantifier": "every sequence of Hangul syllables", "why_tests_cant": "11172 syllables and every adjacency between them.", "anchors": ["internal/jamo/jamo.go: ComposeHangul"]}
{"id": "C30", "title": "Composition output is well-formed", "statement": "The result of syllabification contains no hyphen and no isolated modern Jamo coming from Jamo input, keeps every non-Hangul character other than the hyphen in order, and is a fixed point of composition.", "quantifier": "every string", "why_tests_cant": "State machine over arbitrary mixtures of Jamo, syllables and other text.", "anchors": ["internal/jamo/jamo.go: composer.Compose"]}
{"id": "C31", "title": "Composition is local", "statement": "A non-Hangul character separates the text: composing a text equals composing the parts before and after it independently.", "quantifier": "every string and split point", "why_tests_cant": "State of the composer must be reset for all prefixes.", "anchors": ["internal/jamo/jamo.go: composer.Compose"]}
{"id": "C32", "title": "Merging subwords loses nothing", "statement": "Building subwords from pieces keeps the concatenated text, and no two adjacent built subwords have the same level.", "quantifier": "every sequence of pieces with levels 0 or above", "why_tests_cant": "Unbounded sequences.", "anchors": ["internal/subword/builder.go: Builder.Subwords"]}
{"id": "C33", "title": "Replacing keeps text and levels aligned", "statement": "After any sequence of rounds of ordered disjoint replacements, the subwords concatenate to the replaced string, replaced text carries the new level and untouched text its old level; no slice is ever out of range.", "quantifier": "every word, every sequence of rounds of replacements", "why_tests_cant": "Offset arithmetic over arbitrary lengths.", "anchors": ["internal/subword/replace.go: Replacer"]}
{"id": "C34", "title": "Transliterators run in declared order and stop at the first failure", "statement": "Hangulize feeds the word through the spec's transliterators in declared order, each receiving the previous output; if one is not imported or fails, later ones are not called, no rules run, and the error identifies the failing scheme.", "quantifier": "every list of schemes, registry, transliterator behaviour and word", "why_tests_cant": "Arbitrary chains and failures.", "anchors": ["procedure.go: transliterate, forward"]}
{"id": "C35", "title": "Error contract of Hangulize", "statement": "The package-level Hangulize returns the input word together with ErrSpecNotFound for an unknown language, and the empty string together with ErrTranslit or ErrTranslitNotImported for a transliteration failure; otherwise the error is nil.", "quantifier": "every language name, word and registry", "why_tests_cant": "All failure combinations.", "anchors": ["hangulize.go: Hangulize", "procedure.go: forward", "errors.go"]}
{"id": "C36", "title": "The transliterator registry behaves as a map and hands out copies", "statement": "Under any sequence of UseTranslit, UnuseTranslit and Translits calls, with callers modifying the maps they obtained, the registry behaves as a finite map from scheme to the first transliterator added since the last removal; return values say whether the call changed it.", "quantifier": "every history of operations", "why_tests_cant": "Unbounded histories, aliasing.", "anchors": ["translit.go: translitRegistry", "hangulize.go"]}
{"id": "C37", "title": "Install is all-or-nothing", "statement": "translit.Install either adds all standard transliterators and returns true, or returns false and leaves the registry exactly as it was.", "quantifier": "every initial registry", "why_tests_cant": "Every pre-existing subset of schemes.", "anchors": ["translit/translit.go: Install"]}
{"id": "C38", "title": "The spec cache is invisible", "statement": "Under any history of LoadSpec, UnloadSpec and Hangulize calls, the specs and results obtained are the same as if every call parsed the bundled file afresh.", "quantifier": "every history of calls", "why_tests_cant": "Unbounded histories.", "anchors": ["specs.go: LoadSpec, UnloadSpec"]}
{"id": "C39", "title": "Concurrent use", "statement": "Calls of the package-level Hangulize from several goroutines never race on shared maps.", "quantifier": "every schedule of goroutines", "why_tests_cant": "Schedules cannot be enumerated by tests.", "anchors": ["specs.go: specs", "translit.go: defaultTranslitRegistry"]}
{"id": "C40", "title": "Language list", "statement": "ListLangs returns distinct names in ascending order, exactly the names for which a bundled file exists.", "quantifier": "every set of bundled files", "why_tests_cant": "Depends on directory contents.", "anchors": ["specs.go: ListLangs"]}
{"id": "C41", "title": "Localization only touches punctuation", "statement": "Localization keeps every non-punctuation character other than U+200B in order, replaces each punctuation character by its localized form, and never puts a localized space at the start or the end of the text or next to an existing space or punctuation character (the last clause for texts without U+200B).", "quantifier": "every script and string", "why_tests_cant": "All strings and adjacencies.", "anchors": ["procedure.go: localize", "internal/scripts/hrkt.go: LocalizePunct"]}
{"id": "C42", "title": "Latin normalization yields plain lower-case letters", "statement": "Normalizing a Latin letter that decomposes into a basic letter plus marks gives the basic lower-case letter; normalization is idempotent.", "quantifier": "every Unicode character", "why_tests_cant": "Whole repertoire.", "anchors": ["internal/scripts/latn.go: Normalize"]}
{"id": "C43", "title": "Custom normalization targets survive script normalization", "statement": "A letter that a spec names as a target of its normalize section is not altered by per-script normalization.", "quantifier": "every normalize table and letter", "why_tests_cant": "Targets of more than one letter.", "anchors": ["spec.go: ParseSpec (normLetters)", "procedure.go: normalize"]}
{"id": "C44", "title": "Kana helpers keep length and only change what they should", "statement": "Resolving iteration marks and merging long vowels never changes the number of characters, and changes only iteration marks respectively vowel letters following a matching sound.", "quantifier": "every string", "why_tests_cant": "All strings.", "anchors": ["translit/furigana/repeat.go", "translit/furigana/longvowel.go"]}
{"id": "C45", "title": "Pinyin chunks", "statement": "The pinyin transliterator keeps every character without a reading, replaces every other by its first reading, and puts exactly one zero-width space between chunks.", "quantifier": "every reading dictionary and word", "why_tests_cant": "Dictionary and words unbounded.", "anchors": ["translit/pinyin/pinyin.go: Transliterate"]}
{"id": "C46", "title": "CLI with word arguments", "statement": "Running the command with a language and words prints exactly one result line per non-empty word in argument order and then stops, under every scheduling of its reader goroutine.", "quantifier": "every argument list and schedule", "why_tests_cant": "Goroutine interleavings.", "anchors": ["cmd/hangulize/main.go: hangulizeStream, readWords"]}
{"id": "C47", "title": "CLI reading standard input", "statement": "Running the command with only a language prints one result per input line.", "quantifier": "every input stream and schedule", "why_tests_cant": "Line endings, blank lines, interleavings.", "anchors": ["cmd/hangulize/main.go: hangulizeStream, readWords"]}
{"id": "C48", "title": "Spec self-test and coverage", "statement": "The test command fails exactly when some example's result differs from the expected one; the reported rule coverage is never above 100%.", "quantifier": "every list of spec files and examples", "why_tests_cant": "Arbitrary specs.", "anchors": ["cmd/hangulize/test.go", "cmd/hangulize/cover.go"]}
{"id": "C49", "title": "Trace printing never fails", "statement": "Printing any list of trace events terminates normally and pads every word to a column not narrower than the word.", "quantifier": "every list of traces", "why_tests_cant": "Widths of arbitrary words.", "anchors": ["pkg/tracefmt/tracefmt.go: FprintTraces"]}
{"id": "C50", "title": "Transcription does not re-transcribe its own output", "statement": "Text produced by a transcribe rule is never matched by a later transcribe rule.", "quantifier": "every spec and word", "why_tests_cant": "Depends on all rules' patterns.", "anchors": ["procedure.go: transcribe"]}
{"id": "C51", "title": "Rewriting is sequential composition", "statement": "Each subword is rewritten by applying the rewrite rules one after another in spec order, each to the result of the previous.", "quantifier": "every spec and word", "why_tests_cant": "Bookkeeping of levels and buffers for all rule lists.", "anchors": ["procedure.go: rewrite", "rule.go"]}
{"id": "C52", "title": "Partitioning is a faithful split", "statement": "Partitioning a normalized word gives subwords that concatenate to the word, with level 1 exactly on characters that are in the script, rule punctuation or spaces.", "quantifier": "every spec and word", "why_tests_cant": "All strings.", "anchors": ["procedure.go: partition"]}
{"id": "C53", "title": "Unlimited negative lookaround is rejected", "statement": "ParseSpec rejects every rule whose negative lookaround can match unboundedly long text.", "quantifier": "every rule expression", "why_tests_cant": "All expressions.", "anchors": ["spec.go: newRules", "pkg/hre/width.go"]}
{"id": "C54", "title": "Literal patterns find exactly the occurrences", "statement": "A pattern made only of ordinary letters finds the leftmost non-overlapping occurrences of that text, and nothing else.", "quantifier": "every non-empty text of ordinary letters and every word", "why_tests_cant": "All texts and words.", "anchors": ["pkg/hre/pattern.go: NewPattern, Find"]}
{"id": "C55", "title": "Positive lookaround holds at every match", "statement": "Every match of a pattern L{X} is followed by text matching X which is not part of the match, and every match of {X}R is preceded by text matching X.", "quantifier": "every pattern of that shape and word", "why_tests_cant": "All patterns and words.", "anchors": ["pkg/hre/assertions.go: expandLookahead, expandLookbehind", "pkg/hre/pattern.go: Find"]}
{"id": "C56", "title": "The furigana typewriter writes every token", "statement": "The pronunciation of every token that is not a dummy is written once, in order, changed only by merging long vowels, and a space is put exactly between adjacent person names.", "quantifier": "every list of tokens", "why_tests_cant": "All token lists; the tokenizer never produces most of them in tests.", "anchors": ["translit/furigana/typewriter.go: Typewrite, scanMorpheme, interpretToken"]}
{"id": "C57", "title": "Coverage profile", "statement": "Writing the coverage profile after all examples passed gives exactly one line for each rule of each tested file, with the number and length of its source line, marked as covered exactly when an example makes the rule fire.", "quantifier": "every list of spec files, order of the map of names and of the maps in the parser", "why_tests_cant": "Arbitrary specs and line layouts, map orders.", "anchors": ["cmd/hangulize/cover.go: WriteProfile", "cmd/hangulize/test.go"]}
{"id": "C58", "title": "No letter of the source script leaks", "statement": "The result of transcribing a word in a bundled language contains no letter of that language's script.", "quantifier": "every bundled language, word, map iteration order, and set of registered transliterators that succeed", "why_tests_cant": "Every combination of rules can fire on arbitrary words; tests show only words the rules cover.", "anchors": ["procedure.go: transcribe, syllabify", "specs/*.hsl"]}
{"id": "C59", "title": "Only Hangul is written", "statement": "Every character in the result of a bundled language is a complete Hangul syllable, a space, an apostrophe, a character of the normalized input that is foreign to the language's script and rules, or (Japanese) Korean punctuation.", "quantifier": "every bundled language, word, map iteration order, and set of registered transliterators that succeed", "why_tests_cant": "Stray Jamo or hyphens appear only for unlucky combinations of rules.", "anchors": ["procedure.go: transcribe, syllabify, localize", "internal/jamo/jamo.go: ComposeHangul", "specs/*.hsl"]}
{"id": "C60", "title": "The list of languages", "statement": "The command ls without arguments prints a header and one row for each bundled language, in order, with its id, stage, English and Korean names in aligned columns. With file names it prints a row for each file that can be read and parsed, in order, and leaves the others out.", "quantifier": "every list of arguments, contents of the files, and map iteration order; for files that the parser returns from", "why_tests_cant": "Arbitrary files and argument lists, map orders in the parser.", "anchors": ["cmd/hangulize/ls.go: listSpecs", "specs.go: LoadSpec, ListLangs"]}
{"id": "C61", "title": "The manifest", "statement": "The manifest describes each bundled language exactly once, under its own id and with the fields of its spec, and lists each transliterator that a bundled language names exactly once.", "quantifier": "every map iteration order", "why_tests_cant": "Map orders in the parser and in the manifest loop.", "anchors": ["cmd/manifest.json/main.go: main, jsonSpec", "specs.go: LoadSpec, ListLangs"]}
{"id": "C62", "title": "Development command", "statement": "The command dev prints for each word typed what the spec in the named file gives for it, and on the file of a bundled language it prints what the command prints for that language.", "quantifier": "every file, input, schedule of the two goroutines, map iteration order, verbose or not", "why_tests_cant": "Arbitrary inputs and schedules; tests never start the command.", "anchors": ["cmd/hangulize/dev.go", "cmd/hangulize/main.go: hangulizeStream, readWords"]}
{"id": "C63", "title": "Calls from JavaScript", "statement": "The promise of a call from JavaScript is settled with what Hangulize gives for the language and word with the transliterators registered when the call starts running, and the trace function gets the events of that call. If the registered transliterators keep to their contract the program stays alive and every call can be settled.", "quantifier": "every sequence of useTranslit, unuseTranslit and overlapping calls, map iteration order, and behaviour of the JavaScript functions", "why_tests_cant": "Arbitrary interleavings of asynchronous calls; tests make one call at a time.", "anchors": ["cmd/hangulize.wasm/hangulize.go: jsHangulize", "cmd/hangulize.wasm/translit.go", "cmd/hangulize.wasm/main.go"]}
{"id": "C64", "title": "A JavaScript transliterator that fails", "statement": "When the promise a JavaScript transliterator returns is rejected, the call that used it is rejected with an error naming its scheme and the program goes on.", "quantifier": "every rejection value, word, sequence of calls", "why_tests_cant": "JavaScript code can reject with any value.", "anchors": ["cmd/hangulize.wasm/translit.go: Transliterate, promiseTranslit"]}
{"id": "C65", "title": "The specs object", "statement": "The object of specs given to JavaScript has each bundled language exactly once, with the fields of its spec and the text of its file as its source.", "quantifier": "every map iteration order", "why_tests_cant": "Map orders and the reader's buffering in the parser.", "anchors": ["cmd/hangulize.wasm/encode.go", "cmd/hangulize.wasm/main.go", "spec.go: Source"]}
{"id": "C66", "title": "The Cyrillic WebAssembly module", "statement": "The function of the module transliterates with the table of the country its scheme names, and returns an Error for a scheme it does not have.", "quantifier": "every scheme and word, map iteration order", "why_tests_cant": "Arbitrary scheme names come from JavaScript.", "anchors": ["cmd/cyrillic.translit.wasm/main.go", "translit/cyrillic/cyrillic.go"]}
{"id": "C67", "title": "Letter case", "statement": "In a bundled language, changing letters of a word to lower case does not change its transcription, except where the language itself has another letter in lower case.", "quantifier": "every bundled language, every word, map iteration order", "why_tests_cant": "Normalization lower-cases all letters but those it uses as symbols; a mistake there makes names and common nouns be transcribed differently.", "anchors": ["procedure.go: normalize", "replacer.go", "script.go: Normalize", "specs/*.hsl: normalize"]}
{"id": "C68", "title": "Regular expressions mean what they say", "statement": "An expression of characters, escapes, dots, classes with ranges and shorthands, anchors, groups, alternatives and repetitions is accepted with the right number of groups, and a search finds the leftmost place where what the syntax describes is, if there is one.", "quantifier": "every such expression of any size and nesting, and every text", "why_tests_cant": "The patterns of rules are arbitrary regular expressions; they are parsed and searched by the engine below HRE.", "anchors": ["pkg/hre/pattern.go: NewPattern, Find", "pkg/hre/lookaround.go"]}
{"id": "C69", "title": "Matching misses nothing", "statement": "An HRE expression with edges, lookarounds and a body finds everything its parts describe: each match is the leftmost in what the match before it has left, after the last one there is none, and only matches that a negative lookaround forbids are passed over. Otherwise it panics, and its body can match nothing.", "quantifier": "every expression whose parts are regular expressions on their own without groups in the lookarounds and without alternatives at the top of the body, every word", "why_tests_cant": "A rule that misses a place leaves letters untranscribed; tests have a handful of words.", "anchors": ["pkg/hre/pattern.go: Find", "pkg/hre/lookaround.go", "pkg/hre/macro.go"]}
{"id": "C70", "title": "The page shows the transcription of what is typed", "statement": "When the web page has nothing left to do, it shows the transcription of the word typed last and is not loading; with nothing to transcribe it shows nothing. It always comes to rest.", "quantifier": "every sequence of inputs, every schedule of effects, timers and answers of the worker", "why_tests_cant": "Interleavings of renderings, timers and promises cannot be enumerated by tests; the page has none.", "anchors": ["web/src/hangulize/useHangulize.ts: useHangulize", "web/src/components/App.tsx: determineLoadingResult"]}
{"id": "C71", "title": "The worker is asked for the latest word only", "statement": "The page asks the worker for one word at a time, only for the one typed last, and never twice for the same input.", "quantifier": "every sequence of inputs, every schedule of effects, timers and answers of the worker", "why_tests_cant": "The comments in the code promise it; what happens depends on when inputs come.", "anchors": ["web/src/hangulize/useHangulize.ts: hangulizeEffect"]}
{"id": "C72", "title": "Text crosses between JavaScript and Go", "statement": "Text given from JavaScript to Go or from Go to JavaScript arrives as the same text; surrogates without a partner arrive as U+FFFD, and whatever the bytes are, JavaScript gets text.", "quantifier": "every string of UTF-16 code units, every byte string", "why_tests_cant": "Words and transcriptions cross this border twice for each call, and twice more for each transliterator; characters outside of the basic plane and unpaired surrogates are seldom tried.", "anchors": ["web/src/hangulize/wasm_exec.js: loadString, valueToString", "cmd/hangulize.wasm"]}
{"id": "C73", "title": "The transliterators of the page", "statement": "The page starts one worker for each module that the methods in the manifest need, and installs exactly the methods that bundled languages use. Each does what the transliterator of the library of the same scheme does; when it fails, the call is rejected.", "quantifier": "every list of methods, every word, every map iteration order, any dictionary, tokenizer and NFC", "why_tests_cant": "The names of the modules are derived from the methods by a regular expression, and failures come as values of JavaScript.", "anchors": ["web/src/hangulize/translit.worker.ts", "web/src/hangulize/useHangulize.ts: useTranslit", "cmd/cyrillic.translit.wasm/main.go", "cmd/furigana.translit.wasm/main.go", "cmd/pinyin.translit.wasm/main.go"]}
{"id": "C74", "title": "The manifest is JSON", "statement": "What the command manifest.json prints is UTF-8 and JSON by RFC 8259, which says one thing: the version, exactly the bundled languages in order, each with the fields of its spec, and the schemes in use, with no character lost.", "quantifier": "every version text, every map iteration order; for the form, any specs", "why_tests_cant": "The web page parses it; quotes, line breaks and characters that HTML treats specially have to be escaped.", "anchors": ["cmd/manifest.json/main.go"]}
{"id": "C75", "title": "The page transcribes as the library does", "statement": "At rest, the page shows what the function Hangulize of the library returns for the language and the word typed, with the transliterators of the library installed.", "quantifier": "every sequence of inputs and schedule, every bundled language and word, every map iteration order, any dictionary, tokenizer and NFC", "why_tests_cant": "Between the two are a worker, a WebAssembly module, two conversions of text and for some languages a second module.", "anchors": ["web/src/hangulize/useHangulize.ts", "web/src/hangulize/hangulize.worker.ts", "cmd/hangulize.wasm", "hangulize.go: Hangulize"]}
{"id": "C76", "title": "The size of the result", "statement": "After a change of the result or of the window, the component that shows it settles after finitely many renderings on the largest of its text sizes in which the text fits, or on the smallest if none fits, from whatever size it had.", "quantifier": "every number of sizes from three up (the page has five), every earlier size, every text whose width grows with the size", "why_tests_cant": "The search runs over effects of the component; a mistake shows as a loop without an end or a size that is too small for certain widths only.", "anchors": ["web/src/components/Result.tsx"]}
{"id": "C77", "title": "The address of the page", "statement": "Typing a word or choosing a language puts both into the address; they are read back from it as typed, whatever characters they have, also when the page is loaded again from this address, and the other parameters of the address stay as they are. A visit without a language or a word gets an example and keeps it.", "quantifier": "every history of the address, every string of UTF-16 code units", "why_tests_cant": "Percent-encoding, surrogates and parameters given twice; an address can be shared by anyone.", "anchors": ["web/src/components/App.tsx: App, handleChange", "URL Standard", "react-router-dom: useSearchParams"]}
{"id": "C78", "title": "Links of examples", "statement": "Following the link of an example leads to the language and the word of this example, also when the page is loaded again.", "quantifier": "every language and word; all examples of the bundled languages", "why_tests_cant": "The link is put together without encoding; there are thousands of examples, of which five are shown at random.", "anchors": ["web/src/components/Examples.tsx:37"]}
{"id": "C79", "title": "The trace shows what each rule did", "statement": "The trace of a run consists of the input, one event for each transliteration, the normalized word, for each rule the word after it was applied to every part (with a dot for each byte not yet written), the composed syllables and the localized punctuation; events that do not change the word are left out, and there are no others.", "quantifier": "every spec, word, transliterators, and every library for Hangul", "why_tests_cant": "Rules work on parts of the word, part by part, and their records are put together afterwards; tables indexed by part and rule are easy to mix up.", "anchors": ["procedure.go: rewrite, transcribe", "trace.go"]}
{"id": "C80", "title": "Punctuation that is a hint between rules", "statement": "A punctuation mark belongs to a language exactly when a rule looks for it before any rewrite rule, up to that rule itself, writes it. A mark that rewrite rules write as a hint for later rules is not taken from what the user typed.", "quantifier": "every spec source", "why_tests_cant": "Marks of the language are handed to the rules as part of a word; others split the word and are kept as they are.", "anchors": ["spec.go: collectPuncts"]}
{"id": "C81", "title": "The rules of a trace are lines of the file", "statement": "The sections rewrite and transcribe become rules one by one, in order. When JavaScript traces a call, an event names a rule exactly in the steps Rewrite and Transcribe, by the number and the two sides of an entry of that section of the language file.", "quantifier": "every spec source; every schedule of calls, every bundled language and word", "why_tests_cant": "The playground and the debugging of specs rely on the number and on both sides.", "anchors": ["spec.go: newRules", "cmd/hangulize.wasm/encode.go: jsTrace", "cmd/hangulize.wasm/main.go"]}
{"id": "C82", "title": "Where words begin and end", "statement": "A pattern that ends in $ only matches up to the end of a word, that is, before white space, before {} or at the end of the text; one that ends in $$ only up to the end of the text. A pattern that starts with ^ only matches from the beginning of a word. The white space and the braces are not a part of the match.", "quantifier": "every pattern with balanced brackets, every text", "why_tests_cant": "The documentation of the package says so: in HRE an edge stands for a word, not only for the string. Most rules for endings depend on it.", "anchors": ["pkg/hre/assertions.go: expandEdges", "pkg/hre/pattern.go: Find"]}
{"id": "C83", "title": "Examples on the page", "statement": "When the page has come to a rest, it shows five examples of the language, or all of them if there are fewer, none twice; it does come to a rest. The link of each leads to the language and to the word.", "quantifier": "every sequence of languages, renderings, effects and clicks; all bundled languages", "why_tests_cant": "The component keeps track of the language in a ref to hide a dependency from React; the examples of the language before would have links to the wrong language.", "anchors": ["web/src/components/Examples.tsx", "web/src/components/App.tsx: App"]}
{"id": "C84", "title": "Languages to choose from", "statement": "When the page has come to a rest, there is exactly one option for each language, in the order of the Korean names, languages of the same name in the order of the specs. Each bundled language has a flag, and choosing it leads to this language and keeps the word; the page never asks for a language that it does not know.", "quantifier": "every specs, every sequence of renderings and effects; all bundled languages, every address and word", "why_tests_cant": "The page throws on a language without a spec, and nothing is left of it then. Flags and specs are kept in different files.", "anchors": ["web/src/components/SelectLanguage.tsx", "web/src/components/flags.json", "web/src/components/App.tsx:42-45"]}
{"id": "C85", "title": "Text in another script separates words", "statement": "A run of digits or of letters of other scripts (Hebrew, Arabic, Devanagari, Thai, kana, Chinese characters, Hangul, emoji) is left as it is, and the words before and behind it come out as each does alone, however many runs there are.", "quantifier": "every bundled language that needs no transliterator, every text, every number of runs, every iteration order of the maps and every Hangul library", "why_tests_cant": "Mixed text is common input. The rewriting rules also run on foreign parts, and normalization on the whole text, so a rule could reach across or change what is not of the language.", "anchors": ["procedure.go: normalize, partition, rewrite, transcribe, localize", "specs/*.hsl"]}
{"id": "C86", "title": "The workers serve the page in order", "statement": "The worker takes the messages of the page in the order they were sent, does nothing with the module before it is ready, and loses none: when it has nothing left to do, all have been served. So each transliterator is there before the first call, and the answers of the module are those the page was promised. A worker of a transliterator that was told to load answers every call with its module, in order.", "quantifier": "every sequence of messages, every moment at which a module gets ready, every interleaving with the goroutines of calls", "why_tests_cant": "The page sends calls while the modules of several megabytes are being loaded. A call that overtakes useTranslit or load would be rejected.", "anchors": ["web/src/hangulize/hangulize.worker.ts", "web/src/hangulize/runWebAssembly.ts", "web/src/hangulize/translit.worker.ts", "web/src/hangulize/useHangulize.ts: spawnWorkers"]}
{"id": "C87", "title": "The size of the result is linear in the size of the word", "statement": "For each spec the result has at most k bytes for each byte of the word, and k more, where k depends on the spec and on how much the transliterators it declares may write, but not on the word, the state, the trace or the Hangul library.", "quantifier": "every spec the patterns of which have balanced brackets, every bundled language, every word, every registry, every iteration order of the maps", "why_tests_cant": "Rules write the result of others and rewrite it again, and foreign parts run through them too: rules could make a short word fill the memory of a server.", "anchors": ["procedure.go", "rule.go: replacements", "pkg/subword/replace.go", "jamo.go: ComposeHangul", "pkg/hre/rpattern.go: Interpolate"]}
{"id": "C88", "title": "Calls that wait do not disturb each other", "statement": "Any number of calls may wait for transliterators at the same time, and these may answer in any order. Each call is settled as the package function settles it with the transliterators registered when it began, if they give at once the answers this call got: it uses exactly these answers and asks the same functions with the same words. If the page keeps to the types, every call is settled once it runs and its transliterators answer.", "quantifier": "every sequence of calls, registrations, starts of goroutines and answers, every bundled language, every iteration order of the maps", "why_tests_cant": "The page asks for the next word while a transliterator works on the last. An answer that reached the wrong call would show a wrong word.", "anchors": ["cmd/hangulize.wasm/hangulize.go", "cmd/hangulize.wasm/translit.go", "procedure.go: transliterate"]}
{"id": "C89", "title": "Arguments from JavaScript do not end the program", "statement": "Whatever arguments hangulize and useTranslit are called with, the program goes on to serve other calls: as long as they have the documented types, and also when one is missing or of another type.", "quantifier": "every sequence of calls with any arguments", "why_tests_cant": "A panic in one goroutine ends the whole module, and with it all calls that wait.", "anchors": ["cmd/hangulize.wasm/hangulize.go: jsHangulize", "cmd/hangulize.wasm/translit.go: jsUseTranslit, jsUnuseTranslit"]}
{"id": "C90", "title": "What the page shows belongs to its address", "statement": "Whenever the page has come to a rest, the language and the word in the prompt, the title and the result belong to its address: the language is that of the address, the word is that of the address or empty, and the result is the answer to them. After a word is typed, a language chosen or a link followed, the page comes to show the result for the new language and word, the one that Hangulize returns. The page throws for languages it does not know, and only for them.", "quantifier": "every sequence of typing, choosing, links, history, renderings, effects, answers and timers, every address", "why_tests_cant": "The page keeps what is typed in the address, in states of a hook, in refs and in an object it changes in place; any of them may lag behind the others.", "anchors": ["web/src/components/App.tsx: App", "web/src/components/Prompt.tsx: Prompt", "web/src/hangulize/useHangulize.ts: useHangulize"]}
{"id": "C91", "title": "The page comes to a rest", "statement": "When nobody does anything, the page makes a bounded number of renderings, effects and requests, wherever it is.", "quantifier": "every state of the page that can be reached, every address", "why_tests_cant": "Effects that set a state or the address cause renderings, which cause effects. A page that never rests uses up the battery and floods the worker.", "anchors": ["web/src/components/App.tsx: App", "web/src/hangulize/useHangulize.ts: useHangulize"]}
{"id": "C92", "title": "Arguments of the command", "statement": "The language and the words reach the transcription in their order, whatever they look like after --, and with traces exactly when the last flag for them says so, wherever the flags stand. The first argument that is no flag and names a command runs it with the others. No argument is dropped but flags of the command; an argument that looks like a flag and is none is an error. No bundled language has the name of a command.", "quantifier": "every list of arguments, every spelling of the flags, every bundled language", "why_tests_cant": "Words to transcribe may look like flags or be named like commands; a word that disappears shifts the lines of the output.", "anchors": ["cmd/hangulize/main.go", "cmd/hangulize/ls.go", "cmd/hangulize/dev.go", "cmd/hangulize/test.go", "cmd/hangulize/version.go"]}
{"id": "C93", "title": "Transcribing a result again", "statement": "A result that is transcribed again stays as it is: Hangul, digits, other scripts and spaces pass through every bundled language without a transliterator unchanged.", "quantifier": "every text of Hangul syllables, digits and letters of scripts of no such language, and spaces; every result of such characters; every bundled language without a transliterator", "why_tests_cant": "Titles are transcribed in bulk and more than once, and already contain Korean; a second call must not spoil what is there.", "anchors": ["procedure.go: procedure.forward", "hangulize.go: Hangulize"]}
{"id": "C94", "title": "Of several ways to match, the preferred one is found", "statement": "The match begins as far left as any. Of the ways to match there, it is the one whose first choice that differs is preferred: an earlier alternative before a later one, another round of a greedy repetition before its end, the end of a lazy one before another round. The ends of the match and its groups, which rules replace and capture, are those of this way.", "quantifier": "every expression, every text; every pattern, every word", "why_tests_cant": "Rules depend on it: a|ab never matches ab, [ae]+ takes the whole run, and captures decide what is written.", "anchors": ["pkg/hre/pattern.go: Pattern.Find", "spec.go"]}
{"id": "C95", "title": "A phrase is transcribed word by word", "statement": "The result for words with a space between them is the results for the words with a space between them, in every bundled language without a transliterator whose rules say nothing about spaces (all but Welsh, Middle Welsh and Dutch, whose rules join words), and in those with a Cyrillic transliterator. A word between two others with an empty result takes one of its spaces with it.", "quantifier": "every list of words made of characters of the language that are not spaces, every such language", "why_tests_cant": "All phrases, against all rules of a language; the tests have single words mostly. A letter of one word must not change how the next one is heard, and lists of words may be transcribed in one call or one by one.", "anchors": ["pkg/hre/pattern.go: Pattern.Find", "pkg/hre/assertions.go: expandLookaround, expandEdges", "rule.go: Rule.replacements", "procedure.go: procedure.rewrite, procedure.transcribe, procedure.syllabify"]}
{"id": "C96", "title": "Punctuation stays where it is", "statement": "In every bundled language without a transliterator, and for Cyrillic text in the four languages with a Cyrillic one, marks with at most one comma among them (full stop, colon, question and exclamation marks, quotes, brackets, slashes and so on; not the semicolon, and not the hyphen and apostrophe, which are letters in some languages), stay between the results for what is before and behind them; and a sentence of words with such marks before and behind them comes out as the results for the words with the same marks and spaces, if none of them is empty and the language transcribes word by word.", "quantifier": "every text before and behind a mark, every list of words with marks, every such language", "why_tests_cant": "All sentences, against all rules of a language, each of which may look at marks. A mark that vanishes joins two words, and one that is read as a letter changes them.", "anchors": ["procedure.go: procedure.partition, procedure.rewrite, procedure.transcribe, procedure.localize", "spec.go: collectPuncts", "specs/ita.hsl"]}
{"id": "C97", "title": "Tabs and line breaks are read as spaces", "statement": "Two texts that differ only in which of tab, line feed, form feed, carriage return and space stand in the same places have the same result, in every bundled language without a transliterator but Welsh, Middle Welsh and Dutch, and for Cyrillic text in those with a Cyrillic one; so words on lines of their own come out as a phrase with spaces. In the languages without a transliterator the texts may contain punctuation (C96). A no-break space is not such a space.", "quantifier": "every text of characters of the language and spaces, every such language", "why_tests_cant": "All texts with tabs and line breaks in any place; the tests have none. A word at the end of a line must sound as it does before a space.", "anchors": ["pkg/hre/assertions.go: expandEdges", "procedure.go: procedure.normalize, procedure.partition, procedure.syllabify", "rule.go: Rule.replacements"]}
{"id": "C98", "title": "Spaces beside each other are read as one", "statement": "However many spaces, tabs and line breaks stand beside each other, the result is the one for a single space in their place, at the ends of a text as well as between words, in every bundled language without a transliterator but Welsh, Middle Welsh and Dutch, and for Cyrillic text in those with a Cyrillic one.", "quantifier": "every text of characters of the language, spaces, tabs and line breaks, also with punctuation between pieces of it, any number of gaps at once, every such language", "why_tests_cant": "All texts with runs of any length in any place; the tests have none. Neither the number of spaces nor an indented line may change how the words sound, or widen the result.", "anchors": ["procedure.go: procedure.transcribe, procedure.syllabify", "pkg/hre/assertions.go: expandEdges", "rule.go: Rule.replacements"]}
