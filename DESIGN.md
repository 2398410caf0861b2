# Design

A machine-checked model of hangulize/hangulize (Go, `/repo`, pinned) in Coq 8.16.1,
and proofs of the properties listed in `properties.jsonl`. `MANIFEST.json` says which
theorem settles which property, `seeded/LOG.jsonl` how the theorems were tested
against wrong programs.

## 1. Shape of the development

All files live in `rocq/theories`. Models and proofs are in different files. The
property theorems are in files named `Prop*.v`, with `Print Assumptions` under each
of them and `Example`s showing that the hypotheses can be met by non-trivial cases.

### Models

Every definition cites the file and lines in `/repo` it models.

| file | models |
|------|--------|
| `GoBase.v` | outcomes of Go functions, byte strings, indexing and slicing with panics |
| `Utf8.v` | `range` over a string, `[]rune`, `utf8.DecodeRuneInString`, `WriteRune` |
| `UniTables.v` (generated), `Unicode.v` | `unicode.IsSpace/IsPunct/IsLetter/IsDigit/IsMark/Is(script)`, `ToLower`, first character of the NFD decomposition |
| `Replacer.v` | `strings.NewReplacer`, `strings.Replace`, `strings.Trim…` |
| `Regex.v`, `RegexParse.v` | the part of `regexp` and `regexp/syntax` that HRE uses |
| `Hre.v` | `pkg/hre` |
| `Hsl.v` | `pkg/hsl` |
| `Subword.v`, `Jamo.v` | `internal/subword`, `internal/jamo` |
| `Scripts.v` | `internal/scripts`, `script.go`, `space.go` |
| `Rule.v`, `Spec.v` | `rule.go`, `spec.go` |
| `Procedure.v` | `procedure.go`, `trace.go` |
| `Api.v` | `hangulize.go`, `specs.go`, `translit.go`, `translit/translit.go` |
| `Concurrent.v` | the package-level `Hangulize` called by several goroutines |
| `Translit.v`, `CyrDict.v` (generated) | `translit/cyrillic`, `translit/furigana`, `translit/pinyin` |
| `Tracefmt.v` | `pkg/tracefmt` |
| `Cli.v` | `cmd/hangulize/main.go`: the loop over the words and its goroutine |
| `TestCmd.v` | `cmd/hangulize/test.go`, `cmd/hangulize/cover.go` |
| `Tools.v` | `cmd/hangulize/ls.go`, `cmd/hangulize/dev.go`, `cmd/manifest.json` |
| `Wasm.v` | `cmd/hangulize.wasm`, `cmd/cyrillic.translit.wasm`: calls from JavaScript as events |
| `Web.v` | `web/src/hangulize/useHangulize.ts`, `determineLoadingResult` of `web/src/components/App.tsx`: a transition system of renderings, effects, timers and promises |
| `JsText.v` | `web/src/hangulize/wasm_exec.js`: strings between JavaScript and Go (TextEncoder, TextDecoder) |
| `WebResult.v` | `web/src/components/Result.tsx`: the search for the text size |
| `WebUrl.v` | `web/src/components/App.tsx`: the address of the page, `web/src/components/Examples.tsx`: links; `URLSearchParams` and queries of the URL Standard, `useSearchParams` and `Link` of react-router-dom 6.6 |
| `WebParts.v` | `web/src/components/Examples.tsx`: the component; `web/src/components/SelectLanguage.tsx`: the options; `flags.json`; `_.sampleSize` and `_.sortBy` of lodash 4.17 |
| `WebApp.v` | `web/src/components/App.tsx` and `Prompt.tsx` as a whole: renderings, effects, the address, the hook, what the user does |
| `Args.v` | `cmd/hangulize`: arguments, flags and the choice of the command; the part of cobra 1.6 and pflag 1.0.5 it uses |
| `WebTranslit.v` | `web/src/hangulize/translit.worker.ts`, `useTranslit` in `useHangulize.ts`, `cmd/*.translit.wasm` |
| `WasmCalls.v` | `cmd/hangulize.wasm` in smaller steps: a call gives way while a transliterator works; missing arguments, arguments of other types, trace functions that throw |
| `WebWorker.v` | `web/src/hangulize/hangulize.worker.ts`, `runWebAssembly.ts`, and `translit.worker.ts` as a transition system: messages, microtasks, the moment the module is ready |
| `Json.v` | the text that `cmd/manifest.json` prints, with the part of `encoding/json` it needs |
| `BString.v`, `Bundled1.v`–`Bundled8.v` (generated), `Bundled.v` | the text of `specs/*.hsl`, byte for byte |

The generated files come from `tools/gen_bundled.py` (from `/repo/specs`),
`tools/gen_cyrillic.py` (from `/repo/translit/cyrillic/dict.json`) and `tools/uni.pl`
(from the Unicode Character Database that comes with Perl, cut to the characters of
Unicode 13.0).

### Facts

`Utf8Facts`, `SubwordFacts`, `LocalizeFacts`, `ScriptFacts`, `JamoFacts`,
`ReplacerFacts`, `SpecOrder`, `LettersFacts`, `CaseFacts`, `SeparateFacts` are about single packages. `RegexSpec`
says what a regular expression means, independently of the matcher; `RegexFacts` and
`CaptureFacts` prove the matcher against it; `FindFacts` and `RuleFacts` are about
`Find` and about rules over compiled patterns. `ParseFacts`, `ReplaceFacts`,
`SourceFacts`, `PatternFacts`, `SrcFacts`, `FindSrc`, `WidthFacts`, `LookFacts` lead
from the text of an HRE expression to the expression that is searched; `VarFacts`,
`VarParse`, `VarMatch` do so for variables. `HslFacts`, `HslInv` are invariants of the
HSL lexer and parser; `HslDoc` describes HSL documents independently of them and
`HslLayout` proves that every layout of a document is read back. `ProcFacts`,
`ProcSem`, `ProcLocal`, `MaskFacts`, `ProcChars` are about the procedure; `ApiFacts`,
`TranslitFacts`, `CliFacts` about the rest. `WordFacts`, `WordScan`, `WordRules`,
`WordProc`, `WordSpec` follow a phrase from the matcher to the result; `WhiteFacts` does so for
texts with other white space in the place of spaces.

## 2. Modelling conventions

* A Go `string` is a `list N` of bytes. Nothing restricts the numbers to be below
  256 except where a theorem says so; theorems therefore hold for more than Go's
  strings, never for fewer.
* A Go function that can fail or panic returns `Ok v`, `Err e`, `Panic p` or
  `Hang`. `Hang` is used where the Go code loops for ever (for example the lexer
  inside an unterminated quotation). Recursion that is not structural runs on fuel;
  running out of fuel is a separate result, `NoFuel`, and theorems prove that it does
  not happen. `Unmodelled` is the result of the regexp parser on syntax outside of the
  modelled part; theorems about bundled specs prove that it does not happen there, and
  theorems about arbitrary specs count it neither as an error nor as a success.
* Error values keep their kind, not their text.
* A Go map is an association list with distinct keys; its list order *is* the
  iteration order the Go runtime chose. "For every iteration order" is "for every
  permutation of the list". `choices` (`Spec.v`) collects what the runtime chooses
  while a spec is parsed: those orders and how far `bufio.Reader` has read ahead.
* Goroutines are state machines with an explicit step relation; a theorem about them
  ranges over all interleavings.
* External libraries are either modelled concretely (the regexp part, strings.Replacer,
  utf8, unicode tables) or are parameters of the theorem: transliterators with a state
  of the outside world, the Kagome tokenizer, the go-pinyin dictionary, NFC
  normalization, the display width of go-runewidth. `go_hangul` is a record of
  functions; theorems assume the laws `hangul_laws` (`JamoFacts.v`), and
  `go_hangul_satisfies_laws` shows that a concrete implementation written from the
  documentation of the package has them.

## 3. Properties and how they are proved

| property | what is modelled | how |
|---|---|---|
| C01, C02 | whole `forward` | every byte of the result is written by `localize` through `WriteRune`; UTF-8 encode/decode lemmas |
| C03, C04 | `procedure.go` with a tracer state | the traced run is related to the untraced run by simulation; invariants over the event list |
| C05, C06 | bundled sources as data, whole parser and compiler | reflection: a decidable safety criterion on compiled rules is proved sound for all words, then evaluated on the bundled specs |
| C07 | whole `forward` | symbolic execution lemma per step; the text outside the language separates independent parts |
| C08–C12, C16, C17, C53–C55 | `pkg/hre` over a leftmost-first regex engine | meaning of expressions, soundness of the matcher, the text of an expression parsed piece by piece, induction over `Find`; false claims refuted by witnesses |
| C13 | `expandVars`, `Interpolate` | the groups of the expanded expression are those of the variables |
| C14 | `Letters` | insertion sort of a duplicate-free list is strictly ascending |
| C15 | `RegexpMaxWidth` | induction on the expression; refutation for nested unlimited repeats |
| C18–C20 | `strings.Replacer` as earliest-argument-wins | permutation invariance when no key is a prefix of another; witnesses otherwise |
| C21–C26 | lexer and parser | induction over printed documents; progress measure; invariants over the token loop; witnesses |
| C27, C28 | `ParseSpec` | case analysis; witnesses |
| C29–C31 | composer state machine | simulation with a chunk-level specification |
| C32, C33, C51, C52 | `internal/subword` and its use | list induction |
| C34, C35 | `transliterate`, `forward`, `Hangulize` | induction over the scheme list |
| C36–C38 | registry, cache | refinement to finite maps over operation lists |
| C39 | map accesses of goroutines | reachable bad state (refutation), invariant for the read-only phase |
| C40 | `ListLangs` | sorting |
| C41–C43 | `localize`, `Normalize` | list induction, finite sweep over the table lifted by a lemma |
| C44, C45, C56 | furigana helpers and typewriter, pinyin | list induction |
| C46, C47 | two-goroutine command | invariant over all schedules |
| C48, C57 | test command, coverage profile | list induction |
| C49 | trace printing | list induction |
| C58, C59 | whole `forward`, bundled sources | invariant on the characters of each level of subword; the texts of the bundled rules are checked by computation |
| C60, C61 | `ls`, the manifest | list induction; the bundled specs are checked by computation |
| C62 | `dev` | simulation with the command for a language |
| C63, C64 | calls from JavaScript | invariant over all sequences of events |
| C65, C66 | the objects handed to JavaScript | list induction |
| C67 | letter case | normalization character by character; computed for the bundle |
| C68 | regexp/syntax and the search | a grammar with its meaning; mutual induction over its derivations |
| C69 | `Find` | induction over the scan; completeness of the matcher |
| C70, C71 | the hook of the web page | invariant over all schedules; a measure that every step decreases; witnesses |
| C72 | TextEncoder, TextDecoder | UTF-16 as a relation; invariant on the state of the decoder |
| C73 | workers and modules of the page | list induction; the schemes of the bundle by computation |
| C74 | `encoding/json` | the grammar of RFC 8259 as relations; mutual induction |
| C75 | page, worker and module together | C63, C70, C73 put together |
| C76 | `Result.tsx` | the search as a relation; measure on the interval |
| C77 | the address of `App.tsx` | invariant of all histories; decoding undoes encoding |
| C78 | links of `Examples.tsx` | the same for text that needs no encoding; the examples of the bundle are checked |
| C79 | the tracer and its records | the table of records by part and rule as an invariant |
| C82 | edges of patterns | induction over the scan; the meaning of the edges of C69 |
| C83 | `Examples.tsx` | invariant of all histories; a measure |
| C84 | `SelectLanguage.tsx`, `flags.json` | stable sorting; C77; flags of the bundle by computation |
| C85 | text in other scripts, digits, punctuation | C07; a check of each bundled spec that no rule can match it |
| C86 | workers: messages, microtasks, module | invariant of a transition system; C63, C75 |
| C87 | size of the result | sizes of replacements, of each step, product over the rules |
| C88, C89 | calls that wait, arguments | invariant: the rest of a call is a part of a run with scripted transliterators |
| C90, C91 | the page as a whole | invariant of all histories; C70, C75, C77, C78; a measure |
| C92 | the arguments of the command | relations for spellings and for what is kept; C46 |
| C93 | transcribing a result again | C85, C59; a check of each bundled spec that no rule can match a space |
| C94 | the preferred match | a list of all ways in their order that the matcher tries one by one, by induction over the expression; for repetitions over the text |
| C95 | phrases | the ways to match (C94) on a phrase; cells with levels through all rules; a check of each bundled spec; keys of the Cyrillic tables have no spaces |
| C96 | punctuation | C85, C95, C20; how many commas a text must have that a rule matches among other marks: at least two, in each bundled spec |
| C97 | line breaks | C95, C20; which expressions tell one white character from another (`even`, `WhiteFacts`), computed for each bundled spec |
| C98 | runs of spaces | C95, C97, C20 |
| C80, C81 | `collectPuncts`, `newRules`, `jsTrace` | list induction; C63 |
| C50 | `transcribe` | invariant on the NUL mask; refutation for patterns that match NUL |

A property that is false of the code is kept as stated, refuted by a theorem named
`…_refuted` with an explicit witness, and accompanied by the strongest true
restriction that could be proved (named `…_partial`).

## 4. Trusted base

* Coq 8.16.1's kernel, including its virtual machine (`vm_compute`).
* No axioms: `Print Assumptions` is printed under every property theorem and says
  "Closed under the global context" for each of them. (Modules of the standard library
  that are loaded bring the axioms of `Coq.ssr.ssrunder` into the environment, which a
  listing of the whole environment shows; no theorem uses them.)
* The reading of the Go code: every definition cites the file and lines it models.
* The reading of the Go standard library and of the other packages, whose sources are
  not in the sandbox: `regexp`, `strings`, `unicode`, `unicode/utf8`, `bufio`,
  `sort`, `embed`, `encoding/json`, go_hangul; of ECMAScript and the Encoding Standard.
* The generators in `tools/` for the data they write.

As a check of the model, not as a proof, the examples in the `test:` sections of the
bundled specs have been run through it: all of them come out as the specs say, for the
37 languages that need no transliterator from outside of the model.

### Modelled

Everything in the packages of section 1, except as follows.

### Not modelled

* `cmd/hangulize`: the texts of the help, of versions and of errors; cobra's own commands `help` and
  `completion`; `version.go`. cobra and pflag are not in `/repo`: `Args.v` is a reading of their
  published sources, and trusted as such.
* `cmd/cyrillic.translit.wasm`: missing arguments or arguments of other types.
* `cmd/hangulize.wasm`: in `Wasm.v`, which C63 to C65 and the page use, a call is one step from its
  start to its end, apart from the loading of the spec. `WasmCalls.v` (C88, C89) has the smaller
  steps, but a goroutine does not give way in a trace function that returns.
* `web/`: everything but `useHangulize.ts`, `hangulize.worker.ts`, `translit.worker.ts`,
  `runWebAssembly.ts`, the strings of
  `wasm_exec.js`, `Result.tsx` without what it draws, `Examples.tsx`, the options of
  `SelectLanguage.tsx` without the search, `Prompt.tsx`, and `App.tsx` without what it draws. In
  `WebApp.v` the effects of a rendering run before the user does anything else. The browser and react-router keep
  the query of a link either as written or as a URL has it; both are covered. React is modelled as far as the head of
  `Web.v` says; the second invocation of effects in its development mode is not. Comlink
  carries calls and values unchanged and in order (HTML: message ports); the modules can be loaded and do not panic.
* `pkg/hre/pattern.go:138-153` and other methods that only return a field, `String`
  methods except those the traces print, `doc.go`, the tests.
* `regexp`: flags `(?i)`, named groups, `\Q…\E`, `\b`, `\B`, `\p`, `[[:posix:]]`,
  octal and hexadecimal escapes (the parser gives `Unmodelled`). Its limits on
  the size of a program and on nesting are not modelled either.
* The texts of comments in HSL (dropped by the parser) and of error messages.
* Running out of memory, and writes that fail, except where a theorem speaks of them.
* A caller that writes into a `*Spec` it was given, or into the exported `Rules` of
  one: specs are values in the model.
* The files named in the arguments of the command `test` do not change while it runs.
* After a panic the model's tracer is the one before the phase that panicked.

## 5. What the proofs brought to light

False properties are refuted in the theorems named in `MANIFEST.json`. In words:

* HRE. `expandEdges` replaces `^` and `$` inside of character classes and after a
  backslash too. An alternation at the top of a
  pattern splits edges and lookaround off to one side (C16, C55). `Find` searches
  `word[offset:]`, so that `^^` and lookbehind take the text after the last match for
  the beginning (C17); so does `^` for the beginning of a word (C82). Negative lookaround: its width in characters is applied to
  bytes, and it is not tested near the beginning of the word (C16); next to an edge it
  is dropped without a width check (C16, C53). Positive lookaround next to an edge
  makes a pattern that never matches. Brackets inside of character classes shift the
  groups: spans in the wrong order, endless loops, panics (C08, C09, C12). A pattern
  that can match nothing panics on some words (C12). `RegexpMaxWidth` returns a
  negative number other than -1 for `(a*){2}` (C15). A capturing group shifts the
  variables (C13); an undefined or empty variable in a replacement panics; a value that
  is not found indexes with -1.
* HSL. A trailing comment joins the next line to the current one (C23). An unclosed
  quote never ends (C24). A lone dash and a repeated key panic (C25). NUL ends the
  document. A backslash cannot be written; an empty section leaves no trace; the first
  pair decides the kind of a section.
* Specs. A section of the wrong kind panics, as does a rule with nothing on the right
  (C28). Only the first letter of a normalization target is exempted (C43). Ambiguous
  macro or normalization tables depend on the map order (C18, C19). The key is
  `authors`, not `author`.
* Procedure. A dot in a transcription rule matches the mask of earlier output (C50).
  Eight Latin letters need two normalizations (C42). Normalization does not lower-case
  the first letter of a target, so that a capital C is read as č in Serbo-Croatian:
  Crna Gora is 치르나 고라, not 츠르나 고라 (C67). Portuguese normalizes ê to é and Ê to
  ê. Georgian Mtavruli capitals are not normalized. U+200B next to punctuation leaves
  a space (C41); between two spaces it leaves both, which transcribing the result again joins (C93). Rules that use
  `;` as a sign between each other also remove the semicolons of the text, and join the words around
  them: in Italian `ma;no` is 마노; so do two commas (C96).
  A no-break space is a space to the phases but no end of a word to the rules: in German
  `Hund alt` is 훈트 알트, with a no-break space 훈드 알트. In Welsh, Middle Welsh and Dutch a line
  break is read otherwise than a space, in the other languages without furigana it is not (C97); the same for
  two spaces and one (C98).
* Cyrillic transliteration depends on the map order in all four countries, and
  replaces apostrophes in two (C20). The typewriter stops at an empty morpheme (C56).
  The long vowel table leaves out pairs such as チイ (C44).
* The maps of the package are not synchronised: two goroutines race (C39).
* The command stops at a blank line and drops a last line without a newline (C47). A word that begins
  with `-test.` is dropped without a message (C92).
  `test` and `dev` install no transliterators, so that examples and words that need one
  fail (C48, C62). The coverage of no rules prints NaN. The profile panics for a spec without a section of
  rules and at lines of 64 KiB (C57).
  The profile is written over an older one without truncating it (C57).
* JavaScript. A transliterator that throws, returns something other than a promise or
  rejects with something other than an object ends the whole program (C64), as does an
  unknown scheme given to the Cyrillic module (C66). `unuseTranslit` is defined but not
  exported. `null` as the trace function, or a missing argument, ends the program too (C89). A promise fulfilled with something other than a string is transcribed as
  e.g. `<undefined>`.
* The web page shows its loading sign for ever when a word cannot be transcribed, or its
  transcription is empty, and waits for ever after one request that is not answered
  (C70). An answer that arrives after the input was cleared is kept
  and shows for the next word. Words typed while a request runs are all asked for afterwards, though a comment
  says otherwise (C71). A transliterator that fails in a worker is answered with an
  object, which is taken for the text `<object>` (C73). U+FEFF at the beginning of a text
  is lost from Go to JavaScript (C72), so that the page and the command differ (C75). The names of methods of every object, such as `constructor`,
  pass for languages; without a word the page throws for them (C90). With an empty language in the address (`?lang=`), each rendering
  takes another random language, so that the page may never come to rest (C91), and a word typed after a link was followed brings back
  the other parameters of the first address (C77). Links of examples are not percent-encoded, so that
  `R&B` would lead to `R` (C78); no bundled example has such a character.
