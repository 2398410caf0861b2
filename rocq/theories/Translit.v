(** The transliterators of translit/. Outside of the model, and parameters here: Unicode
    normalization (golang.org/x/text), the readings of go-pinyin and the Kagome
    tokenizer. *)
From Coq Require Import String Permutation.
From Verif Require Import GoBase Utf8 Unicode Replacer Hre Procedure CyrDict.
Open Scope N_scope.

(** ** translit/cyrillic *)

(** cyrillic.go:20-35 mustNew; [order] is the order of the iteration over the map (line 29),
    the result the arguments of the Replacer. *)
Definition cyrillic_new (order : list (bytes * bytes) -> list (bytes * bytes)) (country : bytes)
  : res (list (bytes * bytes)) :=
  match lookup cyr_dict country with
  | None => Panic PCountry
  | Some mapping => Ok (order mapping)
  end.

(** cyrillic.go:42-44 Scheme *)
Definition cyrillic_scheme (country : bytes) : bytes := lit "cyrillic[" ++ country ++ lit "]".

(** cyrillic.go:46-48 Transliterate *)
Definition cyrillic_transliterate (oldnew : list (bytes * bytes)) (word : bytes) : res bytes :=
  Ok (replacer_replace oldnew word).

(** cyrillic.go:10-18 Ts *)
Definition cyrillic_countries : list bytes := [lit "bg"; lit "mk"; lit "ru"; lit "ua"].

(** ** translit/furigana/repeat.go *)

(** repeat.go:35-37 in *)
Definition in_range (ch mn mx : rune) : bool := (mn <=? ch) && (ch <=? mx).
(** repeat.go:39-45 isHiragana *)
Definition is_hiragana (ch : rune) : bool := in_range ch 0x3040 0x309F.
(** repeat.go:47-53 isKatakana *)
Definition is_katakana (ch : rune) : bool := in_range ch 0x30A0 0x30FF.

(** repeat.go:56-85 toSeion. Characters are not negative, so the remainder of Go is that
    of [N]. *)
Definition to_seion (ch : rune) : rune :=
  if (ch =? 0x3094) || (ch =? 0x30F4) then ch - 78
  else if (ch =? 0x309E) || (ch =? 0x30FE) then ch - 1
  else if (ch mod 2 =? 0) && (in_range ch 0x304B 0x3062 || in_range ch 0x30AB 0x30C2) then ch - 1
  else if (ch mod 2 =? 1) && (in_range ch 0x3064 0x3069 || in_range ch 0x30C4 0x30C9) then ch - 1
  else if (ch mod 3 =? 1) && (in_range ch 0x306F 0x307D || in_range ch 0x30CF 0x30DD) then ch - 1
  else if (ch mod 3 =? 2) && (in_range ch 0x306F 0x307D || in_range ch 0x30CF 0x30DD) then ch - 2
  else if in_range ch 0x30F7 0x30FA then ch - 8
  else ch.

(** repeat.go:88-114 toDakuon *)
Definition to_dakuon (ch : rune) : rune :=
  if (ch =? 0x3046) || (ch =? 0x30A6) then ch + 78
  else if (ch =? 0x309D) || (ch =? 0x30FD) then ch + 1
  else if (ch mod 2 =? 1) && (in_range ch 0x304B 0x3062 || in_range ch 0x30AB 0x30C2) then ch + 1
  else if (ch mod 2 =? 0) && (in_range ch 0x3064 0x3069 || in_range ch 0x30C4 0x30C9) then ch + 1
  else if (ch mod 3 =? 0) && (in_range ch 0x306F 0x307D || in_range ch 0x30CF 0x30DD) then ch + 1
  else if in_range ch 0x30EF 0x30F2 then ch + 8
  else ch.

(** repeat.go:12-26: what is written for [ch] after [lastCh]. *)
Definition resolve_mark (lastCh ch : rune) : rune :=
  if is_hiragana lastCh then
    if ch =? 0x309D then to_seion lastCh
    else if ch =? 0x309E then to_dakuon lastCh
    else ch
  else if is_katakana lastCh then
    if ch =? 0x30FD then to_seion lastCh
    else if ch =? 0x30FE then to_dakuon lastCh
    else ch
  else ch.
Fixpoint repeat_loop (lastCh : rune) (word : list rune) : list rune :=
  match word with
  | [] => []
  | ch :: word' => let ch' := resolve_mark lastCh ch in ch' :: repeat_loop ch' word'
  end.
(** repeat.go:6-33 repeatKana *)
Definition repeat_kana (word : bytes) : bytes := encode (repeat_loop 0 (runes word)).

(** ** translit/furigana/longvowel.go *)

(** longvowel.go:8-19 longVowelRels *)
Definition long_vowel_rels : list (rune * list rune) := [
  (0x30A1, runes (lit "ァアカガサザタダナハバパマャヤラヮワ"));
  (0x30A2, runes (lit "ァアカガサザタダナハバパマャヤラヮワ"));
  (0x30A3, runes (lit "ィイェエキギケゲシジセゼチヂニネヒビピヘベペミメリレヰヱヸヹ"));
  (0x30A4, runes (lit "ィイキギシジニヒビピミリヰヸ"));
  (0x30A5, runes (lit "ゥウォオクグコゴスズソゾツヅヌノフブプホボポムモュユョヨルロヲヴヺ"));
  (0x30A6, runes (lit "ゥウォオクグコゴスズソゾツヅトドヌノフブプホボポムモュユョヨルロヲヴヺ"));
  (0x30A7, runes (lit "ェエケゲセゼテデネヘベペメレヱヹ"));
  (0x30A8, runes (lit "ェエケゲセゼテデネヘベペメレヱヹ"));
  (0x30A9, runes (lit "ォオコゴソゾトドノホボポモョヨロヲヺ"));
  (0x30AA, runes (lit "ォオコゴソゾトドノホボポモョヨロヲヺ"))
].

(** longvowel.go:32-40: is [ch] a long vowel after [prevCh]? *)
Definition is_long_vowel (prevCh ch : rune) : bool :=
  existsb (fun e => (fst e =? ch) && nmem prevCh (snd e)) long_vowel_rels.

(** longvowel.go:28-49: the loop; [offset] counts down to the characters that may change. *)
Fixpoint merge_long (prevCh : rune) (offset : nat) (word : list rune) : list rune :=
  match word with
  | [] => []
  | ch :: word' =>
    (if match offset with O => is_long_vowel prevCh ch | S _ => false end then 0x30FC else ch)
    :: merge_long ch (offset - 1)%nat word'
  end.
(** longvowel.go:23-52 mergeLongVowels *)
Definition merge_long_vowels (word : bytes) (offset : nat) : bytes :=
  encode (merge_long 0 offset (runes word)).

(** ** translit/furigana/typewriter.go *)

(** kagome.Token: class, surface and features. *)
Inductive token_class := TDummy | TKnown | TUnknown | TUser.
Record ktoken := { k_class : token_class; k_surface : bytes; k_features : list bytes }.

(** typewriter.go:12-23 category; illegal is None in [tw_last]. *)
Inductive category := CMeta | CMorpheme | CAuxiliary | CProperNoun | CPersonName | CUnknown.
Definition category_eqb (a b : category) : bool :=
  match a, b with
  | CMeta, CMeta | CMorpheme, CMorpheme | CAuxiliary, CAuxiliary | CProperNoun, CProperNoun
  | CPersonName, CPersonName | CUnknown, CUnknown => true
  | _, _ => false
  end.

(** typewriter.go:145-204 interpretToken *)
Definition interpret_token (tok : ktoken) : res (bytes * category) :=
  match k_class tok with
  | TKnown =>
    let fs := k_features tok in
    let! partOfSpeech := index fs 0%Z in
    let! subClass1 := index fs 1%Z in
    let! subClass2 := index fs 2%Z in
    let! rootForm := index fs 6%Z in
    let! pronunciation := index fs 8%Z in
    if beqb partOfSpeech (lit "フィラー") || beqb partOfSpeech (lit "記号") then Ok (pronunciation, CMeta)
    else if beqb partOfSpeech (lit "助動詞") then Ok (pronunciation, CAuxiliary)
    else if beqb partOfSpeech (lit "助詞") then
      Ok (if beqb rootForm (lit "は") then lit "ハ"
          else if beqb rootForm (lit "へ") then lit "ヘ" else pronunciation, CMorpheme)
    else if beqb subClass2 (lit "人名") then Ok (pronunciation, CPersonName)
    else if beqb subClass1 (lit "固有名詞") then Ok (pronunciation, CProperNoun)
    else Ok (pronunciation, CMorpheme)
  | _ =>
    (* strings.TrimSpace(str) == "": every character is a space. *)
    Ok (k_surface tok, if forallb is_space (runes (k_surface tok)) then CMeta else CUnknown)
  end.

(** typewriter.go:123-142 read and unread: the tokens not read yet, without the dummies. *)
Fixpoint skip_dummies (ts : list ktoken) : list ktoken :=
  match ts with
  | {| k_class := TDummy |} :: ts' => skip_dummies ts'
  | _ => ts
  end.

(** typewriter.go:101-114: following auxiliaries; returns what they write and the tokens
    left. *)
Fixpoint scan_auxiliary (ts : list ktoken) : res (bytes * list ktoken) :=
  match ts with
  | [] => Ok ([], [])
  | tok :: ts' =>
    match k_class tok with
    | TDummy => scan_auxiliary ts'
    | _ =>
      let! '(str, cat) := interpret_token tok in
      match cat with
      | CAuxiliary => let! '(s, rest) := scan_auxiliary ts' in Ok (str ++ s, rest)
      | _ => Ok ([], tok :: ts')
      end
    end
  end.

(** typewriter.go:61-121 scanMorpheme: the separator, the text, the tokens left and the
    category; None when no token is left. *)
Definition scan_morpheme (ts : list ktoken) (last : option category)
  : res (option (bytes * bytes * list ktoken * category)) :=
  match skip_dummies ts with
  | [] => Ok None
  | tok :: ts' =>
    let! '(str, cat) := interpret_token tok in
    let str := match cat with CUnknown => merge_long_vowels str 0 | _ => str end in
    let sep := match last with
               | None | Some CMeta => []
               | Some l => if category_eqb cat CPersonName && category_eqb l CPersonName
                           then lit " " else []
               end in
    let coreLen := length (runes str) in
    let! '(aux, rest) := scan_auxiliary ts' in
    Ok (Some (sep, merge_long_vowels (str ++ aux) coreLen, rest, cat))
  end.

(** typewriter.go:38-58 Typewrite, first call: stops at an empty morpheme. Every round
    reads a token. *)
Fixpoint typewrite_loop (fuel : nat) (ts : list ktoken) (last : option category) : res bytes :=
  match fuel with
  | O => NoFuel
  | S fuel' =>
    let! r := scan_morpheme ts last in
    match r with
    | None | Some (_, [], _, _) => Ok []
    | Some (sep, str, rest, cat) =>
      let! t := typewrite_loop fuel' rest (Some cat) in Ok (sep ++ str ++ t)
    end
  end.
Definition typewrite (ts : list ktoken) : res bytes := typewrite_loop (S (length ts)) ts None.

(** furigana.go:37-51 Transliterate *)
Definition furigana_transliterate (nfc : bytes -> bytes) (tokenize : bytes -> list ktoken) (word : bytes)
  : res bytes := typewrite (tokenize (repeat_kana (nfc word))).

(** ** translit/pinyin/pinyin.go *)

(** pinyin.go:38-53: the loop; [buf] is the text kept so far. *)
Fixpoint pinyin_loop (readings : rune -> list bytes) (word : list rune) (buf : bytes) : list bytes :=
  match word with
  | [] => match buf with [] => [] | _ => [buf] end
  | ch :: word' =>
    match readings ch with
    | [] => pinyin_loop readings word' (buf ++ encode_rune ch)
    | pyn :: _ =>
      match buf with [] => [] | _ => [buf] end ++ pyn :: pinyin_loop readings word' []
    end
  end.

(** pinyin.go:28-57 Transliterate *)
Definition pinyin_transliterate (nfc : bytes -> bytes) (readings : rune -> list bytes) (word : bytes)
  : res bytes := Ok (join (encode_rune 0x200B) (pinyin_loop readings (runes (nfc word)) [])).

(** translit/translit.go:10-15 Translits: furigana, pinyin, and the cyrillic ones. *)
Definition std_translits {W} (nfc : bytes -> bytes) (readings : rune -> list bytes)
           (tokenize : bytes -> list ktoken) (order : bytes -> list (bytes * bytes) -> list (bytes * bytes))
  : list (translit W) :=
  {| tl_scheme := lit "furigana"; tl_run := fun w x => (w, furigana_transliterate nfc tokenize x) |} ::
  {| tl_scheme := lit "pinyin"; tl_run := fun w x => (w, pinyin_transliterate nfc readings x) |} ::
  map (fun c => {| tl_scheme := cyrillic_scheme c;
                   tl_run := fun w x => (w, let! t := cyrillic_new (order c) c in cyrillic_transliterate t x) |})
      cyrillic_countries.
