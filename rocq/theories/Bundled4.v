(** Bundled specs, byte for byte (specs.go:15-16): specs/jpn-ck.hsl, specs/kat-1.hsl, specs/kat-2.hsl, specs/lat.hsl, specs/lav.hsl, specs/lit.hsl, specs/mkd.hsl. Generated by tools/gen_bundled.py. *)
From Verif Require Import GoBase BString.

Definition src_jpn_ck_1 : bstr := "lang:
    id       = ""jpn-ck""
    codes    = ""ja"", ""jpn""
    english  = ""Japanese (C.K.)""
    korean   = ""일본어(최영애-김용옥)""
    script   = ""Hrkt""
    translit = ""furigana""

config:
    author = ""Heungsub Lee <heungsub@subl.ee>""
    stage  = ""draft""

rewrite:
    ""・"" -> """"

    ""ァ"" -> ""'a""
    ""ィ"" -> ""'i""
    ""ゥ"" -> ""'u""
    ""ェ"" -> ""'e""
    ""ォ"" -> ""'o""

    ""ウ'"" -> ""w""
    ""フ'"" -> ""f""
    ""ブ'"" -> ""v""

    ""ア"" -> ""a""
    ""イ"" -> ""i""
    ""ウ"" -> ""u""
    ""エ"" -> ""e""
    ""オ"" -> ""o""

    ""カ"" -> ""ka""
    ""キ"" -> ""ki""
    ""ク"" -> ""ku""
    ""ケ"" -> ""ke""
    ""コ"" -> ""ko""

    ""ガ"" -> ""ga""
    ""ギ"" -> ""gi""
    ""グ"" -> ""gu""
    ""ゲ"" -> ""ge""
    ""ゴ"" -> ""go""

    ""サ"" -> ""sa""
    ""シ"" -> ""si""
    ""ス"" -> ""su""
    ""セ"" -> ""se""
    ""ソ"" -> ""so""

    ""ザ"" -> ""za""
    ""ジ"" -> ""zi""
    ""ズ"" -> ""zu""
    ""ゼ"" -> ""ze""
    ""ゾ"" -> ""zo""

    ""タ"" -> ""ta""
    ""チ"" -> ""ci""
    ""ツ"" -> ""cu""
    ""テ"" -> ""te""
    ""ト"" -> ""to""

    ""ダ"" -> ""da""
    ""ヂ"" -> ""zi""
    ""ヅ"" -> ""zu""
    ""デ"" -> ""de""
    ""ド"" -> ""do""

    ""ナ"" -> ""na""
    ""ニ"" -> ""ni""
    ""ヌ"" -> ""nu""
    ""ネ"" -> ""ne""
    ""ノ"" -> ""no""

    ""ハ"" -> ""ha""
    ""ヒ"" -> ""hi""
    ""フ"" -> ""hu""
    ""ヘ"" -> ""he""
    ""ホ"" -> ""ho""

    ""バ"" -> ""ba""
    ""ビ"" -> ""bi""
    ""ブ"" -> ""bu""
    ""ベ"" -> ""be""
    ""ボ"" -> ""bo""

    ""パ"" -> ""pa""
    ""ピ"" -> ""pi""
    ""プ"" -> ""pu""
    ""ペ"" -> ""pe""
    ""ポ"" -> ""po""

    ""マ"" -> ""ma""
    ""ミ"" -> ""mi""
    ""ム"" -> ""mu""
    ""メ"" -> ""me""
    ""モ"" -> ""mo""

    ""ヤ"" -> ""ya""
    ""ユ"" -> ""yu""
    ""ヨ"" -> ""yo""

    ""ャ"" -> ""ja""
    ""ュ"" -> ""ju""
    ""ョ"" -> ""jo""

    ""ラ"" -> ""la""
    ""リ"" -> ""li""
    ""ル"" -> ""lu""
    ""レ"" -> ""le""
    ""ロ"" -> ""lo""

    ""ワ"" -> ""wa""
    ""ヰ"" -> ""i""
    ""ヱ"" -> ""e""
    ""ヲ"" -> ""o""

    ""ン"" -> ""N""
    ""ッ"" -> ""T""
    ""ヴ"" -> ""b""

    # Small Vowels
    ""u'o""     -> ""o""
    ""o'u""     -> ""o""
    ""i'e""     -> ""je""
    ""(u|e)'i"" -> ""i""

    # Long Vowel Sign
    ""{a}ー"" -> ""a""
    ""{i}ー"" -> ""i""
    ""{u}ー"" -> ""u""
    ""{e}ー"" -> ""i""
    ""{o}ー"" -> ""o""

    # Long Vowels
    ""{(y|j)o}o"" -> ""o""
    ""{o}u""      -> ""o""

transcribe:
    ""c{ij}"" -> ""ㅊ""

    ""wa"" -> ""ㅘ""

    ""{s|z|c}u"" -> ""ㅡ""
    ""{s}je""    -> ""ㅖ""

    ""k"" -> ""ㅋ""
    ""g"" -> ""ㄱ""
    ""s"" -> ""ㅅ""
    ""z"" -> ""ㅈ""
    ""t"" -> ""ㅌ""
    ""c"" -> ""ㅉ""
    ""d"" -> ""ㄷ""
    ""n"" -> ""ㄴ""
    ""h"" -> ""ㅎ""
    ""b"" -> ""ㅂ""
    ""v"" -> ""ㅂ""
    ""p"" -> ""ㅍ""
    ""f"" -> ""ㅍ""
    ""m"" -> ""ㅁ""
    ""l"" -> ""ㄹ""

    ""ya"" -> ""야""
    ""yu"" -> ""유""
    ""yo"" -> ""요""

    ""ija"" -> ""ㅑ""
    ""iju"" -> ""ㅠ""
    ""ijo"" -> ""ㅛ""

    ""wa"" -> ""ㅘ""
    ""wi"" -> ""ㅟ""
    ""we"" -> ""ㅞ""
    ""wo"" -> ""ㅝ""

    ""a"" -> ""ㅏ""
    ""i"" -> ""ㅣ""
    ""u"" -> ""ㅜ""
    ""e"" -> ""ㅔ""
    ""o"" -> ""ㅗ""

    ""N"" -> ""-ㄴ""
    ""T"" -> ""-ㅅ""

test:
    # From Wikipedia: https://ko.wikipedia.org/wiki/최영애-김용옥_일본어_표기법
    ""アー"" -> ""아아""
    ""ウー"" -> ""우우""
    ""オー"" -> ""오오""
    ""東京"" -> ""토오쿄오""
    ""宗教"" -> ""슈우쿄오""
    ""経験"" -> ""케이켄""
    ""性格"" -> ""세이카쿠""
    ""英語"" -> ""에이고""
    ""圧迫"" -> ""앗파쿠""
    ""国会"" -> ""콧카이""
    ""突進"" -> ""톳신""
    ""密着"" -> ""밋챠쿠""
    ""出張"" -> ""슛쵸오""
    ""あっ"" -> ""앗""
    ""一寸"" -> ""잇슨""
    ""熱中"" -> ""넷츄우""
    ""がっちり"" -> ""갓찌리""
    ""やっ"" -> ""얏""

    # From Zetawiki: https://zetawiki.com/wiki/최영애-김용옥_일본어_표기법
    ""たんぽぽ"" -> ""탄포포""

    # From the book ""동양학 어떻게 할 것인가"" by Do-ol.
    ""国鉄""       -> ""코쿠테쯔""
    ""地下鐵""     -> ""찌카테쯔""
    ""私鉄""       -> ""시테쯔""
    ""研究社""     -> ""켄큐우샤""
    ""室町""       -> ""무로마찌""
    ""明治""       -> ""메이지""
    ""田中館愛橘"" -> ""타나카다테 아이키쯔""
    ""訓令式""     -> ""쿤레이시키""
    ""かえりてん"" -> ""카에리텐""
    ""横浜""       -> ""요코하마""

    # Cross check with KIOM: https://boncho.kiom.re.kr/tool/
    ""チェ・ゲバラ""     -> ""쩨게바라""
    ""スーパーマリオ""   -> ""스우파아마리오""
    ""スレイヤーズ""     -> ""스레이야아즈""
    ""たこやき""         -> ""타코야키""
    ""ディーブイディー"" -> ""디이부이디이""
    ""チェ・ゲバラ""     -> ""쩨게바라""

    # Pokemon
    ""アーボ""     -> ""아아보""
    ""ピカチュウ"" -> ""피카츄우""
    ""ライチュウ"" -> ""라이츄우""
    ""ガーディ""   -> ""가아디""
    ""ケーシィ""   -> ""케이시이""
    ""ゴース""     -> ""고오스""
    ""ゴースト""   -> ""고오스토""
    ""ルージュラ"" -> ""루우쥬라""
    ""イーブイ""   -> ""이이부이""
    ""ミュウ""     -> ""뮤우""
"%bstr.

Definition src_jpn_ck : list bstr := [src_jpn_ck_1].

Definition src_kat_1_1 : bstr := "lang:
    id      = ""kat-1""
    codes   = ""ka"", ""kat""
    english = ""Georgian (1st scheme)""
    korean  = ""조지아어(제1안)""
    script  = ""Geor""

config:
    author = ""Brian Jongseong Park <iceager@gmail.com>""
    stage  = ""draft""

macros:
    ""@"" = ""<vowels>""

vars:
    ""cs""     = ""ბ"", ""გ"", ""დ"", ""ვ"", ""ზ"", ""თ"", ""კ"", ""ლ"", ""მ"", ""ნ"", ""პ"", ""ჟ"", ""რ"", ""ს"", ""ტ"", ""ფ"", ""ქ"", ""ღ"", ""ყ"", ""შ"", ""ჩ"", ""ც"", ""ძ"", ""წ"", ""ჭ"", ""ხ"", ""ჯ"", ""ჰ"", ""ჶ""
    ""ob""     = ""ბ"", ""გ"", ""დ"", ""ვ"", ""ზ"", ""თ"", ""კ"", ""პ"", ""ჟ"", ""ს"", ""ტ"", ""ფ"", ""ქ"", ""ღ"", ""ყ"", ""შ"", ""ჩ"", ""ც"", ""ძ"", ""წ"", ""ჭ"", ""ხ"", ""ჯ"", ""ჰ""
    ""vl""     = ""თ"", ""კ"", ""პ"", ""ტ"", ""ფ"", ""ქ"", ""ყ"", ""ჩ"", ""ც"", ""წ"", ""ჭ""
    ""vowels"" = ""ა"", ""ე"", ""ი"", ""ო"", ""უ""

normalize:
    ""ბ"" = ""Ⴁ"", ""ⴁ""
    ""ა"" = ""ⴀ"", ""Ⴀ""
    ""დ"" = ""Ⴃ"", ""ⴃ""
    ""გ"" = ""ⴂ"", ""Ⴂ""
    ""ვ"" = ""ⴅ"", ""Ⴅ""
    ""ე"" = ""ⴄ"", ""Ⴄ""
    ""თ"" = ""ⴇ"", ""Ⴇ""
    ""ზ"" = ""Ⴆ"", ""ⴆ""
    ""კ"" = ""Ⴉ"", ""ⴉ""
    ""ი"" = ""ⴈ"", ""Ⴈ""
    ""მ"" = ""Ⴋ"", ""ⴋ""
    ""ლ"" = ""ⴊ"", ""Ⴊ""
    ""ნ"" = ""ⴌ"", ""Ⴌ""
    ""ჟ"" = ""ⴏ"", ""Ⴏ""
    ""პ"" = ""Ⴎ"", ""ⴎ""
    ""ს"" = ""Ⴑ"", ""ⴑ""
    ""რ"" = ""ⴐ"", ""Ⴐ""
    ""უ"" = ""ⴍ"", ""Ⴍ""
    ""ტ"" = ""ⴒ"", ""Ⴒ""
    ""ქ"" = ""ⴕ"", ""Ⴕ""
    ""ფ"" = ""ⴔ"", ""Ⴔ""
    ""ყ"" = ""ⴗ"", ""Ⴗ""
    ""ღ"" = ""Ⴖ"", ""ⴖ""
    ""ჩ"" = ""Ⴙ"", ""ⴙ""
    ""შ"" = ""ⴘ"", ""Ⴘ""
    ""ძ"" = ""Ⴛ"", ""ⴛ""
    ""ც"" = ""ⴚ"", ""Ⴚ""
    ""ჭ"" = ""ⴝ"", ""Ⴝ""
    ""წ"" = ""ⴜ"", ""Ⴜ""
    ""ჯ"" = ""ⴟ"", ""Ⴟ""
    ""ხ"" = ""Ⴞ"", ""ⴞ""
    ""ჱ"" = ""Ⴡ"", ""ⴡ""
    ""ჰ"" = ""ⴠ"", ""Ⴠ""
    ""ჳ"" = ""Ⴣ"", ""ⴣ""
    ""ჲ"" = ""ⴢ"", ""Ⴢ""
    ""ჵ"" = ""ⴥ"", ""Ⴥ""
    ""ჴ"" = ""ⴤ"", ""Ⴤ""

rewrite:
    ""ჱ""          -> ""ეჲ""
    ""ჲ""          -> ""ი""
    ""უჳ""         -> ""უ""
    ""ჳ""          -> ""უ""
    ""ჴ""          -> ""ხ""
    ""ჵ""          -> ""ო""
    ""{@}ვ{<vl>}"" -> ""ჶ""
    ""ვ$""         -> ""ჶ""
    ""ბბ""         -> ""ბ""
    ""გგ""         -> ""გ""
    ""დდ""         -> ""დ""
    ""ვვ""         -> ""ვ""
    ""ზზ""         -> ""ზ""
    ""თთ""         -> ""თ""
    ""კკ""         -> ""კ""
    ""ლლ""         -> ""ლ""
    ""მმ""         -> ""მ,მ""
    ""ნნ""         -> ""ნ,ნ""
    ""პპ""         -> ""პ""
    ""ჟჟ""         -> ""ჟ""
    ""რრ""         -> ""რ""
    ""სს""         -> ""ს""
    ""ტტ""         -> ""ტ""
    ""ფფ""         -> ""ფ""
    ""ქქ""         -> ""ქ""
    ""ღღ""         -> ""ღ""
    ""ყყ""         -> ""ყ""
    ""შშ""         -> ""შ""
    ""ხხ""         -> ""ხ""
    ""ჰჰ""         -> ""ჰ""
    ""დ{ძ|ჯ}""     -> """"
    ""თ{ჩ|ც}""     -> """"
    ""ტ{წ|ჭ}""     -> """"
    ""დჟ""         -> ""ჯ""
    ""თშ""         -> ""ჩ""
    ""ტშ""         -> ""ჭ""
    ""დზ""         -> ""ძ""
    ""თს""         -> ""ც""
    ""ტს""         -> ""წ""
    ""ჟ{<cs>}""    -> ""ჟუ""
    ""ჟ$""         -> ""ჟუ""
    ""შ{<cs>}""    -> ""შუ""
    ""შ$""         -> ""ში""
    ""ჩ{ვ}""       -> ""ჩუ""
    ""ჩ{<cs>}""    -> ""ჩი""
    ""ჩ$""         -> ""ჩი""
    ""ძ{ვ}""       -> ""ძუ""
    ""ძ{<cs>}""    -> ""ძი""
    ""ძ$""         -> ""ძი""
    ""ჭ{ვ}""       -> ""ჭუ""
    ""ჭ{<cs>}""    -> ""ჭი""
    ""ჭ$""         -> ""ძი""
    ""^ლ""         -> ""ლ;""
    ""^ნ""         -> ""ნ;""
    ""ლ$""         -> ""ლ,""
    ""მ$""         -> ""მ,""
    ""ნ$""         -> ""ნ,""
    ""ლ{@|მ,|ნ,}"" -> ""ლ;""
    ""{,}ლ""       -> ""ლ;""
    ""მ{@}""       -> ""მ;""
    ""ნ{@}""       -> ""ნ;""
    ""ლ""          -> ""ლ,""
    ""მ""          -> ""მ,""
    ""ნ""          -> ""ნ,""
    "",,""         -> "",""
    "",;""         -> """"
    "",ლ,""        -> ""ლ,""
    "",მ,""        -> ""მ,""
    "",ნ,""        -> ""ნ,""
    ""ლ{მნ}""      -> ""ლ,""
    "";""          -> """"
    ""აა""         -> ""ა""
    ""ეე""         -> ""ე""
    ""იი""         -> ""ი""
    ""ოო""         -> ""ო""
    ""უუ""         -> ""უ""

transcribe:
    ""ბ""    -> ""ㅂ""
    ""გ""    -> ""ㄱ""
    ""დ""    -> ""ㄷ""
    ""ვ""    -> ""ㅂ""
    ""ზ""    -> ""ㅈ""
    ""თ""    -> ""ㅌ""
    ""კ""    -> ""ㅋ""
    ""^ლ""   -> ""ㄹ""
    ""{,}ლ"" -> ""ㄹ""
    ""ლ,""   -> ""-ㄹ""
    ""ლ""    -> ""-ㄹㄹ""
    ""მ,""   -> ""-ㅁ""
    ""მ""    -> ""ㅁ""
    ""ნ,""   -> ""-ㄴ""
    ""ნ""    -> ""ㄴ""
    ""პ""    -> ""ㅍ""
    ""ჟ""    -> ""ㅈ""
    ""რ""    -> ""ㄹ""
    ""ს""    -> ""ㅅ""
    ""ტ""    -> ""ㅌ""
    ""ფ""    -> ""ㅍ""
    ""ქ""    -> ""ㅋ""
    ""ღ""    -> ""ㄱ""
    ""ყ""    -> ""ㅋ""
    ""ჩ""    -> ""ㅊ""
    ""ც""    -> ""ㅊ""
    ""ძ""    -> ""ㅈ""
    ""წ""    -> ""ㅊ""
    ""ჭ""    -> ""ㅊ""
    ""ხ""    -> ""ㅎ""
    ""ჯ""    -> ""ㅈ""
    ""ჰ""    -> ""ㅎ""
    ""ჶ""    -> ""ㅍ""
    ""ჸ""    -> ""ㅇ""
    ""შა""   -> ""ㅅㅑ""
    ""შე""   -> ""ㅅㅖ""
    ""ში""   -> ""ㅅㅣ""
    ""შო""   -> ""ㅅㅛ""
    ""შუ""   -> ""ㅅㅠ""
    ""შჷ""   -> ""ㅅㅕ""
    ""ა""    -> ""ㅏ""
    ""ე""    -> ""ㅔ""
    ""ი""    -> ""ㅣ""
    ""ო""    -> ""ㅗ""
    ""უ""    -> ""ㅜ""
    ""ჷ""    -> ""ㅓ""

test:
    ""ბურჯანაძე""      -> ""부르자나제""
    ""გრიგოლ""         -> ""그리골""
    ""არაყიშვილი""     -> ""아라키슈빌리""
    ""ნიკოლოზ""        -> ""니콜로즈""
    ""ზუგდიდი""        -> ""주그디디""
    ""ფოთი""           -> ""포티""
    ""რაფიელ""         -> ""라피엘""
    ""ჩიქობავა""       -> ""치코바바""
    ""მაყვალა""        -> ""마크발라""
    ""ლევან""          -> ""레반""
    ""სააკაშვილი""     -> ""사카슈빌리""
    ""თამარი""         -> ""타마리""
    ""ნიკა""           -> ""니카""
    ""სააკაძე""        -> ""사카제""
    ""ჟვანია""         -> ""주바니아""
    ""პეტრე""          -> ""페트레""
    ""კონსტანტინე""    -> ""콘스탄티네""
    ""მერაბ""          -> ""메라브""
    ""კიტა""           -> ""키타""
    ""გრიშაშვილი""     -> ""그리샤슈빌리""
    ""ქასრაშვილი""     -> ""카스라슈빌리""
    ""მანაგაძე""       -> ""마나가제""
    ""მტკვარი""        -> ""음트크바리""
    ""ელენე""          -> ""엘레네""
    ""ზურაბ""          -> ""주라브""
    ""გილაური""        -> ""길라우리""
    ""ჯვარი""          -> ""즈바리""
    ""არნოლდ""         -> ""아르놀드""
    ""გამსახურდია""    -> ""감사후르디아""
    ""ბათუმი""         -> ""바투미""
    ""ფარნავაზი""      -> ""파르나바지""
    ""ნინო""           -> ""니노""
    ""იოსებ""          -> ""이오세브""
    ""კახა""           -> ""카하""
    ""ავტო""           -> ""아프토""
    ""მითრიდატე""      -> ""미트리다테""
    ""კოსტავა""        -> ""코스타바""
    ""ერისთავი""       -> ""에리스타비""
    ""ფაჩულია""        -> ""파출리아""
    ""აბაშიძე""        -> ""아바시제""
    ""აზმაიფარაშვილი"" -> ""아즈마이파라슈빌리""
    ""ჯავახიშვილი""    -> ""자바히슈빌리""
    ""არველაძე""       -> ""아르벨라제""
    ""ედუარდ""         -> ""에두아르드""
    ""კალანდაძე""      -> ""칼란다제""
    ""ზარზმა""         -> ""자르즈마""
    ""დავით""          -> ""다비트""
    ""ახვლედიანი""     -> ""아흐블레디아니""
    ""მთაწმინდა""      -> ""음타츠민다""
    ""მგალობლიშვილ""   -> ""음갈로블리슈빌""
    ""ზაზა""           -> ""자자""
    ""თათია""          -> ""타티아""
    ""მიხეილ""         -> ""미헤일""
    ""კალაძე""         -> ""칼라제""
"%bstr.

Definition src_kat_1_2 : bstr := "    ""ბარათაშვილი""    -> ""바라타슈빌리""
    ""დიმიტრი""        -> ""디미트리""
    ""ალექსანდრე""     -> ""알레크산드레""
    ""ზვიად""          -> ""즈비아드""
    ""ჭილაშვილი""      -> ""칠라슈빌리""
    ""ანა""            -> ""아나""
    ""რუსთავი""        -> ""루스타비""
    ""ვახუშტი""        -> ""바후슈티""
    ""ღონღაძე""        -> ""곤가제""
    ""ამილახვარი""     -> ""아밀라흐바리""
    ""შევარდნაძე""     -> ""셰바르드나제""
    ""კახაბერ""        -> ""카하베르""
    ""ქუთაისი""        -> ""쿠타이시""
    ""გიორგი""         -> ""기오르기""
    ""ავალიშვილი""     -> ""아발리슈빌리""
    ""თბილისი""        -> ""트빌리시""
    ""შოთა""           -> ""쇼타""
    ""გორი""           -> ""고리""

"%bstr.

Definition src_kat_1 : list bstr := [src_kat_1_1; src_kat_1_2].

Definition src_kat_2_1 : bstr := "lang:
    id      = ""kat-2""
    codes   = ""ka"", ""kat""
    english = ""Georgian (2nd scheme)""
    korean  = ""조지아어(제2안)""
    script  = ""Geor""

config:
    author = ""Brian Jongseong Park <iceager@gmail.com>""
    stage  = ""draft""

macros:
    ""@"" = ""<vowels>""

vars:
    ""cs""     = ""ბ"", ""გ"", ""დ"", ""ვ"", ""ზ"", ""თ"", ""კ"", ""ლ"", ""მ"", ""ნ"", ""პ"", ""ჟ"", ""რ"", ""ს"", ""ტ"", ""ფ"", ""ქ"", ""ღ"", ""ყ"", ""შ"", ""ჩ"", ""ც"", ""ძ"", ""წ"", ""ჭ"", ""ხ"", ""ჯ"", ""ჰ"", ""V""
    ""ob""     = ""ბ"", ""გ"", ""დ"", ""ვ"", ""ზ"", ""თ"", ""კ"", ""პ"", ""ჟ"", ""ს"", ""ტ"", ""ფ"", ""ქ"", ""ღ"", ""ყ"", ""შ"", ""ჩ"", ""ც"", ""ძ"", ""წ"", ""ჭ"", ""ხ"", ""ჯ"", ""ჰ""
    ""vl""     = ""თ"", ""კ"", ""პ"", ""ტ"", ""ფ"", ""ქ"", ""ყ"", ""ჩ"", ""ც"", ""წ"", ""ჭ""
    ""vowels"" = ""ა"", ""ე"", ""ი"", ""ო"", ""უ""

normalize:
    ""ბ"" = ""Ⴁ"", ""ⴁ""
    ""ა"" = ""ⴀ"", ""Ⴀ""
    ""დ"" = ""Ⴃ"", ""ⴃ""
    ""გ"" = ""ⴂ"", ""Ⴂ""
    ""ვ"" = ""ⴅ"", ""Ⴅ""
    ""ე"" = ""ⴄ"", ""Ⴄ""
    ""თ"" = ""ⴇ"", ""Ⴇ""
    ""ზ"" = ""Ⴆ"", ""ⴆ""
    ""კ"" = ""Ⴉ"", ""ⴉ""
    ""ი"" = ""ⴈ"", ""Ⴈ""
    ""მ"" = ""Ⴋ"", ""ⴋ""
    ""ლ"" = ""ⴊ"", ""Ⴊ""
    ""ნ"" = ""ⴌ"", ""Ⴌ""
    ""ჟ"" = ""ⴏ"", ""Ⴏ""
    ""პ"" = ""Ⴎ"", ""ⴎ""
    ""ს"" = ""Ⴑ"", ""ⴑ""
    ""რ"" = ""ⴐ"", ""Ⴐ""
    ""უ"" = ""ⴍ"", ""Ⴍ""
    ""ტ"" = ""ⴒ"", ""Ⴒ""
    ""ქ"" = ""ⴕ"", ""Ⴕ""
    ""ფ"" = ""ⴔ"", ""Ⴔ""
    ""ყ"" = ""ⴗ"", ""Ⴗ""
    ""ღ"" = ""Ⴖ"", ""ⴖ""
    ""ჩ"" = ""Ⴙ"", ""ⴙ""
    ""შ"" = ""ⴘ"", ""Ⴘ""
    ""ძ"" = ""Ⴛ"", ""ⴛ""
    ""ც"" = ""ⴚ"", ""Ⴚ""
    ""ჭ"" = ""ⴝ"", ""Ⴝ""
    ""წ"" = ""ⴜ"", ""Ⴜ""
    ""ჯ"" = ""ⴟ"", ""Ⴟ""
    ""ხ"" = ""Ⴞ"", ""ⴞ""
    ""ჱ"" = ""Ⴡ"", ""ⴡ""
    ""ჰ"" = ""ⴠ"", ""Ⴠ""
    ""ჳ"" = ""Ⴣ"", ""ⴣ""
    ""ჲ"" = ""ⴢ"", ""Ⴢ""
    ""ჵ"" = ""ⴥ"", ""Ⴥ""
    ""ჴ"" = ""ⴤ"", ""Ⴤ""

rewrite:
    ""ჱ""              -> ""ეჲ""
    ""ჲ""              -> ""ი""
    ""უჳ""             -> ""უ""
    ""ჳ""              -> ""უ""
    ""ჴ""              -> ""ხ""
    ""ჵ""              -> ""ო""
    ""ჶ""              -> ""ფ""
    ""{@}ვ{<vl>}""     -> ""ჶ""
    ""ვ$""             -> ""ჶ""
    ""ბბ""             -> ""ბ""
    ""გგ""             -> ""გ""
    ""დდ""             -> ""დ""
    ""ვვ""             -> ""ვ""
    ""ზზ""             -> ""ზ""
    ""თთ""             -> ""თ""
    ""კკ""             -> ""კ""
    ""ლლ""             -> ""ლ""
    ""მმ""             -> ""მ,მ""
    ""ნნ""             -> ""ნ,ნ""
    ""პპ""             -> ""პ""
    ""ჟჟ""             -> ""ჟ""
    ""რრ""             -> ""რ""
    ""სს""             -> ""ს""
    ""ტტ""             -> ""ტ""
    ""ფფ""             -> ""ფ""
    ""ქქ""             -> ""ქ""
    ""ღღ""             -> ""ღ""
    ""ყყ""             -> ""ყ""
    ""შშ""             -> ""შ""
    ""ხხ""             -> ""ხ""
    ""ჰჰ""             -> ""ჰ""
    ""დ{ძ|ჯ}""         -> """"
    ""თ{ჩ|ც}""         -> """"
    ""ტ{წ|ჭ}""         -> """"
    ""დჟ""             -> ""ჯ""
    ""თშ""             -> ""ჩ""
    ""ტშ""             -> ""ჭ""
    ""დზ""             -> ""ძ""
    ""თს""             -> ""ც""
    ""ტს""             -> ""წ""
    ""{<ob>}ვ{ა|ე|ი}"" -> ""V""
    ""ჟ{<cs>}""        -> ""ჟუ""
    ""ჟ$""             -> ""ჟუ""
    ""შ{<cs>}""        -> ""შუ""
    ""შ$""             -> ""ში""
    ""ჩ{V}""           -> ""ჩუ""
    ""ჩ{<cs>}""        -> ""ჩი""
    ""ჩ$""             -> ""ჩი""
    ""ძ{V}""           -> ""ძუ""
    ""ძ{<cs>}""        -> ""ძი""
    ""ძ$""             -> ""ძი""
    ""ჭ{V}""           -> ""ჭუ""
    ""ჭ{<cs>}""        -> ""ჭი""
    ""ჭ$""             -> ""ძი""
    ""^ლ""             -> ""ლ;""
    ""^მ$""            -> ""მ;""
    ""^ნ""             -> ""ნ;""
    ""ლ$""             -> ""ლ,""
    ""მ$""             -> ""მ,""
    ""ნ$""             -> ""ნ,""
    ""ლ{@|მ,|ნ,}""     -> ""ლ;""
    ""{,}ლ""           -> ""ლ;""
    ""მ{@}""           -> ""მ;""
    ""ნ{@}""           -> ""ნ;""
    ""ლ""              -> ""ლ,""
    ""მ""              -> ""მ,""
    ""ნ""              -> ""ნ,""
    "",,""             -> "",""
    "",;""             -> """"
    "",ლ,""            -> ""ლ,""
    "",მ,""            -> ""მ,""
    "",ნ,""            -> ""ნ,""
    ""ლ{მნ}""          -> ""ლ,""
    "";""              -> """"
    ""აა""             -> ""ა""
    ""ეე""             -> ""ე""
    ""იი""             -> ""ი""
    ""ოო""             -> ""ო""
    ""უუ""             -> ""უ""

transcribe:
    ""ბ""    -> ""ㅂ""
    ""გ""    -> ""ㄱ""
    ""დ""    -> ""ㄷ""
    ""ვ""    -> ""ㅂ""
    ""ზ""    -> ""ㅈ""
    ""თ""    -> ""ㅌ""
    ""კ""    -> ""ㄲ""
    ""^ლ""   -> ""ㄹ""
    ""{,}ლ"" -> ""ㄹ""
    ""ლ,""   -> ""-ㄹ""
    ""ლ""    -> ""-ㄹㄹ""
    ""მ,""   -> ""-ㅁ""
    ""მ""    -> ""ㅁ""
    ""ნ,""   -> ""-ㄴ""
    ""ნ""    -> ""ㄴ""
    ""პ""    -> ""ㅃ""
    ""ჟ""    -> ""ㅈ""
    ""რ""    -> ""ㄹ""
    ""ს""    -> ""ㅅ""
    ""ტ""    -> ""ㄸ""
    ""ფ""    -> ""ㅍ""
    ""ქ""    -> ""ㅋ""
    ""ღ""    -> ""ㄱ""
    ""ყ""    -> ""ㄲ""
    ""ჩ""    -> ""ㅊ""
    ""ც""    -> ""ㅊ""
    ""ძ""    -> ""ㅈ""
    ""წ""    -> ""ㅉ""
    ""ჭ""    -> ""ㅉ""
    ""ხ""    -> ""ㅎ""
    ""ჯ""    -> ""ㅈ""
    ""ჰ""    -> ""ㅎ""
    ""ჶ""    -> ""ㅍ""
    ""ჸ""    -> ""ㅇ""
    ""შა""   -> ""ㅅㅑ""
    ""შე""   -> ""ㅅㅖ""
    ""ში""   -> ""ㅅㅣ""
    ""შო""   -> ""ㅅㅛ""
    ""შუ""   -> ""ㅅㅠ""
    ""შჷ""   -> ""ㅅㅕ""
    ""Vა""   -> ""ㅇㅘ""
    ""Vე""   -> ""ㅇㅞ""
    ""Vი""   -> ""ㅇㅟ""
    ""ა""    -> ""ㅏ""
    ""ე""    -> ""ㅔ""
    ""ი""    -> ""ㅣ""
    ""ო""    -> ""ㅗ""
    ""უ""    -> ""ㅜ""
    ""ჷ""    -> ""ㅓ""

test:
    ""ბურჯანაძე""      -> ""부르자나제""
    ""გრიგოლ""         -> ""그리골""
    ""არაყიშვილი""     -> ""아라끼슈윌리""
    ""ნიკოლოზ""        -> ""니꼴로즈""
    ""ზუგდიდი""        -> ""주그디디""
    ""ფოთი""           -> ""포티""
    ""რაფიელ""         -> ""라피엘""
    ""ჩიქობავა""       -> ""치코바바""
    ""მაყვალა""        -> ""마끄왈라""
    ""ლევან""          -> ""레반""
    ""სააკაშვილი""     -> ""사까슈윌리""
    ""თამარი""         -> ""타마리""
    ""ნიკა""           -> ""니까""
    ""სააკაძე""        -> ""사까제""
    ""ჟვანია""         -> ""주와니아""
    ""პეტრე""          -> ""뻬뜨레""
    ""კონსტანტინე""    -> ""꼰스딴띠네""
    ""მერაბ""          -> ""메라브""
    ""კიტა""           -> ""끼따""
    ""გრიშაშვილი""     -> ""그리샤슈윌리""
    ""ქასრაშვილი""     -> ""카스라슈윌리""
    ""მანაგაძე""       -> ""마나가제""
    ""მტკვარი""        -> ""음뜨끄와리""
    ""ელენე""          -> ""엘레네""
    ""ზურაბ""          -> ""주라브""
    ""გილაური""        -> ""길라우리""
    ""ჯვარი""          -> ""즈와리""
    ""არნოლდ""         -> ""아르놀드""
    ""გამსახურდია""    -> ""감사후르디아""
    ""ბათუმი""         -> ""바투미""
    ""ფარნავაზი""      -> ""파르나바지""
    ""ნინო""           -> ""니노""
    ""იოსებ""          -> ""이오세브""
    ""კახა""           -> ""까하""
    ""ავტო""           -> ""아프또""
    ""მითრიდატე""      -> ""미트리다떼""
    ""კოსტავა""        -> ""꼬스따바""
    ""ერისთავი""       -> ""에리스타비""
    ""ფაჩულია""        -> ""파출리아""
    ""აბაშიძე""        -> ""아바시제""
    ""აზმაიფარაშვილი"" -> ""아즈마이파라슈윌리""
    ""ჯავახიშვილი""    -> ""자바히슈윌리""
    ""არველაძე""       -> ""아르벨라제""
    ""ედუარდ""         -> ""에두아르드""
    ""კალანდაძე""      -> ""깔란다제""
"%bstr.

Definition src_kat_2_2 : bstr := "    ""ზარზმა""         -> ""자르즈마""
    ""დავით""          -> ""다비트""
    ""ახვლედიანი""     -> ""아흐블레디아니""
    ""მთაწმინდა""      -> ""음타쯔민다""
    ""მგალობლიშვილ""   -> ""음갈로블리슈윌""
    ""ზაზა""           -> ""자자""
    ""თათია""          -> ""타티아""
    ""მიხეილ""         -> ""미헤일""
    ""კალაძე""         -> ""깔라제""
    ""ბარათაშვილი""    -> ""바라타슈윌리""
    ""დიმიტრი""        -> ""디미뜨리""
    ""ალექსანდრე""     -> ""알레크산드레""
    ""ზვიად""          -> ""즈위아드""
    ""ჭილაშვილი""      -> ""찔라슈윌리""
    ""ანა""            -> ""아나""
    ""რუსთავი""        -> ""루스타비""
    ""ვახუშტი""        -> ""바후슈띠""
    ""ღონღაძე""        -> ""곤가제""
    ""ამილახვარი""     -> ""아밀라흐와리""
    ""შევარდნაძე""     -> ""셰바르드나제""
    ""კახაბერ""        -> ""까하베르""
    ""ქუთაისი""        -> ""쿠타이시""
    ""გიორგი""         -> ""기오르기""
    ""ავალიშვილი""     -> ""아발리슈윌리""
    ""თბილისი""        -> ""트빌리시""
    ""შოთა""           -> ""쇼타""
    ""გორი""           -> ""고리""

"%bstr.

Definition src_kat_2 : list bstr := [src_kat_2_1; src_kat_2_2].

Definition src_lat_1 : bstr := "lang:
    id      = ""lat""
    codes   = ""la"", ""lat""
    english = ""Latin""
    korean  = ""라틴어""
    script  = ""Latn""

config:
    author = ""Brian Jongseong Park <iceager@gmail.com>""
    stage  = ""draft""

macros:
    ""@"" = ""<vowels>""

vars:
    ""so""     = ""l"", ""m"", ""n"", ""r""
    ""vl""     = ""c"", ""f"", ""p"", ""s"", ""t""
    ""vowels"" = ""a"", ""e"", ""ë"", ""i"", ""o"", ""u"", ""ü"", ""y""

normalize:
    ""ë"" = ""Ë""
    ""æ"" = ""Æ""
    ""œ"" = ""Œ""
    ""ü"" = ""Ü""

rewrite:
    ""æ""          -> ""ae""
    ""œ""          -> ""oe""
    ""maior""      -> ""maJor""
    ""traian""     -> ""traJan""
    ""{@}ë""       -> ""%e""
    ""ë""          -> ""e""
    ""ü{@}""       -> ""u%""
    ""ü""          -> ""u""
    ""jj""         -> ""j""
    ""^j{@}""      -> ""J""
    ""{@}j{@}""    -> ""J""
    ""j""          -> ""i""
    ""^i{@}""      -> ""J""
    ""^iv{@}""     -> ""iV""
    ""^iv""        -> ""Ju""
    ""w""          -> ""V""
    ""qv{@}""      -> ""qu""
    ""qu{a|e|i}""  -> ""cW""
    ""q""          -> ""c""
    ""gu{a|e|i}""  -> ""gW""
    ""^u{@}""      -> ""V""
    ""^v{@}""      -> ""V""
    ""{@}l""       -> ""lQ""
    ""{@}m""       -> ""mQ""
    ""{@}n""       -> ""nQ""
    ""{@}r""       -> ""rQ""
    ""{@|Q}u{@}""  -> ""V""
    ""{@|Q}v{@}""  -> ""V""
    ""Q""          -> """"
    ""vv{@}""      -> ""uV""
    ""v""          -> ""u""
    ""y""          -> ""i""
    ""{a|o}e""     -> ""i""
    ""bb""         -> ""b""
    ""k""          -> ""c""
    ""xx""         -> ""x""
    ""x""          -> ""cs""
    ""cc""         -> ""c""
    ""dd""         -> ""d""
    ""ff""         -> ""f""
    ""gg""         -> ""g""
    ""hh""         -> ""h""
    ""ll""         -> ""l""
    ""{@}mm{@}""   -> ""m,m""
    ""{@}nn{@}""   -> ""n,n""
    ""pp""         -> ""p""
    ""rr""         -> ""r""
    ""ss""         -> ""s""
    ""tt""         -> ""t""
    ""zz""         -> ""z""
    ""{c|p|t}h""   -> """"
    ""n{c|g}""     -> ""N""
    ""{@}b{s|t}""  -> ""p,""
    ""{@}c{<vl>}"" -> ""c,""
    ""{@}p{<vl>}"" -> ""p,""
    ""^l""         -> ""l;""
    ""^m""         -> ""m;""
    ""^n""         -> ""n;""
    ""l$""         -> ""l,""
    ""m$""         -> ""m,""
    ""n$""         -> ""n,""
    ""l{@|m,|n,}"" -> ""l;""
    ""{,}l""       -> ""l;""
    ""m{@}""       -> ""m;""
    ""n{@}""       -> ""n;""
    ""l""          -> ""l,""
    ""m""          -> ""m,""
    ""n""          -> ""n,""
    "",,""         -> "",""
    "",;""         -> """"
    "",l,""        -> ""l,""
    "",m,""        -> ""m,""
    "",n,""        -> ""n,""
    ""l{m;|n;}""   -> ""l,""
    "";""          -> """"

transcribe:
    ""b""    -> ""ㅂ""
    ""c,""   -> ""-ㄱ""
    ""c""    -> ""ㅋ""
    ""d""    -> ""ㄷ""
    ""f""    -> ""ㅍ""
    ""g""    -> ""ㄱ""
    ""h""    -> ""ㅎ""
    ""^l""   -> ""ㄹ""
    ""{,}l"" -> ""ㄹ""
    ""l,""   -> ""-ㄹ""
    ""l""    -> ""-ㄹㄹ""
    ""m,""   -> ""-ㅁ""
    ""m""    -> ""ㅁ""
    ""n,""   -> ""-ㄴ""
    ""n""    -> ""ㄴ""
    ""N""    -> ""-ㅇ""
    ""p,""   -> ""-ㅂ""
    ""p""    -> ""ㅍ""
    ""r""    -> ""ㄹ""
    ""s""    -> ""ㅅ""
    ""t""    -> ""ㅌ""
    ""V""    -> ""ㅂ""
    ""z""    -> ""ㅈ""
    ""Ja""   -> ""ㅑ""
    ""Je""   -> ""ㅖ""
    ""Ji""   -> ""ㅣ""
    ""Jo""   -> ""ㅛ""
    ""Ju""   -> ""ㅠ""
    ""Wa""   -> ""ㅘ""
    ""We""   -> ""ㅞ""
    ""Wi""   -> ""ㅟ""
    ""a""    -> ""ㅏ""
    ""e""    -> ""ㅔ""
    ""i""    -> ""ㅣ""
    ""o""    -> ""ㅗ""
    ""u""    -> ""ㅜ""

test:
    ""Titus Maccius Plautus""                        -> ""티투스 마키우스 플라우투스""
    ""FLAVIVS VALERIVS AVRELIVS CONSTANTINVS""       -> ""플라비우스 발레리우스 아우렐리우스 콘스탄티누스""
    ""Iuno""                                         -> ""유노""
    ""PVBLIVS CORNELIVS TACITVS""                    -> ""푸블리우스 코르넬리우스 타키투스""
    ""consul""                                       -> ""콘술""
    ""Quintus Horatius Flaccus""                     -> ""퀸투스 호라티우스 플라쿠스""
    ""Lusitania""                                    -> ""루시타니아""
    ""GAIVS AVRELIVS VALERIVS DIOCLETIANVS""         -> ""가이우스 아우렐리우스 발레리우스 디오클레티아누스""
    ""Publius Aelius Hadrianus""                     -> ""푸블리우스 아일리우스 하드리아누스""
    ""Cyrus""                                        -> ""키루스""
    ""Commentarii de Bello Gallico""                 -> ""콤멘타리이 데 벨로 갈리코""
    ""GAIVS SVETONIVS TRANQVILLVS""                  -> ""가이우스 수에토니우스 트랑퀼루스""
    ""Apuleius""                                     -> ""아풀레이우스""
    ""Assyria""                                      -> ""아시리아""
    ""Marcus Antonius""                              -> ""마르쿠스 안토니우스""
    ""Lucius Cornelius Sulla Felix""                 -> ""루키우스 코르넬리우스 술라 펠릭스""
    ""GAIVS PLINIVS CAECILIVS SECVNDVS""             -> ""가이우스 플리니우스 카이킬리우스 세쿤두스""
    ""MARCVS VIPSANIVS AGRIPPA""                     -> ""마르쿠스 빕사니우스 아그리파""
    ""Minerva""                                      -> ""미네르바""
    ""Hannibal""                                     -> ""한니발""
    ""Georgius Agricola""                            -> ""게오르기우스 아그리콜라""
    ""Nicolaus Copernicus""                          -> ""니콜라우스 코페르니쿠스""
    ""GAIVS VALERIVS CATVLLVS""                      -> ""가이우스 발레리우스 카툴루스""
    ""Neptunus""                                     -> ""넵투누스""
    ""Britannia""                                    -> ""브리탄니아""
    ""Publius Cornelius Tacitus""                    -> ""푸블리우스 코르넬리우스 타키투스""
    ""senatus""                                      -> ""세나투스""
    ""Darius""                                       -> ""다리우스""
    ""Lucius Aurelius Commodus Antoninus""           -> ""루키우스 아우렐리우스 콤모두스 안토니누스""
    ""Metamorphoseon""                               -> ""메타모르포세온""
    ""Asia""                                         -> ""아시아""
    ""Gaius Valerius Catullus""                      -> ""가이우스 발레리우스 카툴루스""
    ""Marcus Licinius Crassus""                      -> ""마르쿠스 리키니우스 크라수스""
    ""Gaius Marius""                                 -> ""가이우스 마리우스""
    ""FLAVIVS AËTIVS""                               -> ""플라비우스 아에티우스""
    ""Syracusae""                                    -> ""시라쿠사이""
    ""Gnaeus Pompeius Magnus""                       -> ""그나이우스 폼페이우스 마그누스""
    ""MARCUS VLPIVS NERVA TRAIANVS""                 -> ""마르쿠스 울피우스 네르바 트라야누스""
    ""GAIVS OCTAVIVS""                               -> ""가이우스 옥타비우스""
    ""Roma""                                         -> ""로마""
    ""Illyricum""                                    -> ""일리리쿰""
    ""Bacchus""                                      -> ""바쿠스""
    ""Aeneis""                                       -> ""아이네이스""
    ""Iudaea""                                       -> ""유다이아""
    ""MARCVS TVLLIVS CICERO""                        -> ""마르쿠스 툴리우스 키케로""
    ""Gnaeus Julius Agricola""                       -> ""그나이우스 율리우스 아그리콜라""
    ""Mons Vesuvius""                                -> ""몬스 베수비우스""
    ""Carthago""                                     -> ""카르타고""
    ""SPARTACVS""                                    -> ""스파르타쿠스""
    ""Flavius Petrus Sabbatius Justinianus""         -> ""플라비우스 페트루스 사바티우스 유스티니아누스""
    ""GAIVS PLINIVS SECVNDVS""                       -> ""가이우스 플리니우스 세쿤두스""
    ""Gaius Plinius Secundus""                       -> ""가이우스 플리니우스 세쿤두스""
    ""Vesta""                                        -> ""베스타""
    ""SEXTVS AVRELIVS PROPERTIVS""                   -> ""섹스투스 아우렐리우스 프로페르티우스""
    ""Venus""                                        -> ""베누스""
    ""Averroës""                                     -> ""아베로에스""
"%bstr.

Definition src_lat_2 : bstr := "    ""Titus Flavius Vespasianus""                    -> ""티투스 플라비우스 베스파시아누스""
    ""IVLIA AVGVSTA AGRIPPINA""                      -> ""율리아 아우구스타 아그리피나""
    ""Marcus Tullius Cicero""                        -> ""마르쿠스 툴리우스 키케로""
    ""Diana""                                        -> ""디아나""
    ""Gaius Suetonius Tranquillus""                  -> ""가이우스 수에토니우스 트랑퀼루스""
    ""Numidia""                                      -> ""누미디아""
    ""Gotarzes""                                     -> ""고타르제스""
    ""Sextus Aurelius Propertius""                   -> ""섹스투스 아우렐리우스 프로페르티우스""
    ""GNAEVS POMPEIVS MAGNVS""                       -> ""그나이우스 폼페이우스 마그누스""
    ""Spartacus""                                    -> ""스파르타쿠스""
    ""Mithridates""                                  -> ""미트리다테스""
    ""GAIVS IVLIVS CAESAR AVGVSTVS""                 -> ""가이우스 율리우스 카이사르 아우구스투스""
    ""TITVS MACCIVS PLAVTVS""                        -> ""티투스 마키우스 플라우투스""
    ""Naturalis Historia""                           -> ""나투랄리스 히스토리아""
    ""res publica""                                  -> ""레스 푸블리카""
    ""Pax Romana""                                   -> ""팍스 로마나""
    ""Gaius Aurelius Valerius Diocletianus""         -> ""가이우스 아우렐리우스 발레리우스 디오클레티아누스""
    ""GNAEUS IVLIVS AGRICOLA""                       -> ""그나이우스 율리우스 아그리콜라""
    ""Titus Livius""                                 -> ""티투스 리비우스""
    ""Vulcanus""                                     -> ""불카누스""
    ""Flavius Odoacer""                              -> ""플라비우스 오도아케르""
    ""Gallia""                                       -> ""갈리아""
    ""Marcus Vitruvius Pollio""                      -> ""마르쿠스 비트루비우스 폴리오""
    ""Julia Augusta Agrippina""                      -> ""율리아 아우구스타 아그리피나""
    ""QVINTVS HORATIVS FLACCVS""                     -> ""퀸투스 호라티우스 플라쿠스""
    ""GAIVS IVLIVS CAESAR""                          -> ""가이우스 율리우스 카이사르""
    ""PVBLIVS VERGILIVS MARO""                       -> ""푸블리우스 베르길리우스 마로""
    ""Mars""                                         -> ""마르스""
    ""MARCVS ANTONIVS""                              -> ""마르쿠스 안토니우스""
    ""Gaius Sallustius Crispus""                     -> ""가이우스 살루스티우스 크리스푸스""
    ""TIBERIVS CLAVDIVS CAESAR AVGVSTVS GERMANICVS"" -> ""티베리우스 클라우디우스 카이사르 아우구스투스 게르마니쿠스""
    ""MARCVS LICINIVS CRASSVS""                      -> ""마르쿠스 리키니우스 크라수스""
    ""GAIVS SALLVSTIVS CRISPVS""                     -> ""가이우스 살루스티우스 크리스푸스""
    ""Flavius Valerius Aurelius Constantinus""       -> ""플라비우스 발레리우스 아우렐리우스 콘스탄티누스""
    ""Gaius Plinius Caecilius Secundus""             -> ""가이우스 플리니우스 카이킬리우스 세쿤두스""
    ""Padus""                                        -> ""파두스""
    ""Latium""                                       -> ""라티움""
    ""Anselmus""                                     -> ""안셀무스""
    ""Flavius Josephus""                             -> ""플라비우스 요세푸스""
    ""Pluto""                                        -> ""플루토""
    ""Galatia""                                      -> ""갈라티아""
    ""Nero Claudius Caesar Augustus Germanicus""     -> ""네로 클라우디우스 카이사르 아우구스투스 게르마니쿠스""
    ""TITVS FLAVIVS VESPASIANVS""                    -> ""티투스 플라비우스 베스파시아누스""
    ""Apollo""                                       -> ""아폴로""
    ""Thracia""                                      -> ""트라키아""
    ""Aurelius Augustinus Hipponensis""              -> ""아우렐리우스 아우구스티누스 히포넨시스""
    ""Germania""                                     -> ""게르마니아""
    ""NERO CLAVDIVS CAESAR AVGVSTVS GERMANICVS""     -> ""네로 클라우디우스 카이사르 아우구스투스 게르마니쿠스""
    ""Gaius Julius Caesar Augustus""                 -> ""가이우스 율리우스 카이사르 아우구스투스""
    ""Cannae""                                       -> ""칸나이""
    ""Publius Vergilius Maro""                       -> ""푸블리우스 베르길리우스 마로""
    ""LVCIVS ANNAEUS SENECA""                        -> ""루키우스 안나이우스 세네카""
    ""TITVS LIVIVS""                                 -> ""티투스 리비우스""
    ""Marcus Ulpius Nerva Trajanus""                 -> ""마르쿠스 울피우스 네르바 트라야누스""
    ""Sicilia""                                      -> ""시킬리아""
    ""APVLEIVS""                                     -> ""아풀레이우스""
    ""Cornelia Scipionis Africana""                  -> ""코르넬리아 스키피오니스 아프리카나""
    ""Iupitter""                                     -> ""유피테르""
    ""Lucius Annaeus Seneca""                        -> ""루키우스 안나이우스 세네카""
    ""Carolus Magnus""                               -> ""카롤루스 마그누스""
    ""Confessiones""                                 -> ""콘페시오네스""
    ""GAIVS MARIVS""                                 -> ""가이우스 마리우스""
    ""PVBLIVS AELIVS HADRIANVS""                     -> ""푸블리우스 아일리우스 하드리아누스""
    ""Ceres""                                        -> ""케레스""
    ""CORNELIA SCIPIONIS AFRICANA""                  -> ""코르넬리아 스키피오니스 아프리카나""
    ""Ianus""                                        -> ""야누스""
    ""MARCVS VITRVVIVS POLLIO""                      -> ""마르쿠스 비트루비우스 폴리오""
    ""Gaius Julius Caesar""                          -> ""가이우스 율리우스 카이사르""
    ""Philosophiæ Naturalis Principia Mathematica""  -> ""필로소피아이 나투랄리스 프링키피아 마테마티카""
    ""Saturnus""                                     -> ""사투르누스""
    ""Parthia""                                      -> ""파르티아""
    ""FLAVIVS PETRVS SABBATIVS IVSTINIANVS""         -> ""플라비우스 페트루스 사바티우스 유스티니아누스""
    ""Aegyptus""                                     -> ""아이깁투스""
    ""Hispania""                                     -> ""히스파니아""
    ""LVCIVS CORNELIVS SVLLA FELIX""                 -> ""루키우스 코르넬리우스 술라 펠릭스""
    ""Tiberius Claudius Caesar Augustus Germanicus"" -> ""티베리우스 클라우디우스 카이사르 아우구스투스 게르마니쿠스""
    ""LVCIVS AVRELIVS COMMODVS ANTONINVS""           -> ""루키우스 아우렐리우스 콤모두스 안토니누스""
    ""Gaius Octavius""                               -> ""가이우스 옥타비우스""
    ""Flavius Aëtius""                               -> ""플라비우스 아에티우스""
    ""Mercurius""                                    -> ""메르쿠리우스""
    ""Marcus Vipsanius Agrippa""                     -> ""마르쿠스 빕사니우스 아그리파""

"%bstr.

Definition src_lat : list bstr := [src_lat_1; src_lat_2].

Definition src_lav_1 : bstr := "lang:
    id      = ""lav""
    codes   = ""lv"", ""lav""
    english = ""Latvian""
    korean  = ""라트비아어""
    script  = ""Latn""

config:
    author = ""Brian Jongseong Park <iceager@gmail.com>""
    stage  = ""draft""

macros:
    ""@"" = ""<vowels>""

vars:
    ""cs""     = ""b"", ""c"", ""C"", ""d"", ""D"", ""f"", ""g"", ""G"", ""h"", ""H"", ""k"", ""K"", ""l"", ""m"", ""n"", ""N"", ""p"", ""r"", ""s"", ""S"", ""t"", ""v"", ""z"", ""Z""
    ""vl""     = ""c"", ""C"", ""f"", ""H"", ""k"", ""K"", ""p"", ""s"", ""S"", ""t""
    ""vo""     = ""b"", ""d"", ""D"", ""g"", ""G"", ""h"", ""l"", ""m"", ""n"", ""N"", ""r"", ""v"", ""z"", ""Z""
    ""vowels"" = ""a"", ""e"", ""i"", ""o"", ""u""

normalize:
    ""š"" = ""Š""
    ""ģ"" = ""Ģ""
    ""ņ"" = ""Ņ""
    ""č"" = ""Č""
    ""ķ"" = ""Ķ""
    ""ļ"" = ""Ļ""
    ""ž"" = ""Ž""

rewrite:
    ""č""                   -> ""C""
    ""ģ""                   -> ""G""
    ""ķ""                   -> ""K""
    ""ļ{@}""                -> ""lj""
    ""ļ""                   -> ""l""
    ""{@}n{g|k}""           -> ""N""
    ""Ng{@|j|l|r}""         -> ""N,g""
    ""Ng""                  -> ""N,""
    ""ņ{@}""                -> ""nj""
    ""ņ""                   -> ""n""
    ""š""                   -> ""S""
    ""ch""                  -> ""H""
    ""ts""                  -> ""c""
    ""tS""                  -> ""C""
    ""d{G|K}""              -> """"
    ""t{G|K}""              -> """"
    ""G""                   -> ""D""
    ""K""                   -> ""C""
    ""dz""                  -> ""X""
    ""tz""                  -> ""X""
    ""dž""                  -> ""D""
    ""tž""                  -> ""D""
    ""ž""                   -> ""Z""
    ""{c|C|D|s|S|X|z|Z}s$"" -> """"
    ""y""                   -> ""i""
    ""{s|S}je""             -> ""Je""
    ""{<cs>}je""            -> ""e""
    ""j{@}""                -> ""J""
    ""ij""                  -> ""i""
    ""j""                   -> ""i""
    ""{c|C|D|S|X|z|Z}J""    -> """"
    ""qu""                  -> ""kv""
    ""q""                   -> ""k""
    ""w""                   -> ""v""
    ""{@}v{<cs>}""          -> ""u""
    ""{@}v$""               -> ""u""
    ""x""                   -> ""ks""
    ""bb""                  -> ""b""
    ""dd""                  -> ""d""
    ""ff""                  -> ""f""
    ""gg""                  -> ""g""
    ""hh""                  -> ""h""
    ""kk""                  -> ""k""
    ""ll""                  -> ""l""
    ""mm""                  -> ""m,m""
    ""nn""                  -> ""n,n""
    ""pp""                  -> ""p""
    ""rr""                  -> ""r""
    ""ss""                  -> ""s""
    ""SS""                  -> ""S""
    ""tt""                  -> ""t""
    ""vv""                  -> ""v""
    ""zz""                  -> ""z""
    ""ZZ""                  -> ""Z""
    ""ds{<vo>}""            -> ""X""
    ""ds""                  -> ""c""
    ""dS{<vo>}""            -> ""Z""
    ""dS""                  -> ""C""
    ""bz{<vl>}""            -> ""ps""
    ""gz{<vl>}""            -> ""ks""
    ""bZ{<vl>}""            -> ""pS""
    ""gZ{<vl>}""            -> ""kS""
    ""b{<vl>}""             -> ""p""
    ""d{<vl>}""             -> ""t""
    ""D{<vl>}""             -> ""C""
    ""g{<vl>}""             -> ""k""
    ""G{<vl>}""             -> ""K""
    ""X{<vl>}""             -> ""c""
    ""z{<vl>}""             -> ""s""
    ""Z{<vl>}""             -> ""S""
    ""{@}k{<vl>}""          -> ""k,""
    ""{@}p{<vl>}""          -> ""p,""
    ""ts""                  -> ""c""
    ""tS""                  -> ""C""
    ""C{<cs>}""             -> ""ci""
    ""C$""                  -> ""ci""
    ""D{<cs>}""             -> ""zi""
    ""D$""                  -> ""zi""
    ""Z{<cs>}""             -> ""zu""
    ""Z$""                  -> ""zu""
    ""S{<cs>}""             -> ""sJu""
    ""S$""                  -> ""sJu""
    ""C""                   -> ""c""
    ""D""                   -> ""z""
    ""H""                   -> ""h""
    ""S""                   -> ""sJ""
    ""X""                   -> ""z""
    ""Z""                   -> ""z""
    ""^l""                  -> ""l;""
    ""^m""                  -> ""m;""
    ""^n""                  -> ""n;""
    ""l$""                  -> ""l,""
    ""m$""                  -> ""m,""
    ""n$""                  -> ""n,""
    ""l{@|J|m,|n,}""        -> ""l;""
    ""{,}l""                -> ""l;""
    ""m{@|J}""              -> ""m;""
    ""n{@|J}""              -> ""n;""
    ""l""                   -> ""l,""
    ""m""                   -> ""m,""
    ""n""                   -> ""n,""
    "",,""                  -> "",""
    "",;""                  -> """"
    "",l,""                 -> ""l,""
    "",m,""                 -> ""m,""
    "",n,""                 -> ""n,""
    ""l{m;|n;}""            -> ""l,""
    "";""                   -> """"

transcribe:
    ""b""    -> ""ㅂ""
    ""c""    -> ""ㅊ""
    ""d""    -> ""ㄷ""
    ""f""    -> ""ㅍ""
    ""g""    -> ""ㄱ""
    ""h""    -> ""ㅎ""
    ""k,""   -> ""-ㄱ""
    ""k""    -> ""ㅋ""
    ""^l""   -> ""ㄹ""
    ""{,}l"" -> ""ㄹ""
    ""l,""   -> ""-ㄹ""
    ""l""    -> ""-ㄹㄹ""
    ""m,""   -> ""-ㅁ""
    ""m""    -> ""ㅁ""
    ""n,""   -> ""-ㄴ""
    ""n""    -> ""ㄴ""
    ""N""    -> ""-ㅇ""
    ""p,""   -> ""-ㅂ""
    ""p""    -> ""ㅍ""
    ""r""    -> ""ㄹ""
    ""s""    -> ""ㅅ""
    ""t""    -> ""ㅌ""
    ""v""    -> ""ㅂ""
    ""z""    -> ""ㅈ""
    ""Ja""   -> ""ㅑ""
    ""Je""   -> ""ㅖ""
    ""Ji""   -> ""ㅣ""
    ""Jo""   -> ""ㅛ""
    ""Ju""   -> ""ㅠ""
    ""a""    -> ""ㅏ""
    ""e""    -> ""ㅔ""
    ""i""    -> ""ㅣ""
    ""o""    -> ""ㅗ""
    ""u""    -> ""ㅜ""

test:
    ""Nikolajs Loskis""          -> ""니콜라이스 로스키스""
    ""Daugava""                  -> ""다우가바""
    ""Andrejs Pumpurs""          -> ""안드레이스 품푸르스""
    ""Alberts""                  -> ""알베르츠""
    ""Kārlis Irbītis""           -> ""카를리스 이르비티스""
    ""Artis Pabriks""            -> ""아르티스 파브릭스""
    ""Elvīra Ozoliņa""           -> ""엘비라 오졸리냐""
    ""Eliass Eliezers Desslers"" -> ""엘리아스 엘리에제르스 데슬레르스""
    ""Eduards Veidenbaums""      -> ""에두아르츠 베이덴바움스""
    ""Miķelis Krogzemis""        -> ""미첼리스 크로그제미스""
    ""Stanislavs Olijars""       -> ""스타니슬라우스 올리야르스""
    ""Ernests Blanks""           -> ""에르네스츠 블랑크스""
    ""Eduards Berklavs""         -> ""에두아르츠 베르클라우스""
    ""Pēteris Stučka""           -> ""페테리스 스투치카""
    ""Artūrs Irbe""              -> ""아르투르스 이르베""
    ""Sandis Ozoliņš""           -> ""산디스 오졸린슈""
    ""Juris Rubenis""            -> ""유리스 루베니스""
    ""Valdis Zatlers""           -> ""발디스 자틀레르스""
    ""Sergejs Eizenšteins""      -> ""세르게이스 에이젠슈테인스""
    ""Aleksandrs Koblencs""      -> ""알렉산드르스 코블렌츠""
    ""Vidzeme""                  -> ""비제메""
    ""Daugavpils""               -> ""다우가우필스""
    ""Ojārs Vācietis""           -> ""오야르스 바치에티스""
    ""Ventspils""                -> ""벤츠필스""
    ""Kurzeme""                  -> ""쿠르제메""
    ""Uļjana Semjonova""         -> ""울랴나 세묘노바""
    ""Sergejs Žoltoks""          -> ""세르게이스 졸톡스""
    ""Rūdolfs Blaumanis""        -> ""루돌프스 블라우마니스""
    ""Grobiņa""                  -> ""그로비냐""
    ""Rēzekne""                  -> ""레제크네""
    ""Vladimirs Petrovs""        -> ""블라디미르스 페트로우스""
    ""Aleksandrs Kovaļevskis""   -> ""알렉산드르스 코발레우스키스""
    ""Emīls Dārziņš""            -> ""에밀스 다르진슈""
    ""Imants Ziedonis""          -> ""이만츠 지에도니스""
    ""Latgale""                  -> ""라트갈레""
    ""Aleksandrs Vanags""        -> ""알렉산드르스 바낙스""
    ""Miķelis Valters""          -> ""미첼리스 발테르스""
    ""Jūrmala""                  -> ""유르말라""
    ""Vizma Belševica""          -> ""비즈마 벨셰비차""
    ""Krišjānis Valdemārs""      -> ""크리샤니스 발데마르스""
    ""Latvija""                  -> ""라트비야""
    ""Kārlis Ulmanis""           -> ""카를리스 울마니스""
    ""Gustavs Klucis""           -> ""구스타우스 클루치스""
    ""Ernests Štālbergs""        -> ""에르네스츠 슈탈베르크스""
    ""Helmuts Balderis""         -> ""헬무츠 발데리스""
    ""Kaspars Kambala""          -> ""카스파르스 캄발라""
    ""Visvaldis""                -> ""비스발디스""
"%bstr.

Definition src_lav_2 : bstr := "    ""Māris Štrombergs""         -> ""마리스 슈트롬베르크스""
    ""Guntis Ulmanis""           -> ""군티스 울마니스""
    ""Jānis Balodis""            -> ""야니스 발로디스""
    ""Movša Feigins""            -> ""모우샤 페이긴스""
    ""Vilhelms Ostvalds""        -> ""빌헬름스 오스트발츠""
    ""Valdemārs Ozoliņš""        -> ""발데마르스 오졸린슈""
    ""Mārtiņš Rubenis""          -> ""마르틴슈 루베니스""
    ""Elīna Garanča""            -> ""엘리나 가란차""
    ""Ābrams Izāks Kūks""        -> ""아브람스 이작스 쿡스""
    ""Jersika""                  -> ""예르시카""
    ""Juris Kronbergs""          -> ""유리스 크론베르크스""
    ""Makss Veinreihs""          -> ""막스 베인레이흐스""
    ""Jēkabpils""                -> ""예캅필스""
    ""Uvis Helmanis""            -> ""우비스 헬마니스""
    ""Aleksandrs Voitkevičs""    -> ""알렉산드르스 보이트케비치""
    ""Kārlis Padegs""            -> ""카를리스 파덱스""
    ""Jevgēnija Ļisicina""       -> ""예우게니야 리시치나""
    ""Liepāja""                  -> ""리에파야""
    ""Elza Rozenberga""          -> ""엘자 로젠베르가""
    ""Aleksandrs Čaks""          -> ""알렉산드르스 착스""
    ""Jelgava""                  -> ""옐가바""
    ""Kārlis Zariņš""            -> ""카를리스 자린슈""
    ""Jānis Čakste""             -> ""야니스 착스테""
    ""Romāns Vainšteins""        -> ""로만스 바인슈테인스""
    ""Alberts Kviesis""          -> ""알베르츠 크비에시스""
    ""Rīga""                     -> ""리가""
    ""Zigfrīds Anna Meierovics"" -> ""직프리츠 안나 메이에로비츠""
    ""Mihails Barišņikovs""      -> ""미하일스 바리슈니코우스""
    ""Ernests Gulbis""           -> ""에르네스츠 굴비스""
    ""Jevgeņijs Millers""        -> ""예우게니스 밀레르스""
    ""Krišjānis Barons""         -> ""크리샤니스 바론스""
    ""Haralds Silovs""           -> ""하랄츠 실로우스""
    ""Koknese""                  -> ""코크네세""
    ""Valmiera""                 -> ""발미에라""
    ""Kārlis Mīlenbahs""         -> ""카를리스 밀렌바흐스""
    ""Andris Šķēle""             -> ""안드리스 슈첼레""
    ""Atis Kronvalds""           -> ""아티스 크론발츠""
    ""Gunārs Astra""             -> ""구나르스 아스트라""
    ""Gustavs Zemgals""          -> ""구스타우스 젬갈스""
    ""Māris Verpakovskis""       -> ""마리스 베르파코우스키스""
    ""Valdis Valters""           -> ""발디스 발테르스""
    ""Marians Pahars""           -> ""마리안스 파하르스""
    ""Zemgale""                  -> ""젬갈레""
    ""Gatis Jahovičs""           -> ""가티스 야호비치""
    ""Viktors Ščerbatihs""       -> ""빅토르스 슈체르바티흐스""
    ""Jāzeps Vītols""            -> ""야젭스 비톨스""
    ""Aleksandrs Laime""         -> ""알렉산드르스 라이메""
"%bstr.

Definition src_lav : list bstr := [src_lav_1; src_lav_2].

Definition src_lit_1 : bstr := "lang:
    id      = ""lit""
    codes   = ""lt"", ""lit""
    english = ""Lithuanian""
    korean  = ""리투아니아어""
    script  = ""Latn""

config:
    author = ""Brian Jongseong Park <iceager@gmail.com>""
    stage  = ""draft""

macros:
    ""@"" = ""<vowels>""

vars:
    ""cs""     = ""b"", ""c"", ""C"", ""d"", ""D"", ""f"", ""g"", ""h"", ""H"", ""k"", ""l"", ""m"", ""n"", ""N"", ""p"", ""r"", ""s"", ""S"", ""t"", ""v"", ""X"", ""z"", ""Z""
    ""vl""     = ""c"", ""C"", ""f"", ""H"", ""k"", ""p"", ""s"", ""S"", ""t""
    ""vo""     = ""b"", ""d"", ""D"", ""g"", ""h"", ""l"", ""m"", ""n"", ""N"", ""r"", ""v"", ""X"", ""z"", ""Z""
    ""vowels"" = ""a"", ""e"", ""i"", ""į"", ""o"", ""u""

normalize:
    ""š"" = ""Š""
    ""č"" = ""Č""
    ""į"" = ""ĩ"", ""Ĩ"", ""ī"", ""Ī"", ""Í"", ""ì"", ""í"", ""Ì"", ""Į""
    ""ž"" = ""Ž""

rewrite:
    ""č""                -> ""C""
    ""š""                -> ""S""
    ""{@}n{g|k}""        -> ""N""
    ""Ng{@|J|l|r}""      -> ""N,g""
    ""Ng""               -> ""N,""
    ""ch""               -> ""H""
    ""ts""               -> ""c""
    ""tS""               -> ""C""
    ""dz""               -> ""X""
    ""tz""               -> ""X""
    ""dž""               -> ""D""
    ""tž""               -> ""D""
    ""ž""                -> ""Z""
    ""y""                -> ""i""
    ""ie""               -> ""i%e""
    ""i{@}""             -> ""J""
    ""į""                -> ""i""
    ""{s|S}je""          -> ""Je""
    ""{<cs>}je""         -> ""e""
    ""j{@}""             -> ""J""
    ""j""                -> ""i""
    ""{c|C|D|S|X|z|Z}J"" -> """"
    ""qu""               -> ""kv""
    ""q""                -> ""k""
    ""w""                -> ""v""
    ""{@}v{<cs>}""       -> ""u""
    ""{@}v$""            -> ""u""
    ""x""                -> ""ks""
    ""bb""               -> ""b""
    ""dd""               -> ""d""
    ""ff""               -> ""f""
    ""gg""               -> ""g""
    ""hh""               -> ""h""
    ""kk""               -> ""k""
    ""ll""               -> ""l""
    ""mm""               -> ""m,m""
    ""nn""               -> ""n,n""
    ""pp""               -> ""p""
    ""rr""               -> ""r""
    ""ss""               -> ""s""
    ""SS""               -> ""S""
    ""tt""               -> ""t""
    ""vv""               -> ""v""
    ""zz""               -> ""z""
    ""ZZ""               -> ""Z""
    ""ds{<vo>}""         -> ""X""
    ""ds""               -> ""c""
    ""dS{<vo>}""         -> ""Z""
    ""dS""               -> ""C""
    ""bz{<vl>}""         -> ""ps""
    ""gz{<vl>}""         -> ""ks""
    ""bZ{<vl>}""         -> ""pS""
    ""gZ{<vl>}""         -> ""kS""
    ""b{<vl>}""          -> ""p""
    ""b$""               -> ""p""
    ""d{<vl>}""          -> ""t""
    ""d$""               -> ""t""
    ""D{<vl>}""          -> ""C""
    ""D$""               -> ""C""
    ""g{<vl>}""          -> ""k""
    ""g$""               -> ""k""
    ""X{<vl>}""          -> ""c""
    ""X$""               -> ""c""
    ""z{<vl>}""          -> ""s""
    ""z$""               -> ""s""
    ""Z{<vl>}""          -> ""S""
    ""Z$""               -> ""S""
    ""{@}k{<vl>}""       -> ""k,""
    ""{@}p{<vl>}""       -> ""p,""
    ""ts""               -> ""c""
    ""tS""               -> ""C""
    ""C{<cs>}""          -> ""ci""
    ""C$""               -> ""ci""
    ""D{<cs>}""          -> ""zi""
    ""Z{<cs>}""          -> ""zu""
    ""S{<cs>}""          -> ""sJu""
    ""S$""               -> ""sJu""
    ""C""                -> ""c""
    ""D""                -> ""z""
    ""H""                -> ""h""
    ""S""                -> ""sJ""
    ""X""                -> ""z""
    ""Z""                -> ""z""
    ""^l""               -> ""l;""
    ""^m""               -> ""m;""
    ""^n""               -> ""n;""
    ""l$""               -> ""l,""
    ""m$""               -> ""m,""
    ""n$""               -> ""n,""
    ""l{@|J|m,|n,}""     -> ""l;""
    ""{,}l""             -> ""l;""
    ""m{@}""             -> ""m;""
    ""n{@|J}""           -> ""n;""
    ""l""                -> ""l,""
    ""m""                -> ""m,""
    ""n""                -> ""n,""
    "",,""               -> "",""
    "",;""               -> """"
    "",l,""              -> ""l,""
    "",m,""              -> ""m,""
    "",n,""              -> ""n,""
    ""l{m;|n;}""         -> ""l,""
    "";""                -> """"
    ""-""                -> """"

transcribe:
    ""b""    -> ""ㅂ""
    ""c""    -> ""ㅊ""
    ""d""    -> ""ㄷ""
    ""f""    -> ""ㅍ""
    ""g""    -> ""ㄱ""
    ""h""    -> ""ㅎ""
    ""k,""   -> ""-ㄱ""
    ""k""    -> ""ㅋ""
    ""^l""   -> ""ㄹ""
    ""{,}l"" -> ""ㄹ""
    ""l,""   -> ""-ㄹ""
    ""l""    -> ""-ㄹㄹ""
    ""m,""   -> ""-ㅁ""
    ""m""    -> ""ㅁ""
    ""n,""   -> ""-ㄴ""
    ""n""    -> ""ㄴ""
    ""N""    -> ""-ㅇ""
    ""p,""   -> ""-ㅂ""
    ""p""    -> ""ㅍ""
    ""r""    -> ""ㄹ""
    ""s""    -> ""ㅅ""
    ""t""    -> ""ㅌ""
    ""v""    -> ""ㅂ""
    ""z""    -> ""ㅈ""
    ""Ja""   -> ""ㅑ""
    ""Je""   -> ""ㅖ""
    ""Ji""   -> ""ㅣ""
    ""Jo""   -> ""ㅛ""
    ""Ju""   -> ""ㅠ""
    ""a""    -> ""ㅏ""
    ""e""    -> ""ㅔ""
    ""i""    -> ""ㅣ""
    ""o""    -> ""ㅗ""
    ""u""    -> ""ㅜ""

test:
    ""Robertas Poškus""          -> ""로베르타스 포슈쿠스""
    ""Panevėžys""                -> ""파네베지스""
    ""Jogaila""                  -> ""요가일라""
    ""Virgilijus Alekna""        -> ""비르길리유스 알레크나""
    ""Biržai""                   -> ""비르자이""
    ""Maironis""                 -> ""마이로니스""
    ""Alytus""                   -> ""알리투스""
    ""Deividas Šemberas""        -> ""데이비다스 솀베라스""
    ""Simonas Daukantas""        -> ""시모나스 다우칸타스""
    ""Gediminas Baravykas""      -> ""게디미나스 바라비카스""
    ""Algirdas""                 -> ""알기르다스""
    ""Valdas Adamkus""           -> ""발다스 아담쿠스""
    ""Elena Čiudakova""          -> ""엘레나 추다코바""
    ""Jonas Kubilius""           -> ""요나스 쿠빌류스""
    ""Darius Songaila""          -> ""다류스 송가일라""
    ""Vitas Gerulaitis""         -> ""비타스 게룰라이티스""
    ""Kęstutis""                 -> ""케스투티스""
    ""Jonušas Radvila""          -> ""요누샤스 라드빌라""
    ""Antanas Smetona""          -> ""안타나스 스메토나""
    ""Gediminas""                -> ""게디미나스""
    ""Žydrūnas Ilgauskas""       -> ""지드루나스 일가우스카스""
    ""Jonas Jablonskis""         -> ""요나스 야블론스키스""
    ""Įsrutis""                  -> ""이스루티스""
    ""Violeta Riaubiškytė""      -> ""뵬레타 랴우비슈키테""
    ""Čiurlionis""               -> ""추를료니스""
    ""Vincas Kudirka""           -> ""빈차스 쿠디르카""
    ""Edgaras Jankauskas""       -> ""에드가라스 양카우스카스""
    ""Tomas Danilevičius""       -> ""토마스 다닐레비추스""
    ""Laurynas Gucevičius""      -> ""라우리나스 구체비추스""
    ""Arvydas Sabonis""          -> ""아르비다스 사보니스""
    ""Šarūnas Jasikevičius""     -> ""샤루나스 야시케비추스""
    ""Šarūnas Marčiulionis""     -> ""샤루나스 마르출료니스""
    ""Jurgis Baltrušaitis""      -> ""유르기스 발트루샤이티스""
    ""Vytautas""                 -> ""비타우타스""
    ""Linas Kleiza""             -> ""리나스 클레이자""
    ""Mindaugas""                -> ""민다우가스""
    ""Kaunas""                   -> ""카우나스""
    ""Arminas Narbekovas""       -> ""아르미나스 나르베코바스""
    ""Mikalojus""                -> ""미칼로유스""
    ""Šiauliai""                 -> ""샤울랴이""
    ""Jonas Basanavičius""       -> ""요나스 바사나비추스""
    ""Marijampolė""              -> ""마리얌폴레""
    ""Mažeikiai""                -> ""마제이캬이""
    ""Ramūnas Šiškauskas""       -> ""라무나스 시슈카우스카스""
    ""Juozas Urbšys""            -> ""유오자스 우르프시스""
    ""Konstantinas""             -> ""콘스탄티나스""
    ""Dalia Grybauskaitė""       -> ""달랴 그리바우스카이테""
    ""Dubingiai""                -> ""두빙갸이""
    ""Trakai""                   -> ""트라카이""
    ""Martynas Mažvydas""        -> ""마르티나스 마주비다스""
    ""Mykolas Kleopas Oginskis"" -> ""미콜라스 클레오파스 오긴스키스""
    ""Kernavė""                  -> ""케르나베""
    ""Marius Stankevičius""      -> ""마류스 스탕케비추스""
    ""Bernardas Brazdžionis""    -> ""베르나르다스 브라즈조니스""
    ""Vytautas Straižys""        -> ""비타우타스 스트라이지스""
"%bstr.

Definition src_lit_2 : bstr := "    ""Jurgis Dobkevičius""       -> ""유르기스 돕케비추스""
    ""Salomėja Nėris""           -> ""살로메야 네리스""
    ""Klaipėda""                 -> ""클라이페다""
    ""Vilnius""                  -> ""빌뉴스""
    ""Marija Gimbutienė""        -> ""마리야 김부티에네""
    ""Kazimiera Prunskienė""     -> ""카지미에라 프룬스키에네""

"%bstr.

Definition src_lit : list bstr := [src_lit_1; src_lit_2].

Definition src_mkd_1 : bstr := "lang:
    id       = ""mkd""
    codes    = ""mk"", ""mkd""
    english  = ""Macedonian""
    korean   = ""마케도니아어""
    script   = ""Cyrl""
    translit = ""cyrillic[mk]""

config:
    author = ""Brian Jongseong Park <iceager@gmail.com>""
    stage  = ""draft""

macros:
    ""@"" = ""<vowels>""

vars:
    ""cs""     = ""б"", ""в"", ""г"", ""д"", ""ѓ"", ""ж"", ""з"", ""ѕ"", ""к"", ""л"", ""љ"", ""м"", ""н"", ""њ"", ""п"", ""р"", ""с"", ""т"", ""ќ"", ""ф"", ""х"", ""ц"", ""ч"", ""џ"", ""ш""
    ""vl""     = ""к"", ""п"", ""с"", ""т"", ""ќ"", ""ф"", ""х"", ""ц"", ""ч"", ""ш""
    ""vowels"" = ""а"", ""е"", ""и"", ""о"", ""у""

rewrite:
    ""град""                    -> ""град-""
    ""ѓураѓ""                   -> ""џураџ""
    ""срѓан""                   -> ""срџан""
    ""бб""                      -> ""б""
    ""вв""                      -> ""в""
    ""вф""                      -> ""ф""
    ""гг""                      -> ""г""
    ""дд""                      -> ""д""
    ""дж""                      -> ""џ""
    ""дц""                      -> ""ц""
    ""дч""                      -> ""ч""
    ""жж""                      -> ""ж""
    ""зз""                      -> ""з""
    ""зс""                      -> ""с""
    ""кк""                      -> ""к""
    ""лл""                      -> ""л""
    ""{@}мм{@}""                -> ""м,м""
    ""мм""                      -> ""м""
    ""{@}нн{@}""                -> ""н,н""
    ""нн""                      -> ""н""
    ""пп""                      -> ""п""
    ""рр""                      -> ""р""
    ""сс""                      -> ""с""
    ""тт""                      -> ""т""
    ""тц""                      -> ""ц""
    ""тч""                      -> ""ч""
    ""фф""                      -> ""ф""
    ""хх""                      -> ""х""
    ""цц""                      -> ""ц""
    ""чч""                      -> ""ч""
    ""шш""                      -> ""ш""
    ""шч""                      -> ""ш""
    ""{ѓ|ж|з|ѕ|ќ|ц|ч|џ|ш}ј{@}"" -> """"
    ""иј{<cs>}""                -> ""и""
    ""иј$""                     -> ""и""
    ""дз$""                     -> ""ѕ""
    ""дз{<cs>$}""               -> ""ѕ""
    ""дс$""                     -> ""ц""
    ""дс{<cs>}""                -> ""ц""
    ""тс""                      -> ""ц""
    ""дз""                      -> ""з""
    ""тз""                      -> ""з""
    ""нкт""                     -> ""Nт""
    ""б{<vl>}""                 -> ""п""
    ""б$""                      -> ""п""
    ""в{<vl>}""                 -> ""ф""
    ""в$""                      -> ""ф""
    ""г{<vl>}""                 -> ""к""
    ""г$""                      -> ""к""
    ""д{<vl>}""                 -> ""т""
    ""д$""                      -> ""т""
    ""ж{<vl>}""                 -> ""ш""
    ""ж$""                      -> ""ш""
    ""з{<vl>}""                 -> ""с""
    ""з$""                      -> ""с""
    ""ѕ{<vl>}""                 -> ""ц""
    ""ѕ$""                      -> ""ц""
    ""џ{<vl>}""                 -> ""ч""
    ""џ$""                      -> ""ч""
    ""ѓ{<vl>}""                 -> ""ќ""
    ""ѓ$""                      -> ""ќ""
    ""б{<vl>}""                 -> ""п""
    ""в{<vl>}""                 -> ""ф""
    ""г{<vl>}""                 -> ""к""
    ""д{<vl>}""                 -> ""т""
    ""ж{<vl>}""                 -> ""ш""
    ""з{<vl>}""                 -> ""с""
    ""ѕ{<vl>}""                 -> ""ц""
    ""џ{<vl>}""                 -> ""ч""
    ""ѓ{<vl>}""                 -> ""ќ""
    ""{@}к{<vl>}""              -> ""к,""
    ""{@}п{<vl>}""              -> ""п,""
    ""{<cs>}ј{@}""              -> ""и""
    ""ѓ{а|о|у}""                -> ""гј""
    ""ѓ{е|и}""                  -> ""г""
    ""ѓ""                       -> ""ѕи""
    ""ќ{а|о|у}""                -> ""кј""
    ""ќ{е|и}""                  -> ""к""
    ""ќ""                       -> ""ци""
    ""љ{а|о|у}""                -> ""лј""
    ""љ""                       -> ""л""
    ""њ{а|о|у}""                -> ""нј""
    ""њ""                       -> ""н""
    ""ж{@}""                    -> ""з""
    ""ж""                       -> ""зу""
    ""ч{@}""                    -> ""ц""
    ""ч""                       -> ""чи""
    ""џ{@}""                    -> ""ѕ""
    ""џ""                       -> ""ѕи""
    ""ш{@}""                    -> ""сј""
    ""ш$""                      -> ""си""
    ""ш""                       -> ""сју""
    ""^л""                      -> ""л;""
    ""^м""                      -> ""м;""
    ""^н""                      -> ""н;""
    ""л$""                      -> ""л,""
    ""м$""                      -> ""м,""
    ""н$""                      -> ""н,""
    ""л{@|ј|м,|н,|N}""          -> ""л;""
    ""м{@}""                    -> ""м;""
    ""н{@|ј}""                  -> ""н;""
    ""л""                       -> ""л,""
    ""м""                       -> ""м,""
    ""н""                       -> ""н,""
    "",,""                      -> "",""
    "",;""                      -> """"
    "",л,""                     -> ""л,""
    "",м,""                     -> ""м,""
    "",н,""                     -> ""н,""
    ""л{м;|н;}""                -> ""л,""
    "";|-""                     -> """"

transcribe:
    ""б""    -> ""ㅂ""
    ""в""    -> ""ㅂ""
    ""г""    -> ""ㄱ""
    ""д""    -> ""ㄷ""
    ""ж""    -> ""ㅈ""
    ""з""    -> ""ㅈ""
    ""ѕ""    -> ""ㅈ""
    ""ж""    -> ""ㅈ""
    ""к,""   -> ""-ㄱ""
    ""к""    -> ""ㅋ""
    ""^л""   -> ""ㄹ""
    ""{,}л"" -> ""ㄹ""
    ""л,""   -> ""-ㄹ""
    ""л""    -> ""-ㄹㄹ""
    ""м,""   -> ""-ㅁ""
    ""м""    -> ""ㅁ""
    ""н,""   -> ""-ㄴ""
    ""н""    -> ""ㄴ""
    ""N""    -> ""-ㅇ""
    ""п,""   -> ""-ㅂ""
    ""п""    -> ""ㅍ""
    ""р""    -> ""ㄹ""
    ""с""    -> ""ㅅ""
    ""т""    -> ""ㅌ""
    ""ф""    -> ""ㅍ""
    ""х""    -> ""ㅎ""
    ""ц""    -> ""ㅊ""
    ""ч""    -> ""ㅊ""
    ""ја""   -> ""ㅑ""
    ""је""   -> ""ㅖ""
    ""ји""   -> ""ㅣ""
    ""јо""   -> ""ㅛ""
    ""ју""   -> ""ㅠ""
    ""ј""    -> ""ㅣ""
    ""а""    -> ""ㅏ""
    ""е""    -> ""ㅔ""
    ""и""    -> ""ㅣ""
    ""о""    -> ""ㅗ""
    ""у""    -> ""ㅜ""

test:
    ""Кичево""                -> ""키체보""
    ""Коле Чашуле""           -> ""콜레 차슐레""
    ""Кирил Лазаров""         -> ""키릴 라자로프""
    ""Срѓан Керим""           -> ""스르잔 케림""
    ""Климент Охридски""      -> ""클리멘트 오흐리츠키""
    ""Кочани""                -> ""코차니""
    ""Жарко Кујунџиски""      -> ""자르코 쿠윤지스키""
    ""Бранко Црвенковски""    -> ""브란코 츠르벤코프스키""
    ""Велес""                 -> ""벨레스""
    ""Борис Трајковски""      -> ""보리스 트라이코프스키""
    ""Константин Миладинов""  -> ""콘스탄틴 밀라디노프""
    ""Македонија""            -> ""마케도니야""
    ""Димитар Миладинов""     -> ""디미타르 밀라디노프""
    ""Александар Џамбазов""   -> ""알렉산다르 잠바조프""
    ""Каролина Гочева""       -> ""카롤리나 고체바""
    ""Шар""                   -> ""샤르""
    ""Лазар Колишевски""      -> ""라자르 콜리셰프스키""
    ""Владо Бучковски""       -> ""블라도 부치코프스키""
    ""Тоше Проески""          -> ""토셰 프로에스키""
    ""Скопје""                -> ""스코피에""
    ""Саша Огненовски""       -> ""사샤 오그네노프스키""
    ""Ѓорѓи Пулевски""        -> ""교르기 풀레프스키""
    ""Славко Јаневски""       -> ""슬라프코 야네프스키""
    ""Куманово""              -> ""쿠마노보""
    ""Борјан Јовановски""     -> ""보리안 요바노프스키""
    ""Нов Дојран""            -> ""노프 도이란""
    ""Димитрије Бужаровски""  -> ""디미트리예 부자로프스키""
    ""Врбица Стефанов""       -> ""브르비차 스테파노프""
    ""Горан Стефановски""     -> ""고란 스테파노프스키""
    ""Слатино""               -> ""슬라티노""
"%bstr.

Definition src_mkd_2 : bstr := "    ""Никола Груевски""       -> ""니콜라 그루에프스키""
    ""Блаже Конески""         -> ""블라제 코네스키""
    ""Стевица Ристиќ""        -> ""스테비차 리스티치""
    ""Кочо Рацин""            -> ""코초 라친""
    ""Есма Реџепова""         -> ""에스마 레제포바""
    ""Прилеп""                -> ""프릴레프""
    ""Киро Глигоров""         -> ""키로 글리고로프""
    ""Петар Наумоски""        -> ""페타르 나우모스키""
    ""Никола Кљусев""         -> ""니콜라 클류세프""
    ""Баже Илијоски""         -> ""바제 일리요스키""
    ""Ѓорге Иванов""          -> ""교르게 이바노프""
    ""Струмица""              -> ""스트루미차""
    ""Крсте Мисирков""        -> ""크르스테 미시르코프""
    ""Гостивар""              -> ""고스티바르""
    ""Кратово""               -> ""크라토보""
    ""Струга""                -> ""스트루가""
    ""Коле Неделковски""      -> ""콜레 네델코프스키""
    ""Маркови Кули""          -> ""마르코비 쿨리""
    ""Металург""              -> ""메탈루르크""
    ""Хари Костов""           -> ""하리 코스토프""
    ""Јулија Портјанко""      -> ""율리야 포르티안코""
    ""Партенија Зографски""   -> ""파르테니야 조그라프스키""
    ""Кораб""                 -> ""코라프""
    ""Венко Марковски""       -> ""벤코 마르코프스키""
    ""Милан Ивановиќ""        -> ""밀란 이바노비치""
    ""Горан Пандев""          -> ""고란 판데프""
    ""Тодор Скаловски""       -> ""토도르 스칼로프스키""
    ""Живко Поповски-Цветин"" -> ""지프코 포포프스키츠베틴""
    ""Љубомир Цуцуловски""    -> ""류보미르 추출로프스키""
    ""Охрид""                 -> ""오흐리트""
    ""Куклица""               -> ""쿠클리차""
    ""Кавадарци""             -> ""카바다르치""
    ""Душан Савиќ""           -> ""두샨 사비치""
    ""Живко Чинго""           -> ""지프코 친고""
    ""Ѓорѓи Христов""         -> ""교르기 흐리스토프""
    ""Радовиш""               -> ""라도비시""
    ""Битола""                -> ""비톨라""
    ""Кокино""                -> ""코키노""
    ""Катарина Ивановска""    -> ""카타리나 이바노프스카""
    ""Димитар Димитров""      -> ""디미타르 디미트로프""
    ""Штип""                  -> ""슈티프""
    ""Тетово""                -> ""테토보""
    ""Гевгелија""             -> ""게브겔리야""
"%bstr.

Definition src_mkd : list bstr := [src_mkd_1; src_mkd_2].

