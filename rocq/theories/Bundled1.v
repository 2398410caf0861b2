(** Bundled specs, byte for byte (specs.go:15-16): specs/aze.hsl, specs/bel.hsl, specs/bul.hsl, specs/cat.hsl, specs/ces.hsl, specs/chi.hsl, specs/cym.hsl. Generated by tools/gen_bundled.py. *)
From Verif Require Import GoBase BString.

Definition src_aze_1 : bstr := "lang:
    id      = ""aze""
    codes   = ""az"", ""aze""
    english = ""Azerbaijani""
    korean  = ""아제르바이잔어""
    script  = ""Latn""

config:
    author = ""Brian Jongseong Park <iceager@gmail.com>""
    stage  = ""draft""

macros:
    ""@"" = ""<vowels>""

vars:
    ""cs""     = ""b"", ""c"", ""C"", ""d"", ""f"", ""g"", ""G"", ""h"", ""j"", ""k"", ""l"", ""m"", ""n"", ""N"", ""p"", ""q"", ""r"", ""s"", ""S"", ""t"", ""v"", ""x"", ""z""
    ""vl""     = ""C"", ""f"", ""h"", ""k"", ""K"", ""p"", ""s"", ""S"", ""t"", ""x""
    ""vowels"" = ""a"", ""A"", ""e"", ""I"", ""i"", ""o"", ""O"", ""u"", ""U""

normalize:
    ""ğ"" = ""ғ"", ""Ғ"", ""Ğ""
    ""ı"" = ""I"", ""Ы"", ""ы""
    ""v"" = ""в"", ""В""
    ""ç"" = ""ч"", ""Ч"", ""Ç""
    ""ə"" = ""ә"", ""Ә"", ""Ə""
    ""ş"" = ""Ш"", ""Ş"", ""ш""
    ""a"" = ""А"", ""а""
    ""c"" = ""ҹ"", ""Ҹ""
    ""b"" = ""Б"", ""б""
    ""e"" = ""е"", ""Е""
    ""d"" = ""Д"", ""д""
    ""g"" = ""ҝ"", ""Ҝ""
    ""f"" = ""Ф"", ""ф""
    ""i"" = ""И"", ""и"", ""İ""
    ""h"" = ""һ"", ""Һ""
    ""k"" = ""к"", ""К""
    ""j"" = ""ж"", ""Ж""
    ""m"" = ""М"", ""м""
    ""l"" = ""Л"", ""л""
    ""o"" = ""О"", ""о""
    ""n"" = ""н"", ""Н""
    ""q"" = ""Г"", ""г""
    ""p"" = ""п"", ""П""
    ""s"" = ""С"", ""с""
    ""r"" = ""Р"", ""р""
    ""u"" = ""У"", ""у""
    ""t"" = ""т"", ""Т""
    ""ö"" = ""ө"", ""Ө"", ""Ö""
    ""y"" = ""Ј"", ""ј""
    ""x"" = ""х"", ""Х""
    ""z"" = ""з"", ""З""
    ""ü"" = ""Ü"", ""ү"", ""Ү""

rewrite:
    ""-""            -> ""{}""
    ""ə""            -> ""A""
    ""ç""            -> ""C""
    ""ğ""            -> ""G""
    ""ı""            -> ""I""
    ""ö""            -> ""O""
    ""ş""            -> ""S""
    ""ü""            -> ""U""
    ""^y{@}""        -> ""Y""
    ""iyy""          -> ""iy""
    ""yy""           -> ""iy""
    ""{@}y{@}""      -> ""Y""
    ""iy""           -> ""i""
    ""y""            -> ""i""
    ""rl""           -> ""l""
    ""{p|t|k}h""     -> """"
    ""w""            -> ""v""
    ""bb""           -> ""b""
    ""cc""           -> ""c""
    ""CC""           -> ""C""
    ""dd""           -> ""d""
    ""dc""           -> ""c""
    ""ff""           -> ""f""
    ""gg""           -> ""g""
    ""GG""           -> ""G""
    ""hh""           -> ""h""
    ""jj""           -> ""j""
    ""kk""           -> ""k""
    ""ll""           -> ""l""
    ""mm""           -> ""m,m""
    ""nn""           -> ""n,n""
    ""pp""           -> ""p""
    ""qq""           -> ""q""
    ""rr""           -> ""r""
    ""ss""           -> ""s""
    ""SS""           -> ""S""
    ""tt""           -> ""t""
    ""tC""           -> ""C""
    ""vv""           -> ""v""
    ""xx""           -> ""x""
    ""zz""           -> ""z""
    ""aa""           -> ""a""
    ""AA""           -> ""A""
    ""ee""           -> ""e""
    ""ii""           -> ""i""
    ""II""           -> ""I""
    ""oo""           -> ""o""
    ""OO""           -> ""O""
    ""uu""           -> ""u""
    ""UU""           -> ""U""
    ""b{<vl>}""      -> ""p""
    ""b$""           -> ""p""
    ""c{<vl>}""      -> ""C""
    ""c$""           -> ""C""
    ""d{<vl>}""      -> ""t""
    ""d$""           -> ""t""
    ""g{<vl>}""      -> ""k""
    ""g$""           -> ""k""
    ""G{<vl>}""      -> ""x""
    ""G$""           -> ""x""
    ""j{<vl>}""      -> ""S""
    ""j$""           -> ""S""
    ""q{<vl>}""      -> ""Q""
    ""q$""           -> ""Q""
    ""v{<vl>}""      -> ""f""
    ""v$""           -> ""f""
    ""z{<vl>}""      -> ""s""
    ""z$""           -> ""s""
    ""{@}k{<vl>}""   -> ""k,""
    ""{@}p{<vl>}""   -> ""p,""
    ""{@}Q{<vl>}""   -> ""k,""
    ""c{<cs>}""      -> ""ci""
    ""c$""           -> ""ci""
    ""C{<cs>}""      -> ""Ci""
    ""C$""           -> ""Ci""
    ""j{<cs>}""      -> ""ju""
    ""j$""           -> ""ju""
    ""S{@}""         -> ""sY""
    ""S""            -> ""sYu""
    ""^l""           -> ""l;""
    ""^m""           -> ""m;""
    ""^n""           -> ""n;""
    ""n{G|q|Q|x}""   -> ""N""
    ""l$""           -> ""l,""
    ""m$""           -> ""m,""
    ""n$""           -> ""n,""
    ""l{@|m,|n,|N}"" -> ""l;""
    ""{,}l""         -> ""l;""
    ""m{@}""         -> ""m;""
    ""n{@}""         -> ""n;""
    ""l""            -> ""l,""
    ""m""            -> ""m,""
    ""n""            -> ""n,""
    "",,""           -> "",""
    "",;""           -> """"
    "",l,""          -> ""l,""
    "",m,""          -> ""m,""
    "",n,""          -> ""n,""
    ""l{m;|n;}""     -> ""l,""
    "";""            -> """"

transcribe:
    ""b""    -> ""ㅂ""
    ""c""    -> ""ㅈ""
    ""C""    -> ""ㅊ""
    ""d""    -> ""ㄷ""
    ""f""    -> ""ㅍ""
    ""g""    -> ""ㄱ""
    ""G""    -> ""ㄱ""
    ""h""    -> ""ㅎ""
    ""j""    -> ""ㅈ""
    ""k,""   -> ""-ㄱ""
    ""k""    -> ""ㅋ""
    ""^l""   -> ""ㄹ""
    ""{,}l"" -> ""ㄹ""
    ""l,""   -> ""-ㄹ""
    ""l""    -> ""-ㄹㄹ""
    ""m,""   -> ""-ㅁ""
    ""m""    -> ""ㅁ""
    ""n,""   -> ""-ㄴ""
    ""n""    -> ""ㄴ""
    ""N""    -> ""-ㅇ""
    ""p,""   -> ""-ㅂ""
    ""p""    -> ""ㅍ""
    ""q""    -> ""ㄱ""
    ""Q""    -> ""ㅋ""
    ""r""    -> ""ㄹ""
    ""s""    -> ""ㅅ""
    ""t""    -> ""ㅌ""
    ""v""    -> ""ㅂ""
    ""x""    -> ""ㅎ""
    ""z""    -> ""ㅈ""
    ""Ya""   -> ""ㅑ""
    ""YA""   -> ""ㅖ""
    ""Ye""   -> ""ㅖ""
    ""YI""   -> ""ㅣㅡ""
    ""Yi""   -> ""ㅣ""
    ""Yo""   -> ""ㅛ""
    ""YO""   -> ""ㅚ""
    ""Yu""   -> ""ㅠ""
    ""YU""   -> ""ㅟ""
    ""a""    -> ""ㅏ""
    ""A""    -> ""ㅔ""
    ""e""    -> ""ㅔ""
    ""I""    -> ""ㅡ""
    ""i""    -> ""ㅣ""
    ""o""    -> ""ㅗ""
    ""O""    -> ""ㅚ""
    ""u""    -> ""ㅜ""
    ""U""    -> ""ㅟ""

test:
    ""Şəmkir""                  -> ""솀키르""
    ""Sumqayıt""                -> ""숨가이으트""
    ""jurnal""                  -> ""주르날""
    ""İlham Əliyev""            -> ""일함 엘리예프""
    ""Namiq Abdullayev""        -> ""나미크 아브둘라예프""
    ""Səməd Vurğun""            -> ""세메트 부르군""
    ""Abşeron""                 -> ""압셰론""
    ""Fətəli xan Xoyski""       -> ""페텔리 한 호이스키""
    ""Süleyman Rüstəm""         -> ""쉴레이만 뤼스템""
    ""Lənkəran""                -> ""렌케란""
    ""Qəmər Almaszadə""         -> ""게메르 알마스자데""
    ""Vaqif Mustafazadə""       -> ""바기프 무스타파자데""
    ""Artur Rəsizadə""          -> ""아르투르 레시자데""
    ""Mikayıl Müşfiq""          -> ""미카이을 뮈슈피크""
    ""Üzeyir Hacıbəyov""        -> ""위제이르 하즈베요프""
    ""Mehdi Hüseynzadə""        -> ""메흐디 휘세인자데""
    ""Şirvan""                  -> ""시르반""
    ""Kərim Kərimov""           -> ""케림 케리모프""
    ""Mingəçevir""              -> ""민게체비르""
    ""Naxçıvan""                -> ""나흐츠반""
    ""Rəşid Behbudov""          -> ""레시트 베흐부도프""
    ""Zaqatala""                -> ""자가탈라""
    ""Naftalan""                -> ""나프탈란""
    ""Bakı""                    -> ""바크""
    ""Zeynalabdin Tağıyev""     -> ""제이날라브딘 타그예프""
    ""Ramil Quliyev""           -> ""라밀 굴리예프""
    ""Cəfər Cabbarlı""          -> ""제페르 자발르""
    ""Nəriman Nərimanov""       -> ""네리만 네리마노프""
    ""Xınalıq""                 -> ""흐날르크""
    ""Məmməd ağa Şahtaxtinski"" -> ""멤메트 아가 샤흐타흐틴스키""
    ""Aysel Teymurzadə""        -> ""아이셀 테이무르자데""
    ""Məhəmməd Əmin Rəsulzadə"" -> ""메헴메트 에민 레술자데""
    ""Azərbaycan""              -> ""아제르바이잔""
    ""Yevlax""                  -> ""예블라흐""
    ""Elnur Məmmədli""          -> ""엘누르 멤메들리""
    ""Hüseyn Ərəblinski""       -> ""휘세인 에레블린스키""
    ""Rəsul Rza""               -> ""레술 르자""
    ""Heydər Əliyev""           -> ""헤이데르 엘리예프""
    ""Tovuz""                   -> ""토부스""
    ""Fərid Mansurov""          -> ""페리트 만수로프""
    ""Nigar Şıxlinskaya""       -> ""니가르 시으흘린스카야""
    ""İçəri Şəhər""             -> ""이체리 셰헤르""
    ""Nigar Rəfibəyli""         -> ""니가르 레피베일리""
    ""Əzizə Mustafazadə""       -> ""에지제 무스타파자데""
    ""Hüseyn Cavid""            -> ""휘세인 자비트""
    ""Bülbül""                  -> ""뷜뷜""
    ""Qobustan""                -> ""고부스탄""
    ""Rəşad Sadıqov""           -> ""레샤트 사드고프""
    ""Vaqif Cavadov""           -> ""바기프 자바도프""
    ""Gəncə""                   -> ""겐제""
    ""Xaçmaz""                  -> ""하치마스""
    ""Şəki""                    -> ""셰키""
    ""Məhəmmədhüseyn Şəhriyar"" -> ""메헴메트휘세인 셰흐리야르""
"%bstr.

Definition src_aze_2 : bstr := "    ""Məhəmməd Mövlazadə""      -> ""메헴메트 뫼블라자데""
    ""Füzuli""                  -> ""퓌줄리""
    ""Mir-Möhsün Nəvvab""       -> ""미르뫼흐쉰 네바프""
    ""İmadəddin Nəsimi""        -> ""이마데딘 네시미""
    ""Xırdalan""                -> ""흐르달란""
    ""Hüseyn xan Naxçıvanski""  -> ""휘세인 한 나흐츠반스키""
    ""Xurşidbanu Natəvan""      -> ""후르시드바누 나테반""
    ""Salyan""                  -> ""살리안""
    ""Talış""                   -> ""탈르슈""
    ""Ağdam""                   -> ""아그담""
    ""Qəbələ""                  -> ""게벨레""

"%bstr.

Definition src_aze : list bstr := [src_aze_1; src_aze_2].

Definition src_bel_1 : bstr := "lang:
    id      = ""bel""
    codes   = ""be"", ""bel""
    english = ""Belarusian""
    korean  = ""벨라루스어""
    script  = ""Cyrl""

config:
    author = ""Brian Jongseong Park <iceager@gmail.com>""
    stage  = ""draft""

macros:
    ""@"" = ""<vowels>""

vars:
    ""cs""     = ""б"", ""в"", ""г"", ""ґ"", ""д"", ""ж"", ""з"", ""к"", ""л"", ""м"", ""н"", ""п"", ""р"", ""с"", ""т"", ""ф"", ""х"", ""ц"", ""ч"", ""ш""
    ""vl""     = ""к"", ""п"", ""с"", ""т"", ""ф"", ""х"", ""ц"", ""ч"", ""ш""
    ""vowels"" = ""а"", ""е"", ""ё"", ""і"", ""й"", ""о"", ""у"", ""ы"", ""ь"", ""э"", ""ю"", ""я""

rewrite:
    ""{ж|з|ц|ч|ш}ь{@}""    -> """"
    ""ьа""                 -> ""я""
    ""йа""                 -> ""я""
    ""ьі""                 -> ""і""
    ""йі""                 -> ""і""
    ""ьо""                 -> ""ё""
    ""йо""                 -> ""ё""
    ""ьу""                 -> ""ю""
    ""йу""                 -> ""ю""
    ""ьы""                 -> ""ы""
    ""йы""                 -> ""ы""
    ""ьэ""                 -> ""е""
    ""йэ""                 -> ""е""
    ""^ль""                -> ""лі""
    ""^мь""                -> ""мі""
    ""^нь""                -> ""ні""
    ""{л|м|н}ь{е|ю|я|ё}""  -> ""і""
    ""{л|м|н}ьй""          -> ""й""
    ""{л|м|н}ь$""          -> """"
    ""{л|м|н}ь{<cs>}""     -> """"
    ""{<cs>}'{е|й|ю|я|ё}"" -> ""і""
    ""бб""                 -> ""б""
    ""гг""                 -> ""г""
    ""дд""                 -> ""д""
    ""дц""                 -> ""ц""
    ""дч""                 -> ""ч""
    ""жж""                 -> ""ж""
    ""зз""                 -> ""з""
    ""кк""                 -> ""к""
    ""лл""                 -> ""л""
    ""{@}мм{@}""           -> ""м,м""
    ""мм""                 -> ""м""
    ""{@}нн{@}""           -> ""н,н""
    ""нн""                 -> ""н""
    ""пп""                 -> ""п""
    ""рр""                 -> ""р""
    ""сс""                 -> ""с""
    ""тт""                 -> ""т""
    ""тц""                 -> ""ц""
    ""тч""                 -> ""ч""
    ""фф""                 -> ""ф""
    ""хх""                 -> ""х""
    ""цц""                 -> ""ц""
    ""чч""                 -> ""ч""
    ""шш""                 -> ""ш""
    ""шч""                 -> ""ш""
    ""{з|с|ц}ь""           -> """"
    ""ій""                 -> ""і""
    ""{@}ь""               -> """"
    ""дс$""                -> ""ц""
    ""дс{<cs>}""           -> ""ц""
    ""тс""                 -> ""ц""
    ""дз""                 -> ""з""
    ""тс""                 -> ""ц""
    ""дз""                 -> ""з""
    ""тз""                 -> ""з""
    ""нкт""                -> ""Nт""
    ""^в{<cs>}""           -> ""у""
    ""{@}в{<cs>}""         -> ""у""
    ""{@}в$""              -> ""у""
    ""б{<vl>}""            -> ""п""
    ""б$""                 -> ""п""
    ""в{<vl>}""            -> ""ф""
    ""в$""                 -> ""ф""
    ""г{<vl>}""            -> ""к""
    ""г$""                 -> ""к""
    ""д{<vl>}""            -> ""т""
    ""д$""                 -> ""т""
    ""ж{<vl>}""            -> ""ш""
    ""ж$""                 -> ""ш""
    ""з{<vl>}""            -> ""с""
    ""з$""                 -> ""с""
    ""{@}к{<vl>}""         -> ""к,""
    ""{@}п{<vl>}""         -> ""п,""
    ""{ж|з|ц|ч}O""         -> ""о""
    ""{ж|з|ц|ч}ю""         -> ""у""
    ""{ж|з|ц|ч}я""         -> ""а""
    ""{<cs>}е""            -> ""э""
    ""ша""                 -> ""ся""
    ""шэ""                 -> ""се""
    ""шо""                 -> ""сё""
    ""шу""                 -> ""сю""
    ""ш{і|й|ы|ь}""         -> ""с""
    ""ш$""                 -> ""сі""
    ""ш""                  -> ""сю""
    ""дж{@}""              -> ""з""
    ""дж""                 -> ""зі""
    ""ж{@}""               -> ""з""
    ""ж""                  -> ""зу""
    ""ч{@}""               -> ""ц""
    ""ч""                  -> ""чі""
    ""^л""                 -> ""л;""
    ""^м""                 -> ""м;""
    ""^н""                 -> ""н;""
    ""л$""                 -> ""л,""
    ""м$""                 -> ""м,""
    ""н$""                 -> ""н,""
    ""л{@|м,|н,|N}""       -> ""л;""
    ""м{@|л}""             -> ""м;""
    ""н{@|л}""             -> ""н;""
    ""л""                  -> ""л,""
    ""м""                  -> ""м,""
    ""н""                  -> ""н,""
    "",,""                 -> "",""
    "",;""                 -> """"
    "",л,""                -> ""л,""
    "",м,""                -> ""м,""
    "",н,""                -> ""н,""
    ""л{м;|н;}""           -> ""л,""
    "";|-""                -> """"

transcribe:
    ""б""    -> ""ㅂ""
    ""в""    -> ""ㅂ""
    ""г""    -> ""ㅎ""
    ""ґ""    -> ""ㄱ""
    ""д""    -> ""ㄷ""
    ""ж""    -> ""ㅈ""
    ""з""    -> ""ㅈ""
    ""ж""    -> ""ㅈ""
    ""к,""   -> ""-ㄱ""
    ""к""    -> ""ㅋ""
    ""^л""   -> ""ㄹ""
    ""{,}л"" -> ""ㄹ""
    ""л,""   -> ""-ㄹ""
    ""л""    -> ""-ㄹㄹ""
    ""м,""   -> ""-ㅁ""
    ""м""    -> ""ㅁ""
    ""н,""   -> ""-ㄴ""
    ""н""    -> ""ㄴ""
    ""N""    -> ""-ㅇ""
    ""п,""   -> ""-ㅂ""
    ""п""    -> ""ㅍ""
    ""р""    -> ""ㄹ""
    ""с""    -> ""ㅅ""
    ""т""    -> ""ㅌ""
    ""ф""    -> ""ㅍ""
    ""х""    -> ""ㅎ""
    ""ц""    -> ""ㅊ""
    ""ч""    -> ""ㅊ""
    ""а""    -> ""ㅏ""
    ""е""    -> ""ㅖ""
    ""ё""    -> ""ㅛ""
    ""і""    -> ""ㅣ""
    ""й""    -> ""ㅣ""
    ""о""    -> ""ㅗ""
    ""у""    -> ""ㅜ""
    ""ў""    -> ""ㅜ""
    ""ы""    -> ""ㅣ""
    ""ь""    -> ""ㅣ""
    ""э""    -> ""ㅔ""
    ""ю""    -> ""ㅠ""
    ""я""    -> ""ㅑ""

test:
    ""Янка Купала""               -> ""얀카 쿠팔라""
    ""Полацк""                    -> ""폴라츠크""
    ""Леў Сапега""                -> ""레우 사페하""
    ""Ян Серада""                 -> ""얀 세라다""
    ""Вінцэнт Дунін-Марцінкевіч"" -> ""빈첸트 두닌마르친케비치""
    ""Ян Чачот""                  -> ""얀 차초트""
    ""Андрэй Арамнаў""            -> ""안드레이 아람나우""
    ""Белавежская пушча""         -> ""벨라베슈스카야 푸샤""
    ""Фёдар Сумкін""              -> ""표다르 숨킨""
    ""Аляксандр Глеб""            -> ""알략산드르 흘레프""
    ""Сынкавічы""                 -> ""신카비치""
    ""Ефрасіння Полацкая""        -> ""예프라신냐 폴라츠카야""
    ""Аляксей Грышын""            -> ""알략세이 흐리신""
    ""Сымон Будны""               -> ""시몬 부드니""
    ""Яўген Глебаў""              -> ""야우헨 흘레바우""
    ""Якуб Колас""                -> ""야쿠프 콜라스""
    ""Святлана Багінская""        -> ""스뱌틀라나 바힌스카야""
    ""Мір""                       -> ""미르""
    ""Віцебск""                   -> ""비쳅스크""
    ""Іпаці Пацей""               -> ""이파치 파체이""
    ""Алаіза Пашкевіч""           -> ""알라이자 파슈케비치""
    ""Гродна""                    -> ""흐로드나""
    ""Мікалай Улашчык""           -> ""미칼라이 울라시크""
    ""Францішак Аляхновіч""       -> ""프란치샤크 알랴흐노비치""
    ""Мінск""                     -> ""민스크""
    ""Алег Ахрэм""                -> ""알레크 아흐렘""
    ""Нясвіж""                    -> ""냐스비시""
    ""Аляксандр Патупа""          -> ""알략산드르 파투파""
    ""Радзівіл""                  -> ""라지빌""
    ""Вацлаў Ластоўскі""          -> ""바츨라우 라스토우스키""
    ""Камянец""                   -> ""카먀네츠""
    ""Бабруйск""                  -> ""바브루이스크""
    ""Магілёў""                   -> ""마힐료우""
    ""Мялецій Сматрыцкі""         -> ""먈레치 스마트리츠키""
    ""Кастусь Каліноўскі""        -> ""카스투스 칼리노우스키""
    ""Баранавічы""                -> ""바라나비치""
    ""Міхаіл Савіцкі""            -> ""미하일 사비츠키""
    ""Францыск Скарына""          -> ""프란치스크 스카리나""
"%bstr.

Definition src_bel_2 : bstr := "    ""Аляксей Абалмасаў""         -> ""알략세이 아발마사우""
    ""Раман Скірмунт""            -> ""라만 스키르문트""
    ""Юлія Несцярэнка""           -> ""율리야 네스차렌카""
    ""Гомель""                    -> ""호멜""
    ""Наталля Пяткевіч""          -> ""나탈랴 퍄트케비치""
    ""Максім Багдановіч""         -> ""막심 바흐다노비치""
    ""Ігар Лучанок""              -> ""이하르 루차노크""
    ""Святлана Алексіевіч""       -> ""스뱌틀라나 알렉시예비치""
    ""Віктар Тураў""              -> ""빅타르 투라우""
    ""Ян Станкевіч""              -> ""얀 스탄케비치""
    ""Максім Рамашчанка""         -> ""막심 라마샨카""
    ""Беларусь""                  -> ""벨라루스""
    ""Аляксандр Лукашэнка""       -> ""알략산드르 루카셴카""
    ""Брэст""                     -> ""브레스트""
    ""Вікторыя Азарэнка""         -> ""빅토리야 아자렌카""
    ""Вадзім Махнеў""             -> ""바짐 마흐네우""
    ""Мураванка""                 -> ""무라반카""
    ""Браніслаў Тарашкевіч""      -> ""브라니슬라우 타라슈케비치""
    ""Кацярына Карстэн""          -> ""카차리나 카르스텐""
    ""Фёдар Фёдараў""             -> ""표다르 표다라우""
    ""Францішак Багушэвіч""       -> ""프란치샤크 바후셰비치""

"%bstr.

Definition src_bel : list bstr := [src_bel_1; src_bel_2].

Definition src_bul_1 : bstr := "lang:
    id       = ""bul""
    codes    = ""bg"", ""bul""
    english  = ""Bulgarian""
    korean   = ""불가리아어""
    script   = ""Cyrl""
    translit = ""cyrillic[bg]""

config:
    author = ""Brian Jongseong Park <iceager@gmail.com>""
    stage  = ""draft""

macros:
    ""@"" = ""<vowels>""

vars:
    ""cs""     = ""б"", ""в"", ""г"", ""д"", ""ж"", ""з"", ""к"", ""л"", ""м"", ""н"", ""п"", ""р"", ""с"", ""т"", ""ф"", ""х"", ""ц"", ""ч"", ""ш"", ""щ""
    ""vl""     = ""к"", ""п"", ""с"", ""т"", ""ф"", ""х"", ""ц"", ""ч"", ""ш"", ""щ""
    ""vowels"" = ""а"", ""е"", ""и"", ""й"", ""о"", ""у"", ""ъ"", ""ь"", ""ю"", ""я""

rewrite:
    ""град""       -> ""град-""
    ""бб""         -> ""б""
    ""вв""         -> ""в""
    ""вф""         -> ""ф""
    ""гг""         -> ""г""
    ""дд""         -> ""д""
    ""дц""         -> ""ц""
    ""дч""         -> ""ч""
    ""жж""         -> ""ж""
    ""зз""         -> ""з""
    ""зс""         -> ""с""
    ""кк""         -> ""к""
    ""лл""         -> ""л""
    ""{@}мм{@}""   -> ""м,м""
    ""мм""         -> ""м""
    ""{@}нн{@}""   -> ""н,н""
    ""нн""         -> ""н""
    ""пп""         -> ""п""
    ""рр""         -> ""р""
    ""сс""         -> ""с""
    ""тт""         -> ""т""
    ""тц""         -> ""ц""
    ""тч""         -> ""ч""
    ""фф""         -> ""ф""
    ""хх""         -> ""х""
    ""цц""         -> ""ц""
    ""чч""         -> ""ч""
    ""шш""         -> ""ш""
    ""щ""          -> ""шт""
    ""ий""         -> ""и""
    ""дс$""        -> ""ц""
    ""дс{<cs>}""   -> ""ц""
    ""тс""         -> ""ц""
    ""дз""         -> ""з""
    ""нкт""        -> ""Nт""
    ""б{<vl>}""    -> ""п""
    ""б$""         -> ""п""
    ""в{<vl>}""    -> ""ф""
    ""в$""         -> ""ф""
    ""г{<vl>}""    -> ""к""
    ""г$""         -> ""к""
    ""д{<vl>}""    -> ""т""
    ""д$""         -> ""т""
    ""дж{<vl>}""   -> ""ч""
    ""дж$""        -> ""ч""
    ""ж{<vl>}""    -> ""ш""
    ""ж$""         -> ""ш""
    ""з{<vl>}""    -> ""с""
    ""з$""         -> ""с""
    ""б{<vl>}""    -> ""п""
    ""в{<vl>}""    -> ""ф""
    ""г{<vl>}""    -> ""к""
    ""д{<vl>}""    -> ""т""
    ""дж{<vl>}""   -> ""ч""
    ""ж{<vl>}""    -> ""ш""
    ""з{<vl>}""    -> ""с""
    ""^к""         -> ""к;""
    ""{<cs>}к""    -> ""к;""
    ""к{<vl>}""    -> ""к,""
    ""^п""         -> ""п;""
    ""{<cs>}п""    -> ""п;""
    ""п{<vl>}""    -> ""п,""
    "";""          -> """"
    ""ш{<cs>}""    -> ""сю""
    ""ш$""         -> ""си""
    ""ш""          -> ""сь""
    ""^й{@}""      -> ""ь""
    ""{@}й{@}""    -> ""ь""
    ""й""          -> ""и""
    ""ю""          -> ""ьу""
    ""я""          -> ""ьа""
    ""{ж|з|ц|ч}ь"" -> """"
    ""ше""         -> ""сье""
    ""сье""        -> ""с-ье""
    ""{<cs>}ье""   -> ""е""
    ""дж{<cs>}""   -> ""жи""
    ""дж""         -> ""ж""
    ""ж{<cs>}""    -> ""жу""
    ""ч$""         -> ""чи""
    ""ч{<cs>}""    -> ""чи""
    ""^л""         -> ""л;""
    ""^м""         -> ""м;""
    ""^н""         -> ""н;""
    ""л$""         -> ""л,""
    ""м$""         -> ""м,""
    ""н$""         -> ""н,""
    ""л{@|м,|н,}"" -> ""л;""
    ""м{@}""       -> ""м;""
    ""н{@}""       -> ""н;""
    ""л""          -> ""л,""
    ""м""          -> ""м,""
    ""н""          -> ""н,""
    "",,""         -> "",""
    "",;""         -> """"
    "",л,""        -> ""л,""
    "",м,""        -> ""м,""
    "",н,""        -> ""н,""
    ""л{м;|н;}""   -> ""л,""
    "";|-""        -> """"

transcribe:
    ""б""    -> ""ㅂ""
    ""в""    -> ""ㅂ""
    ""г""    -> ""ㄱ""
    ""д""    -> ""ㄷ""
    ""ж""    -> ""ㅈ""
    ""з""    -> ""ㅈ""
    ""ж""    -> ""ㅈ""
    ""к,""   -> ""-ㄱ""
    ""к""    -> ""ㅋ""
    ""^л""   -> ""ㄹ""
    ""{,}л"" -> ""ㄹ""
    ""л,""   -> ""-ㄹ""
    ""л""    -> ""-ㄹㄹ""
    ""м,""   -> ""-ㅁ""
    ""м""    -> ""ㅁ""
    ""н,""   -> ""-ㄴ""
    ""н""    -> ""ㄴ""
    ""N""    -> ""-ㅇ""
    ""п,""   -> ""-ㅂ""
    ""п""    -> ""ㅍ""
    ""р""    -> ""ㄹ""
    ""с""    -> ""ㅅ""
    ""т""    -> ""ㅌ""
    ""ф""    -> ""ㅍ""
    ""х""    -> ""ㅎ""
    ""ц""    -> ""ㅊ""
    ""ч""    -> ""ㅊ""
    ""ьа""   -> ""ㅑ""
    ""ье""   -> ""ㅖ""
    ""ьи""   -> ""ㅣ""
    ""ьо""   -> ""ㅛ""
    ""ьу""   -> ""ㅠ""
    ""ьъ""   -> ""ㅕ""
    ""а""    -> ""ㅏ""
    ""е""    -> ""ㅔ""
    ""и""    -> ""ㅣ""
    ""о""    -> ""ㅗ""
    ""у""    -> ""ㅜ""
    ""ъ""    -> ""ㅓ""

test:
    ""Иван Мърквичка""              -> ""이반 머르크비치카""
    ""Стара Загора""                -> ""스타라 자고라""
    ""София""                       -> ""소피야""
    ""Алеко Константинов""          -> ""알레코 콘스탄티노프""
    ""Смолян""                      -> ""스몰랸""
    ""Илия Бешков""                 -> ""일리야 베슈코프""
    ""Родопи""                      -> ""로도피""
    ""Девня""                       -> ""데브냐""
    ""Мусала""                      -> ""무살라""
    ""Тодор Живков""                -> ""토도르 지프코프""
    ""Григор Димитров""             -> ""그리고르 디미트로프""
    ""Иван Павлов""                 -> ""이반 파블로프""
    ""Асен Йорданов""               -> ""아센 요르다노프""
    ""Ренета Инджова""              -> ""레네타 인조바""
    ""Пенчо Славейков""             -> ""펜초 슬라베이코프""
    ""Златоград""                   -> ""즐라토그라드""
    ""Петър Берон""                 -> ""페터르 베론""
    ""Банско""                      -> ""반스코""
    ""Сливен""                      -> ""슬리벤""
    ""Крум""                        -> ""크룸""
    ""Добрич""                      -> ""도브리치""
    ""Йордан Лечков""               -> ""요르단 레치코프""
    ""Мелник""                      -> ""멜니크""
    ""Михаил Шишман""               -> ""미하일 시슈만""
    ""Петър Богдан""                -> ""페터르 보그단""
    ""Симеон Велики""               -> ""시메온 벨리키""
    ""Свещари""                     -> ""스베슈타리""
    ""Иван Евстратиев Гешов""       -> ""이반 에프스트라티에프 게쇼프""
    ""Гаврил Радомир""              -> ""가브릴 라도미르""
    ""Галина Дурмушлийска""         -> ""갈리나 두르무슐리스카""
    ""Пещера""                      -> ""페슈테라""
    ""Григор Пърличев""             -> ""그리고르 퍼를리체프""
    ""Цанко Дюстабанов""            -> ""찬코 듀스타바노프""
    ""Созопол""                     -> ""소조폴""
    ""Казанлък""                    -> ""카잔러크""
    ""Рила""                        -> ""릴라""
    ""Евксиноград""                 -> ""에프크시노그라드""
    ""Гена Димитрова""              -> ""게나 디미트로바""
    ""Христо Явашев""               -> ""흐리스토 야바셰프""
    ""Цветан Тодоров""              -> ""츠베탄 토도로프""
    ""Екатерина Дафовска""          -> ""에카테리나 다포프스카""
    ""Весела Лечева""               -> ""베셀라 레체바""
    ""Иван Милев""                  -> ""이반 밀레프""
    ""Христо Стоичков""             -> ""흐리스토 스토이치코프""
    ""Александър Райчев""           -> ""알렉산더르 라이체프""
    ""Търговище""                   -> ""터르고비슈테""
    ""Бургас""                      -> ""부르가스""
    ""Никола Вапцаров""             -> ""니콜라 밥차로프""
    ""Димитър Бербатов""            -> ""디미터르 베르바토프""
    ""Юлия Кръстева""               -> ""율리야 크러스테바""
    ""Ралица""                      -> ""랄리차""
    ""Иван Рилски""                 -> ""이반 릴스키""
    ""Димитър Механджийски""        -> ""디미터르 메한지스키""
    ""Николай Гяуров""              -> ""니콜라이 갸우로프""
    ""Петрич""                      -> ""페트리치""
"%bstr.

Definition src_bul_2 : bstr := "    ""Паисий Хилендарски""          -> ""파이시 힐렌다르스키""
    ""Варна""                       -> ""바르나""
    ""Мария Гроздева""              -> ""마리야 그로즈데바""
    ""Кърджали""                    -> ""커르잘리""
    ""Стилиян Петров""              -> ""스틸리얀 페트로프""
    ""Анна-Мария Равнополска-Дийн"" -> ""안나마리야 라브노폴스카딘""
    ""Златьо Бояджиев""             -> ""즐라툐 보야지에프""
    ""Дуранкулак""                  -> ""두란쿨라크""
    ""Людмила Дяковска""            -> ""류드밀라 댜코프스카""
    ""Исперих""                     -> ""이스페리흐""
    ""Христо Ботев""                -> ""흐리스토 보테프""
    ""Плевен""                      -> ""플레벤""
    ""Райна Кабаиванска""           -> ""라이나 카바이반스카""
    ""Стефка Костадинова""          -> ""스테프카 코스타디노바""
    ""Кюстендил""                   -> ""큐스텐딜""
    ""Асеновград""                  -> ""아세노브그라드""
    ""Григорий Цамблак""            -> ""그리고리 참블라크""
    ""Несебър""                     -> ""네세버르""
    ""Матей Казийски""              -> ""마테이 카지스키""
    ""Емил Костадинов""             -> ""에밀 코스타디노프""
    ""Мадара""                      -> ""마다라""
    ""Панагюрище""                  -> ""파나규리슈테""
    ""Малко Търново""               -> ""말코 터르노보""
    ""Драган Цанков""               -> ""드라간 찬코프""
    ""Пловдив""                     -> ""플로브디프""
    ""Пирин""                       -> ""피린""
    ""Теодосий Синаитски""          -> ""테오도시 시나이츠키""
    ""Георги Наджаков""             -> ""게오르기 나자코프""
    ""Добърско""                    -> ""도버르스코""
    ""Стефан Стамболов""            -> ""스테판 스탐볼로프""
    ""Андрей Луканов""              -> ""안드레이 루카노프""
    ""Константин Тих""              -> ""콘스탄틴 티흐""
    ""Елена Йончева""               -> ""엘레나 욘체바""
    ""Искър""                       -> ""이스커르""
    ""Борис Христов""               -> ""보리스 흐리스토프""

"%bstr.

Definition src_bul : list bstr := [src_bul_1; src_bul_2].

Definition src_cat_1 : bstr := "lang:
    id      = ""cat""
    codes   = ""ca"", ""cat""
    english = ""Catalan""
    korean  = ""카탈루냐어""
    script  = ""Latn""

config:
    author = ""Brian Jongseong Park <iceager@gmail.com>""
    stage  = ""draft""

macros:
    ""@"" = ""<vowels>""

vars:
    ""cs""     = ""b"", ""c"", ""C"", ""d"", ""D"", ""f"", ""g"", ""h"", ""k"", ""l"", ""m"", ""n"", ""N"", ""p"", ""r"", ""s"", ""S"", ""t"", ""T"", ""v"", ""w"", ""x"", ""z"", ""Z""
    ""ob""     = ""b"", ""c"", ""C"", ""d"", ""D"", ""f"", ""g"", ""k"", ""p"", ""q"", ""s"", ""S"", ""t"", ""T"", ""x"", ""z"", ""Z""
    ""vl""     = ""c"", ""C"", ""f"", ""k"", ""p"", ""q"", ""s"", ""S"", ""t"", ""T"", ""x""
    ""vo""     = ""b"", ""d"", ""D"", ""g"", ""l"", ""m"", ""n"", ""N"", ""r"", ""v"", ""w"", ""z"", ""Z""
    ""vowels"" = ""a"", ""e"", ""i"", ""o"", ""u"", ""ü""

normalize:
    ""ç"" = ""Ç""
    ""ü"" = ""Ü""
    ""·"" = ""•""

rewrite:
    ""felix$""         -> ""felics""
    ""helix$""         -> ""helics""
    ""^fix""           -> ""fics""
    ""^aux{@}""        -> ""augz""
    ""^ex{@}""         -> ""egz""
    ""{@}s{@}""        -> ""z""
    ""{~s}s{<vo>}""    -> ""z""
    ""ç""              -> ""s""
    ""c{e|i}""         -> ""s""
    ""g{e|i}""         -> ""j""
    ""{g|q}ü{e|i}""    -> ""W""
    ""{g|q}u{e|i}""    -> """"
    ""ü""              -> ""u""
    ""{g|q}ua""        -> ""Wa""
    ""k""              -> ""c""
    ""q""              -> ""c""
    ""·""              -> "",""
    ""{@}ig$""         -> ""C""
    ""{@}igs$""        -> ""Cs""
    ""{@}ix""          -> ""S""
    ""ix{@}""          -> ""iS""
    ""ix$""            -> ""iS""
    ""{@}ux""          -> ""uS""
    ""ll""             -> ""L""
    ""ny{@}""          -> ""nY""
    ""{~<cs>}y{@}""    -> ""Y""
    ""y""              -> ""i""
    ""dj""             -> ""D""
    ""tj""             -> ""D""
    ""tx""             -> ""C""
    ""dz""             -> ""Z""
    ""tz""             -> ""Z""
    ""{@}ds{@}""       -> ""t,s""
    ""{@}ts{@}""       -> ""t,s""
    ""{l|n}d{~@|l|r}"" -> """"
    ""{l|n}t{~@|l|r}"" -> """"
    ""mb{~@|l|r}""     -> ""m""
    ""mp{~@|l|r}""     -> ""m""
    ""nc{@|l|r|W}""    -> ""N,c""
    ""nc""             -> ""N,""
    ""ng{@|l|r|W}""    -> ""N,g""
    ""ng""             -> ""N,""
    ""L{@}""           -> ""lY""
    ""L""              -> ""l""
    ""rds""            -> ""rs""
    ""rts""            -> ""rs""
    ""ds""             -> ""T""
    ""ts""             -> ""T""
    ""{@}x""           -> ""cs""
    ""x""              -> ""S""
    ""w""              -> ""v""
    ""h""              -> """"
    ""b$""             -> ""p""
    ""b{<vl>}""        -> ""p""
    ""d$""             -> ""t""
    ""d{<vl>}""        -> ""t""
    ""ds{@}""          -> ""t,s""
    ""D{<vl>}""        -> ""C""
    ""D$""             -> ""C""
    ""D""              -> ""z""
    ""g$""             -> ""k""
    ""g{<vl>}""        -> ""k""
    ""v{<vl>}""        -> ""f""
    ""v$""             -> ""f""
    ""z{<vl>}""        -> ""s""
    ""z$""             -> ""s""
    ""Z{<vl>}""        -> ""T""
    ""Z$""             -> ""T""
    ""{@}c{<ob>}""     -> ""c,""
    ""{@}p{<ob>}""     -> ""p,""
    ""{@}t{<ob>}""     -> ""t,""
    ""bb""             -> ""b""
    ""bv""             -> ""b""
    ""cc""             -> ""c""
    ""dd""             -> ""d""
    ""ff""             -> ""f""
    ""gg""             -> ""g""
    ""ll""             -> ""l""
    ""mm""             -> ""m""
    ""nn""             -> ""n""
    ""pp""             -> ""p""
    ""rr""             -> ""r""
    ""ss""             -> ""s""
    ""tt""             -> ""t""
    ""zz""             -> ""z""
    ""v""              -> ""b""
    ""tS""             -> ""C""
    ""C{@}""           -> ""T""
    ""C""              -> ""Ti""
    ""S{@}""           -> ""sY""
    ""S$""             -> ""si""
    ""S""              -> ""sYu""
    ""Z""              -> ""z""
    ""y""              -> ""i""
    ""^l""             -> ""l;""
    ""^m""             -> ""m;""
    ""^n""             -> ""n;""
    ""l$""             -> ""l,""
    ""m$""             -> ""m,""
    ""n$""             -> ""n,""
    ""l{@|Y|m,|n,}""   -> ""l;""
    ""{,}l""           -> ""l;""
    ""m{@}""           -> ""m;""
    ""n{@|Y}""         -> ""n;""
    ""l""              -> ""l,""
    ""m""              -> ""m,""
    ""n""              -> ""n,""
    "",,""             -> "",""
    "",;""             -> """"
    "",l,""            -> ""l,""
    "",m,""            -> ""m,""
    "",n,""            -> ""n,""
    ""l{m;|n;}""       -> ""l,""
    "";""              -> """"

transcribe:
    ""b""    -> ""ㅂ""
    ""c,""   -> ""-ㄱ""
    ""c""    -> ""ㅋ""
    ""d""    -> ""ㄷ""
    ""f""    -> ""ㅍ""
    ""g""    -> ""ㄱ""
    ""j""    -> ""ㅈ""
    ""^l""   -> ""ㄹ""
    ""{,}l"" -> ""ㄹ""
    ""l,""   -> ""-ㄹ""
    ""l""    -> ""-ㄹㄹ""
    ""m,""   -> ""-ㅁ""
    ""m""    -> ""ㅁ""
    ""n,""   -> ""-ㄴ""
    ""n""    -> ""ㄴ""
    ""N""    -> ""-ㅇ""
    ""p,""   -> ""-ㅂ""
    ""p""    -> ""ㅍ""
    ""r""    -> ""ㄹ""
    ""s""    -> ""ㅅ""
    ""t,""   -> ""-ㅅ""
    ""t""    -> ""ㅌ""
    ""T""    -> ""ㅊ""
    ""z""    -> ""ㅈ""
    ""Ya""   -> ""ㅑ""
    ""Ye""   -> ""ㅖ""
    ""Yi""   -> ""ㅣ""
    ""Yo""   -> ""ㅛ""
    ""Yu""   -> ""ㅠ""
    ""Wa""   -> ""ㅘ""
    ""We""   -> ""ㅞ""
    ""Wi""   -> ""ㅟ""
    ""a""    -> ""ㅏ""
    ""e""    -> ""ㅔ""
    ""i""    -> ""ㅣ""
    ""o""    -> ""ㅗ""
    ""u""    -> ""ㅜ""

test:
    ""Camp Nou""                -> ""캄 노우""
    ""Josep Pla""               -> ""조제프 플라""
    ""Pau Gasol""               -> ""파우 가졸""
    ""Lluís Companys""          -> ""류이스 콤파니스""
    ""Montserrat""              -> ""몬세라트""
    ""Empúries""                -> ""엠푸리에스""
    ""Jacint Verdaguer""        -> ""자신 베르다게르""
    ""Rosselló""                -> ""로셀료""
    ""Andorra""                 -> ""안도라""
    ""Salvador Espriu""         -> ""살바도르 에스프리우""
    ""Elx""                     -> ""엘시""
    ""Eivissa""                 -> ""에이비사""
    ""Ribagorça""               -> ""리바고르사""
    ""llengua""                 -> ""롕과""
    ""Albert Costa""            -> ""알베르트 코스타""
    ""Pallars""                 -> ""팔랴르스""
    ""Jordi Tarrés""            -> ""조르디 타레스""
    ""modernisme""              -> ""모데르니즈메""
    ""Espanyol""                -> ""에스파뇰""
    ""Cerdanya""                -> ""세르다냐""
    ""Cesc Fàbregas""           -> ""세스크 파브레가스""
    ""Arantxa""                 -> ""아란차""
    ""Carles Puyol""            -> ""카를레스 푸욜""
    ""Manresa""                 -> ""만레자""
    ""Pallars Jussà""           -> ""팔랴르스 주사""
    ""Girona""                  -> ""지로나""
    ""Ramon Llull""             -> ""라몬 률""
    ""Francesc Macià i Llussà"" -> ""프란세스크 마시아 이 류사""
    ""Lleida""                  -> ""례이다""
    ""Barça""                   -> ""바르사""
    ""Montjuïc""                -> ""몬주이크""
    ""Palma""                   -> ""팔마""
    ""Joaquim Sorolla""         -> ""조아킴 소롤랴""
    ""Sagrada Família""         -> ""사그라다 파밀리아""
    ""Ausiàs March""            -> ""아우지아스 마르크""
    ""Pau Casals""              -> ""파우 카잘스""
    ""Antoni Gaudí""            -> ""안토니 가우디""
    ""Jaume Bartumeu""          -> ""자우메 바르투메우""
    ""Sergi Bruguera""          -> ""세르지 브루게라""
    ""Tarragona""               -> ""타라고나""
    ""Salvador Dalí""           -> ""살바도르 달리""
    ""Alacant""                 -> ""알라칸""
    ""Berga""                   -> ""베르가""
    ""Canigó""                  -> ""카니고""
    ""Josep Guardiola""         -> ""조제프 과르디올라""
    ""Josep Carner""            -> ""조제프 카르네르""
    ""Antoni Tàpies""           -> ""안토니 타피에스""
    ""Gerard Piqué""            -> ""제라르트 피케""
    ""Figueres""                -> ""피게레스""
    ""Barcelona""               -> ""바르셀로나""
    ""Jordi Savall""            -> ""조르디 사발""
    ""Conflent""                -> ""콘플렌""
    ""Urgell""                  -> ""우르젤""
    ""València""                -> ""발렌시아""
    ""Besalú""                  -> ""베잘루""
    ""Joanot Martorell""        -> ""조아노트 마르토렐""
    ""Santiago Calatrava""      -> ""산티아고 칼라트라바""
    ""Valentí Almirall""        -> ""발렌티 알미랄""
    ""Catalunya""               -> ""카탈루냐""
    ""Joan Maragall""           -> ""조안 마라갈""
    ""Xavi Hernández""          -> ""샤비 에르난데스""
"%bstr.

Definition src_cat_2 : bstr := "    ""Joan Miró""               -> ""조안 미로""
    ""Eudald Pradell""          -> ""에우달 프라델""
    ""Renaixença""              -> ""레나셴사""
    ""Josep Tarradellas""       -> ""조제프 타라델랴스""
    ""Joan Capdevila""          -> ""조안 캅데빌라""
    ""Pallars Sobirà""          -> ""팔랴르스 소비라""
    ""estel·lar""               -> ""에스텔라르""
    ""Andorra la Vella""        -> ""안도라 라 벨랴""
    ""Àlex Corretja""           -> ""알렉스 코레자""
    ""Osona""                   -> ""오조나""
    ""Joan Manuel Serrat""      -> ""조안 마누엘 세라트""
    ""Montserrat Caballé""      -> ""몬세라트 카발례""
    ""Mercè Rodoreda""          -> ""메르세 로도레다""

"%bstr.

Definition src_cat : list bstr := [src_cat_1; src_cat_2].

Definition src_ces_1 : bstr := "lang:
    id      = ""ces""
    codes   = ""cs"", ""ces""
    english = ""Czech""
    korean  = ""체코어""
    script  = ""Latn""

config:
    author = ""Brian Jongseong Park <iceager@gmail.com>""
    stage  = ""draft""

macros:
    ""@"" = ""<vowels>""

vars:
    ""vl""     = ""c"", ""C"", ""f"", ""H"", ""k"", ""p"", ""s"", ""S"", ""t"", ""T""
    ""vowels"" = ""a"", ""e"", ""i"", ""o"", ""u"", ""y""

normalize:
    ""š"" = ""Š""
    ""ť"" = ""Ť""
    ""ň"" = ""Ň""
    ""č"" = ""Č""
    ""ď"" = ""Ď""
    ""ř"" = ""Ř""
    ""ě"" = ""Ě""
    ""ž"" = ""Ž""

rewrite:
    ""č""          -> ""C""
    ""ď""          -> ""D""
    ""ě""          -> ""je""
    ""ň""          -> ""N""
    ""ř""          -> ""rZ""
    ""š""          -> ""S""
    ""ť""          -> ""T""
    ""ž""          -> ""Z""
    ""w""          -> ""v""
    ""b{<vl>}""    -> ""p""
    ""b$""         -> ""p""
    ""d{<vl>}""    -> ""t""
    ""d$""         -> ""t""
    ""D{<vl>}""    -> ""T""
    ""D$""         -> ""T""
    ""g{<vl>}""    -> ""k""
    ""g$""         -> ""k""
    ""v{<vl>}""    -> ""f""
    ""v$""         -> ""f""
    ""z{<vl>}""    -> ""s""
    ""z$""         -> ""s""
    ""Z{<vl>}""    -> ""S""
    ""Z$""         -> ""S""
    ""D{@}""       -> ""dJ""
    ""D""          -> ""di""
    ""N{@}""       -> ""nJ""
    ""N""          -> ""n""
    ""S{@}""       -> ""sJ""
    ""S$""         -> ""si""
    ""S""          -> ""sJu""
    ""T{@}""       -> ""tJ""
    ""T""          -> ""ti""
    ""Z{@}""       -> ""z""
    ""Z""          -> ""zu""
    ""xx""         -> ""x""
    ""^x""         -> ""z""
    ""x""          -> ""ks""
    ""qu""         -> ""kv""
    ""q""          -> ""k""
    ""ch""         -> ""H""
    ""aa""         -> ""a""
    ""bb""         -> ""b""
    ""dd""         -> ""d""
    ""ee""         -> ""e""
    ""ff""         -> ""f""
    ""gg""         -> ""g""
    ""hh""         -> ""h""
    ""jj""         -> ""ij""
    ""ii""         -> ""i""
    ""^j{@}""      -> ""J""
    ""{@}j{@}""    -> ""J""
    ""sje""        -> ""sJe""
    ""je""         -> ""e""
    ""{n|d|s|t}j"" -> ""J""
    ""j""          -> ""i""
    ""ij""         -> ""i""
    ""yj""         -> ""y""
    ""kk""         -> ""k""
    ""ll""         -> ""l""
    ""{@}mm{@}""   -> ""m,m""
    ""mm""         -> ""m""
    ""{@}nn{@}""   -> ""n,n""
    ""nn""         -> ""n""
    ""oo""         -> ""o""
    ""pp""         -> ""p""
    ""rr""         -> ""r""
    ""ss""         -> ""s""
    ""tt""         -> ""t""
    ""uu""         -> ""u""
    ""vv""         -> ""v""
    ""^y{@}""      -> ""J""
    ""yy""         -> ""y""
    ""y""          -> ""i""
    ""zz""         -> ""z""
    ""{l|m|n}j$""  -> """"
    ""je""         -> ""e""
    ""^l""         -> ""l;""
    ""^m""         -> ""m;""
    ""^n""         -> ""n;""
    ""l$""         -> ""l,""
    ""m$""         -> ""m,""
    ""n$""         -> ""n,""
    ""l{@|m,|n,}"" -> ""l;""
    ""{,}l""       -> ""l;""
    ""m{@|r}""     -> ""m;""
    ""n{@|J}""     -> ""n;""
    ""l""          -> ""l,""
    ""m""          -> ""m,""
    ""n""          -> ""n,""
    "",,""         -> "",""
    "",;""         -> """"
    "",l,""        -> ""l,""
    "",m,""        -> ""m,""
    "",n,""        -> ""n,""
    ""l{m;|n;}""   -> ""l,""
    "";""          -> """"
    ""{@}k{<vl>}"" -> ""k,""
    ""{@}p{<vl>}"" -> ""p,""

transcribe:
    ""C{@}"" -> ""ㅊ""
    ""C""    -> ""ㅊㅣ""
    ""b""    -> ""ㅂ""
    ""c""    -> ""ㅊ""
    ""d""    -> ""ㄷ""
    ""f""    -> ""ㅍ""
    ""g""    -> ""ㄱ""
    ""h""    -> ""ㅎ""
    ""H""    -> ""ㅎ""
    ""k,""   -> ""-ㄱ""
    ""k""    -> ""ㅋ""
    ""^l""   -> ""ㄹ""
    ""{,}l"" -> ""ㄹ""
    ""l,""   -> ""-ㄹ""
    ""l""    -> ""-ㄹㄹ""
    ""m,""   -> ""-ㅁ""
    ""m""    -> ""ㅁ""
    ""n,""   -> ""-ㄴ""
    ""n""    -> ""ㄴ""
    ""p,""   -> ""-ㅂ""
    ""p""    -> ""ㅍ""
    ""r""    -> ""ㄹ""
    ""s""    -> ""ㅅ""
    ""t""    -> ""ㅌ""
    ""v""    -> ""ㅂ""
    ""z""    -> ""ㅈ""
    ""Ja""   -> ""ㅑ""
    ""Je""   -> ""ㅖ""
    ""Ji""   -> ""ㅣ""
    ""Jo""   -> ""ㅛ""
    ""Ju""   -> ""ㅠ""
    ""a""    -> ""ㅏ""
    ""e""    -> ""ㅔ""
    ""i""    -> ""ㅣ""
    ""o""    -> ""ㅗ""
    ""u""    -> ""ㅜ""

test:
    ""kachna""    -> ""카흐나""
    ""kulečnik""  -> ""쿨레치니크""
    ""šaty""      -> ""샤티""
    ""dech""      -> ""데흐""
    ""hořký""     -> ""호르슈키""
    ""zámek""     -> ""자메크""
    ""nemocnice"" -> ""네모츠니체""
    ""ledvina""   -> ""레드비나""
    ""quasi""     -> ""크바시""
    ""nemoc""     -> ""네모츠""
    ""matka""     -> ""마트카""
    ""chlapec""   -> ""흘라페츠""
    ""šest""      -> ""셰스트""
    ""mrak""      -> ""므라크""
    ""nikdy""     -> ""니크디""
    ""pozdní""    -> ""포즈드니""
    ""úrok""      -> ""우로크""
    ""kouř""      -> ""코우르시""
    ""koroptev""  -> ""코롭테프""
    ""oběť""      -> ""오베티""
    ""jaro""      -> ""야로""
    ""loďka""     -> ""로티카""
    ""humr""      -> ""후므르""
    ""bolest""    -> ""볼레스트""
    ""hmyz""      -> ""흐미스""
    ""barva""     -> ""바르바""
    ""pokoj""     -> ""포코이""
    ""míč""       -> ""미치""
    ""léto""      -> ""레토""
    ""jazýk""     -> ""야지크""
    ""hadr""      -> ""하드르""
    ""balík""     -> ""발리크""
    ""námořník""  -> ""나모르주니크""
    ""kov""       -> ""코프""
    ""tělo""      -> ""텔로""
    ""věk""       -> ""베크""
    ""žvěřina""   -> ""주베르지나""
    ""mozek""     -> ""모제크""
    ""Brož""      -> ""브로시""
    ""hruď""      -> ""흐루티""
    ""xerox""     -> ""제록스""
    ""prach""     -> ""프라흐""
    ""choditi""   -> ""호디티""
    ""postel""    -> ""포스텔""
    ""harmonika"" -> ""하르모니카""
    ""nos""       -> ""노스""
    ""dobrý""     -> ""도브리""
    ""padák""     -> ""파다크""
    ""šplhati""   -> ""슈플하티""
    ""máslo""     -> ""마슬로""
    ""kino""      -> ""키노""
    ""čapek""     -> ""차페크""
    ""saxofón""   -> ""삭소폰""
    ""bez""       -> ""베스""
    ""Praha""     -> ""프라하""
    ""buben""     -> ""부벤""
    ""nervózni""  -> ""네르보즈니""
    ""míra""      -> ""미라""
    ""podzim""    -> ""포드짐""
    ""řeka""      -> ""르제카""
    ""šternberk"" -> ""슈테른베르크""
    ""ďábel""     -> ""댜벨""
    ""gramofon""  -> ""그라모폰""
    ""knoflík""   -> ""크노플리크""
    ""myš""       -> ""미시""
    ""kolo""      -> ""콜로""
    ""sáňky""     -> ""산키""
    ""štěstí""    -> ""슈테스티""
    ""bůh""       -> ""부흐""
    ""ruka""      -> ""루카""
    ""strop""     -> ""스트로프""
    ""puška""     -> ""푸슈카""
    ""vysoký""    -> ""비소키""
    ""divadlo""   -> ""디바들로""
    ""knihovna""  -> ""크니호브나""
    ""fík""       -> ""피크""
    ""obchod""    -> ""옵호트""
    ""tam""       -> ""탐""
    ""Plzeň""     -> ""플젠""
    ""led""       -> ""레트""
    ""líný""      -> ""리니""
    ""jeřab""     -> ""예르자프""
    ""most""      -> ""모스트""
    ""lev""       -> ""레프""
    ""mír""       -> ""미르""
    ""žižka""     -> ""지슈카""
    ""obec""      -> ""오베츠""
    ""komár""     -> ""코마르""
    ""cigareta""  -> ""치가레타""
    ""němý""      -> ""네미""
    ""dům""       -> ""둠""
    ""odpadky""   -> ""오트파트키""
    ""noha""      -> ""노하""
    ""koš""       -> ""코시""
    ""podmínka""  -> ""포드민카""
    ""sedlo""     -> ""세들로""

"%bstr.

Definition src_ces : list bstr := [src_ces_1].

Definition src_chi_1 : bstr := "lang:
    id       = ""chi""
    codes    = ""zh"", ""chi""
    english  = ""Chinese""
    korean   = ""중국어""
    script   = ""Latn""
    translit = ""pinyin""

config:
    author = ""Heungsub Lee <heungsub@subl.ee>""
    stage  = ""draft""

vars:
    jqx   = ""j"", ""q"", ""x""
    nojqx = ""b"", ""p"", ""m"", ""f"", ""d"", ""t"", ""n"", ""l"", ""g"", ""k"", ""h"", ""r"", ""z"", ""c"", ""s""
    J     = ""j"", ""q"", ""zh"", ""ch"", ""c""

normalize:
    ""v"" = ""ü"", ""Ü""

rewrite:
    # ""v"" means ""ü"" in unofficial Pinyin.
    ""v"" -> ""yu""

    ""{c|ch|r|s|sh|z|zh}i"" -> ""i,""

    ""{<jqx>}ue""   -> ""yue""
    ""{<jqx>}uan""  -> ""yuan""
    ""{<jqx>}un""   -> ""yun""
    ""{<jqx>}u""    -> ""yu""

    ""{<jqx>|<nojqx>}iong"" -> ""yong""

    ""{<jqx>|<nojqx>}iao""   -> ""yao""
    ""{<jqx>|<nojqx>}iang""  -> ""yang""
    ""{<jqx>|<nojqx>}ian""   -> ""yan""
    ""{<jqx>|<nojqx>}ia""    -> ""ya""
    ""{<jqx>|<nojqx>}ie""    -> ""ye""
    ""{<jqx>|<nojqx>}iou""   -> ""you""
    ""{<jqx>|<nojqx>}iu""    -> ""you""
    ""{<jqx>|<nojqx>}ing""   -> ""ying""
    ""{<jqx>|<nojqx>}in""    -> ""yin""
    ""{<jqx>|<nojqx>}i{~,}"" -> ""yi""

    ""{<jqx>|<nojqx>}uai""  -> ""wai""
    ""{<jqx>|<nojqx>}uang"" -> ""wang""
    ""{<jqx>|<nojqx>}uan""  -> ""wan""
    ""{<jqx>|<nojqx>}ua""   -> ""wa""
    ""{<jqx>|<nojqx>}uo""   -> ""wo""
    ""{<jqx>|<nojqx>}ong""  -> ""ung""

    ""{<nojqx>}u"" -> ""wu""
    ""{<jqx>|<nojqx>}r"" -> ""er""

    ""n$"" -> ""n,""
    ""r$"" -> ""r,""

transcribe:
    # 촬구류(yong/-iong 제외)
    ""yue""   -> ""ㅞ""
    ""yuan""  -> ""ㅟ안""
    ""yun,?"" -> ""ㅟ-ㄴ""

    # 단운
    ""yu"" -> ""ㅟ""

    # 합구류
    ""wang"" -> ""ㅘ-ㅇ""
    ""weng"" -> ""ㅝ-ㅇ""
    ""ung""  -> ""ㅜ-ㅇ""

    ""wan,?"" -> ""ㅘ-ㄴ""
    ""wen,?"" -> ""ㅝ-ㄴ""
    ""un,?""  -> ""ㅜ-ㄴ""

    ""wa""  -> ""ㅘ""
    ""wo""  -> ""ㅝ""
    ""wai"" -> ""ㅘ이""
    ""wei"" -> ""ㅞ이""
    ""ui""  -> ""ㅜ이""

    # 제치류(yong/-iong 추가)
    ""{<J>}yong"" -> ""ㅜ-ㅇ""
    ""{<J>}yang"" -> ""ㅏ-ㅇ""
    ""{<J>}yan""  -> ""ㅔ-ㄴ""
    ""{<J>}you""  -> ""ㅜ""
    ""{<J>}yai""  -> ""ㅏㅣ""
    ""{<J>}yao""  -> ""ㅏㅗ""
    ""{<J>}ya""   -> ""ㅏ""
    ""{<J>}yo""   -> ""ㅗ""
    ""{<J>}ye""   -> ""ㅔ""

    ""yong""  -> ""ㅠ-ㅇ""
    ""yang""  -> ""ㅑ-ㅇ""
    ""yan,?"" -> ""ㅖ-ㄴ""
    ""ying""  -> ""ㅣ-ㅇ""
    ""yin,?"" -> ""ㅣ-ㄴ""
    ""you""   -> ""ㅠ""
    ""yai""   -> ""ㅑㅣ""
    ""yao""   -> ""ㅑㅗ""
    ""ya""    -> ""ㅑ""
    ""yo""    -> ""ㅛ""
    ""ye""    -> ""ㅖ""

    # 부성운
    ""ang""  -> ""ㅏ-ㅇ""
    ""eng""  -> ""ㅓ-ㅇ""
    ""an,?"" -> ""ㅏ-ㄴ""
    ""en,?"" -> ""ㅓ-ㄴ""

    # 권설운
    ""er,?"" -> ""ㅓ-ㄹ""

    # 종성
    ""ng,"" -> ""-ㅇ""
    ""n,""  -> ""-ㄴ""
    ""r,""  -> ""-ㄹ""

    # 복운
    ""ai"" -> ""ㅏㅣ""
    ""ei"" -> ""ㅔㅣ""
    ""ao"" -> ""ㅏㅗ""
    ""ou"" -> ""ㅓㅜ""

    # 단운
    ""a""  -> ""ㅏ""
    ""o""  -> ""ㅗ""
    ""e""  -> ""ㅓ""
    ""ê""  -> ""ㅔ""
    ""i,"" -> ""ㅡ""
    ""i""  -> ""ㅣ""
    ""wu"" -> ""ㅜ""

    # 교설첨성
    ""zh"" -> ""ㅈ""
    ""ch"" -> ""ㅊ""
    ""sh"" -> ""ㅅ""
    ""r""  -> ""ㄹ""

    # 설치성
    ""z"" -> ""ㅉ""
    ""c"" -> ""ㅊ""
    ""s"" -> ""ㅆ""

    # 중순성
    ""b"" -> ""ㅂ""
    ""p"" -> ""ㅍ""
    ""m"" -> ""ㅁ""

    # 순치성
    ""f"" -> ""ㅍ""

    # 설첨성
    ""d"" -> ""ㄷ""
    ""t"" -> ""ㅌ""
    ""n"" -> ""ㄴ""
    ""l"" -> ""ㄹ""

    # 설근성
    ""g"" -> ""ㄱ""
    ""k"" -> ""ㅋ""
    ""h"" -> ""ㅎ""

    # 설면성
    ""j"" -> ""ㅈ""
    ""q"" -> ""ㅊ""
    ""x"" -> ""ㅅ""

test:
    # Person names
    ""毛澤東"" -> ""마오쩌둥""
    ""成龍""   -> ""청룽""
    ""范冰冰"" -> ""판빙빙""
    ""习近平"" -> ""시진핑""
    ""李彦宏"" -> ""리옌훙""
    ""孙杨""   -> ""쑨양""
    ""周杰伦"" -> ""저우제룬""
    ""章子怡"" -> ""장쯔이""
    ""邓小平"" -> ""덩샤오핑""
    ""胡锦涛"" -> ""후진타오""
    ""刘德华"" -> ""류더화""
    ""张国荣"" -> ""장궈룽""
    ""梁朝伟"" -> ""량차오웨이""
    ""周星馳"" -> ""저우싱츠""
    ""周润发"" -> ""저우룬파""
    ""王祖賢"" -> ""왕쭈셴""
    ""蒋琼耳"" -> ""장충얼""

    # Place names
    ""靑島""     -> ""칭다오""
    ""北京""     -> ""베이징""
    ""杭州""     -> ""항저우""
    ""上海""     -> ""상하이""
    ""延邊""     -> ""옌볜""
    ""大連""     -> ""다롄""
    ""滿州""     -> ""만저우""
    ""廣州""     -> ""광저우""
    ""重慶""     -> ""중칭""
    ""廣東""     -> ""광둥""
    ""深圳""     -> ""선전""
    ""吉林""     -> ""지린""
    ""天津""     -> ""톈진""
    ""臺南""     -> ""타이난""
    ""四川""     -> ""쓰촨""
    ""南京""     -> ""난징""
    ""萬里長城"" -> ""완리장청""
    ""抚顺""     -> ""푸순""
    ""辽宁""     -> ""랴오닝""

    # Official examples from korean.go.kr
    ""郭廣昌""     -> ""궈광창""
    ""劉鶴""       -> ""류허""
    ""屠呦呦""     -> ""투유유""
    ""許家印""     -> ""쉬자인""
    ""王健林""     -> ""왕젠린""
    ""廬志强""     -> ""루즈창""
    ""馬化騰""     -> ""마화텅""
    ""努爾白克力"" -> ""누얼바이커리""
    ""金立群""     -> ""진리췬""
    ""曹國偉""     -> ""차오궈웨이""
    ""李河君""     -> ""리허쥔""
    ""游客""       -> ""유커""
    ""雷軍""       -> ""레이쥔""
    ""李保樟""     -> ""리바오장""
    ""古天樂""     -> ""구톈러""
    ""鄧森悅""     -> ""덩썬웨""
    ""馮珊珊""     -> ""펑산산""
    ""馬雲""       -> ""마윈""
    ""郭聲琨""     -> ""궈성쿤""
    ""芈昱廷""     -> ""미위팅""
    ""梁樂民""     -> ""량러민""
    ""谷開來""     -> ""구카이라이""
    ""易小準""     -> ""이샤오준""
    ""胡舒立""     -> ""후수리""
    ""丁薛祥""     -> ""딩쉐샹""
    ""蔡名照""     -> ""차이밍자오""
    ""博鰲""       -> ""보아오""
    ""趙無極""     -> ""자오우지""
    ""崔天凱""     -> ""추이톈카이""
    ""汪洋""       -> ""왕양""
    ""樓繼偉""     -> ""러우지웨이""
    ""常萬全""     -> ""창완취안""
    ""高虎城""     -> ""가오후청""
    ""楊燕勇""     -> ""양옌융""
    ""羅夏""       -> ""뤄샤""
    ""陸振洪""     -> ""루전훙""
    ""劉宇""       -> ""류위""
    ""儲夫佳""     -> ""추푸자""
    ""崔暁""       -> ""추이샤오""
    ""安旭""       -> ""안쉬""
    ""李帥""       -> ""리솨이""
    ""呂建剛""     -> ""뤼젠강""
    ""劉延東""     -> ""류옌둥""
    ""胡春華""     -> ""후춘화""
    ""孫政才""     -> ""쑨정차이""
    ""華春瑩""     -> ""화춘잉""
    ""趙樂際""     -> ""자오러지""
    ""孟建柱""     -> ""멍젠주""
    ""李源潮""     -> ""리위안차오""
    ""孫春蘭""     -> ""쑨춘란""
    ""李雲迪""     -> ""리윈디""
    ""郞朗""       -> ""랑랑""
    ""韓素音""     -> ""한쑤인""
    ""張高麗""     -> ""장가오리""
    ""房峰輝""     -> ""팡펑후이""
    ""張又俠""     -> ""장유샤""
    ""張陽""       -> ""장양""
    ""趙克石""     -> ""자오커스""
    ""馬曉天""     -> ""마샤오톈""
    ""王澍""       -> ""왕수""
    ""莫言""       -> ""모옌""
    ""胡績偉""     -> ""후지웨이""
    ""茅于軾""     -> ""마오위스""
    ""陳光誠""     -> ""천광청""
    ""梁振英""     -> ""량전잉""
    ""鄧建國""     -> ""덩젠궈""
    ""何祚庥""     -> ""허쭤슈""
    ""王軍霞""     -> ""왕쥔샤""
    ""劉宏宇""     -> ""류훙위""
    ""朱民""       -> ""주민""
    ""胡佳""       -> ""후자""
    ""義烏""       -> ""이우""
    ""艾青""       -> ""아이칭""
    ""楊伯江""     -> ""양보장""
    ""艾未未""     -> ""아이웨이웨이""
    ""周海嬰""     -> ""저우하이잉""
    ""焦建國""     -> ""자오젠궈""
    ""馬蔚華""     -> ""마웨이화""
    ""郭敬明""     -> ""궈징밍""
    ""朱學勤""     -> ""주쉐친""
    ""徐紹史""     -> ""쉬사오스""
    ""謝旭人""     -> ""셰쉬런""
    ""賈宏聲""     -> ""자훙성""
    ""張鑫森""     -> ""장신썬""
    ""李彦宏""     -> ""리옌훙""
    ""劉曉波""     -> ""류샤오보""
    ""張業遂""     -> ""장예쑤이""
    ""李妮娜""     -> ""리니나""
    ""龐清""       -> ""팡칭""
    ""佟健""       -> ""퉁젠""
    ""周洋""       -> ""저우양""
    ""張會""       -> ""장후이""
    ""趙宏博""     -> ""자오훙보""
    ""孫琳琳""     -> ""쑨린린""
    ""申雪""       -> ""선쉐""
    ""王北星""     -> ""왕베이싱""
    ""王濛""       -> ""왕멍""
    ""王家瑞""     -> ""왕자루이""
    ""彭麗媛""     -> ""펑리위안""
"%bstr.

Definition src_chi_2 : bstr := "    ""肖向前""     -> ""샤오샹첸""
    ""紹興""       -> ""사오싱""
    ""袁貴仁""     -> ""위안구이런""
    ""崔世安""     -> ""추이스안""
    ""李開復""     -> ""리카이푸""
    ""田原""       -> ""톈위안""
    ""卓琳""       -> ""줘린""

    # Examples from @iceager
    ""吕燕"" -> ""뤼옌""
"%bstr.

Definition src_chi : list bstr := [src_chi_1; src_chi_2].

Definition src_cym_1 : bstr := "lang:
    id      = ""cym""
    codes   = ""cy"", ""cym""
    english = ""Welsh""
    korean  = ""웨일스어""
    script  = ""Latn""

config:
    author = ""Brian Jongseong Park <iceager@gmail.com>""
    stage  = ""draft""

macros:
    ""@"" = ""<vowels>""

vars:
    ""cs""     = ""b"", ""c"", ""C"", ""d"", ""D"", ""f"", ""F"", ""g"", ""h"", ""k"", ""l"", ""L"", ""m"", ""n"", ""N"", ""p"", ""q"", ""r"", ""s"", ""t"", ""T"", ""v"", ""W"", ""x"", ""z"", ""-"", ""Y""
    ""ob""     = ""b"", ""c"", ""C"", ""d"", ""D"", ""f"", ""F"", ""g"", ""h"", ""k"", ""p"", ""q"", ""s"", ""t"", ""T"", ""v"", ""W"", ""x"", ""z""
    ""vl""     = ""c"", ""C"", ""F"", ""h"", ""k"", ""p"", ""s"", ""t""
    ""vowels"" = ""a"", ""e"", ""i"", ""î"", ""o"", ""u"", ""U"", ""w"", ""ŵ"", ""y"", ""ŷ"", ""Q""

normalize:
    ""ŵ"" = ""Ŵ""
    ""ŷ"" = ""Ŷ""
    ""ï"" = ""Ï""
    ""î"" = ""Î""

rewrite:
    ""afon""                  -> ""afon-""
    ""banc""                  -> ""baNc""
    ""^ban""                  -> ""ban-""
    ""^fan""                  -> ""fan-""
    ""^man""                  -> ""man-""
    ""blaen""                 -> ""blaen-""
    ""flaen""                 -> ""flaen-""
    ""mlaen""                 -> ""mlaen-""
    ""bron""                  -> ""bron-""
    ""fron""                  -> ""fron-""
    ""mron""                  -> ""mron-""
    ""bryn""                  -> ""bryn-""
    ""fryn""                  -> ""fryn-""
    ""mryn""                  -> ""mryn-""
    ""glan""                  -> ""glan-""
    ""^lan""                  -> ""lan-""
    ""glyn""                  -> ""glyn-""
    ""gwen""                  -> ""gwen-""
    ""gwyn""                  -> ""gwyn-""
    ""^lyn""                  -> ""lyn-""
    ""llain""                 -> ""llain-""
    ""llan""                  -> ""llan-""
    ""llyn""                  -> ""llyn-""
    ""maen""                  -> ""maen-""
    ""faen""                  -> ""faen-""
    ""onnen""                 -> ""onnen-""
    ""^pen""                  -> ""pen-""
    ""^ben""                  -> ""ben-""
    ""^phen""                 -> ""phen-""
    ""rhon""                  -> ""rhon-""
    ""rhyn""                  -> ""rhyn-""
    ""waun""                  -> ""waun-""
    ""{<cs>}ng$""             -> ""N""
    ""{<cs>}ng""              -> ""n-g""
    ""^dy$""                  -> ""dQ""
    ""^fy$""                  -> ""fQ""
    ""^y$""                   -> ""Q""
    ""^ym$""                  -> ""Qm""
    ""^yn$""                  -> ""Qn""
    ""^yng$""                 -> ""Qng""
    ""^yr$""                  -> ""Qr""
    ""m mh""                  -> ""m h""
    ""m-mh""                  -> ""mh""
    ""{@} mh""                -> ""m h""
    ""n nh""                  -> ""n h""
    ""n-nh""                  -> ""nh""
    ""{@} nh""                -> ""n h""
    ""ng ng""                 -> ""ng ""
    ""ng-ng""                 -> ""ng""
    ""{@} ng""                -> ""ng ""
    ""{c|C|g|h|@}win$""       -> ""Win""
    ""{<cs>}win$""            -> ""YWin""
    ""{c|C|g|h|@}wyn$""       -> ""Win""
    ""{<cs>}wyn$""            -> ""YWin""
    ""ch""                    -> ""C""
    ""dd""                    -> ""D""
    ""ff""                    -> ""F""
    ""ll""                    -> ""L""
    ""th""                    -> ""T""
    ""ll""                    -> ""L""
    ""ng""                    -> ""N""
    ""k""                     -> ""c""
    ""qu""                    -> ""cw""
    ""q""                     -> ""c""
    ""n{c|C}""                -> ""N""
    ""ph""                    -> ""F""
    ""v""                     -> ""f""
    ""x""                     -> ""s""
    ""z""                     -> ""s""
    ""^rh""                   -> ""hr""
    ""{c|C|F|h|p|s|t|T}rh""   -> ""r""
    ""{<cs>}rh""              -> ""hr""
    ""{c|C|F|h|p|s|t|T}L""    -> ""l""
    ""L""                     -> ""hl""
    ""^w{<cs>}""              -> ""U""
    ""{<cs>}w$""              -> ""U""
    ""{<cs>}w{<cs>}""         -> ""U""
    ""{c|C|g|@}wi""           -> ""Wi""
    ""{c|C|g|@}wy""           -> ""Wi""
    ""wi""                    -> ""Ui""
    ""wy""                    -> ""Ui""
    ""^w{@}""                 -> ""W""
    ""{c|C|g|h|@}w{@}""       -> ""W""
    ""{<cs>}w{@}""            -> ""YW""
    ""yw$""                   -> ""iw""
    ""yw{<cs>}""              -> ""iw""
    ""w""                     -> ""U""
    ""-""                     -> """"
    ""mm""                    -> ""m""
    ""nn""                    -> ""n""
    ""^l""                    -> ""l;""
    ""^mh""                   -> ""m,h""
    ""^m""                    -> ""m;""
    ""^nh""                   -> ""n,h""
    ""^n""                    -> ""n;""
    ""l$""                    -> ""l,""
    ""m$""                    -> ""m,""
    ""n$""                    -> ""n,""
    ""l{@|m,|n,|N}""          -> ""l;""
    ""{,}l""                  -> ""l;""
    ""m{@}""                  -> ""m;""
    ""n{@}""                  -> ""n;""
    ""l""                     -> ""l,""
    ""m""                     -> ""m,""
    ""n""                     -> ""n,""
    ""N""                     -> ""N,""
    "",,""                    -> "",""
    "",;""                    -> """"
    "",l,""                   -> ""l,""
    "",m,""                   -> ""m,""
    "",n,""                   -> ""n,""
    "",N,""                   -> ""N,""
    ""l{m;|n;}""              -> ""l,""
    "";""                     -> """"
    "",Y""                    -> "",""
    ""^i{@}""                 -> ""J""
    ""{@|s}i{@}""             -> ""J""
    ""ŵ""                     -> ""U""
    ""î""                     -> ""i""
    ""ï""                     -> ""i""
    ""ŷ""                     -> ""i""
    ""u""                     -> ""i""
    ""ae""                    -> ""ai""
    ""oe""                    -> ""oi""
    ""{@}y$""                 -> ""i""
    ""{@}y{<cs>|,}""          -> ""i""
    ""bb""                    -> ""b""
    ""cc""                    -> ""c""
    ""gg""                    -> ""g""
    ""hh""                    -> ""h""
    ""jj""                    -> ""j""
    ""pp""                    -> ""p""
    ""rr""                    -> ""r""
    ""ss""                    -> ""s""
    ""tt""                    -> ""t""
    ""{<cs>|,}y{(<cs>|,)*$}"" -> ""i""
    ""y""                     -> ""Q""
    ""{@}a""                  -> ""-a""
    ""{@}e""                  -> ""-e""
    ""{i|Q}i""                -> ""-i""
    ""{@}o""                  -> ""-o""
    ""{^@}c$""                -> ""c,""
    ""{(<cs>|,)(@)}c$""       -> ""c,""
    ""{@}c{<ob>}""            -> ""c,""
    ""{^@}t$""                -> ""t,""
    ""{(<cs>|,)(@)}t$""       -> ""t,""
    ""{@}t{<ob>}""            -> ""t,""
    ""{^@}p$""                -> ""p,""
    ""{(<cs>|,)(@)}p$""       -> ""p,""
    ""{@}p{<ob>}""            -> ""p,""

transcribe:
    ""b""    -> ""ㅂ""
    ""c,""   -> ""-ㄱ""
    ""c""    -> ""ㅋ""
    ""C""    -> ""ㅎ""
    ""d""    -> ""ㄷ""
    ""D""    -> ""ㄷ""
    ""f""    -> ""ㅂ""
    ""F""    -> ""ㅍ""
    ""g""    -> ""ㄱ""
    ""h""    -> ""ㅎ""
    ""j""    -> ""ㅈ""
    ""^l""   -> ""ㄹ""
    ""{,}l"" -> ""ㄹ""
    ""l,""   -> ""-ㄹ""
    ""l""    -> ""-ㄹㄹ""
    ""m,""   -> ""-ㅁ""
    ""m""    -> ""ㅁ""
    ""n,""   -> ""-ㄴ""
    ""n""    -> ""ㄴ""
    ""N""    -> ""-ㅇ""
    ""p,""   -> ""-ㅂ""
    ""p""    -> ""ㅍ""
    ""r""    -> ""ㄹ""
    ""s""    -> ""ㅅ""
    ""t,""   -> ""-ㅅ""
    ""t""    -> ""ㅌ""
    ""T""    -> ""ㅅ""
    ""Ja""   -> ""ㅑ""
    ""Je""   -> ""ㅖ""
    ""Ji""   -> ""ㅣ""
    ""Jo""   -> ""ㅛ""
    ""JU""   -> ""ㅠ""
    ""JQ""   -> ""ㅕ""
    ""Wa""   -> ""ㅘ""
    ""We""   -> ""ㅞ""
    ""Wi""   -> ""ㅟ""
    ""Wo""   -> ""ㅝ""
    ""WU""   -> ""ㅜ""
    ""WQ""   -> ""ㅝ""
    ""a""    -> ""ㅏ""
    ""e""    -> ""ㅔ""
    ""i""    -> ""ㅣ""
    ""o""    -> ""ㅗ""
    ""U""    -> ""ㅜ""
    ""Q""    -> ""ㅓ""
    ""Y""    -> ""ㅡ""
    ""-|'""  -> """"

test:
    ""Llywelyn""      -> ""흘러웰린""
    ""Llangollen""    -> ""흘란고흘렌""
    ""Gwilym""        -> ""귈림""
    ""Calennig""      -> ""칼레니그""
    ""Gwynedd""       -> ""귀네드""
    ""fy ngwely""     -> ""벙 웰리""
    ""Brynmawr""      -> ""브런마우르""
    ""Aberystwyth""   -> ""아베러스투이스""
    ""Cerys""         -> ""케리스""
    ""cnapan""        -> ""크나판""
    ""Llanelli""      -> ""흘라네흘리""
    ""Ifans""         -> ""이반스""
    ""Huw""           -> ""히우""
    ""cwm""           -> ""쿰""
    ""Emrys""         -> ""엠리스""
    ""Ciaran""        -> ""키아란""
    ""Cymru""         -> ""컴리""
    ""Tawe""          -> ""타웨""
    ""Iwan""          -> ""이완""
    ""Caernarfon""    -> ""카이르나르본""
    ""Meredith""      -> ""메레디스""
    ""Ceredigion""    -> ""케레디기온""
    ""Ieuan""         -> ""예이안""
"%bstr.

Definition src_cym_2 : bstr := "    ""Dafydd""        -> ""다비드""
    ""Ystradgynlais"" -> ""어스트라드건라이스""
    ""Rhys""          -> ""흐리스""
    ""Hywel""         -> ""허웰""
    ""Powys""         -> ""포위스""
    ""Glyndŵr""       -> ""글런두르""
    ""Banc Ty'nddôl"" -> ""방크 턴돌""
    ""Cymraeg""       -> ""컴라이그""
    ""Myfanwy""       -> ""머바누이""
    ""Llinor""        -> ""흘리노르""
    ""fy nhadau""     -> ""번 하다이""
"%bstr.

Definition src_cym : list bstr := [src_cym_1; src_cym_2].

