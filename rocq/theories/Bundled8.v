(** Bundled specs, byte for byte (specs.go:15-16): specs/ukr.hsl, specs/vie.hsl, specs/wlm.hsl. Generated by tools/gen_bundled.py. *)
From Verif Require Import GoBase BString.

Definition src_ukr_1 : bstr := "lang:
    id       = ""ukr""
    codes    = ""uk"", ""ukr""
    english  = ""Ukrainian""
    korean   = ""우크라이나어""
    script   = ""Cyrl""
    translit = ""cyrillic[ua]""

config:
    author = ""Brian Jongseong Park <iceager@gmail.com>""
    stage  = ""draft""

macros:
    ""@"" = ""<vowels>""

vars:
    ""cs""     = ""б"", ""в"", ""г"", ""ґ"", ""д"", ""ж"", ""з"", ""к"", ""л"", ""м"", ""н"", ""п"", ""р"", ""с"", ""т"", ""ф"", ""х"", ""ц"", ""ч"", ""ш"", ""щ""
    ""vl""     = ""к"", ""п"", ""с"", ""т"", ""ф"", ""х"", ""ц"", ""ч"", ""ш"", ""щ""
    ""vowels"" = ""а"", ""е"", ""є"", ""и"", ""і"", ""ї"", ""й"", ""о"", ""O"", ""у"", ""ь"", ""ю"", ""я""

rewrite:
    ""-""                    -> ""{}""
    ""{ж|з|ц|ч|ш|щ}ь{@}""    -> """"
    ""ьа""                   -> ""я""
    ""йа""                   -> ""я""
    ""ье""                   -> ""є""
    ""йе""                   -> ""є""
    ""ьи""                   -> ""ї""
    ""йи""                   -> ""ї""
    ""ьі""                   -> ""ї""
    ""йі""                   -> ""ї""
    ""ьо""                   -> ""O""
    ""йо""                   -> ""O""
    ""ьу""                   -> ""ю""
    ""йу""                   -> ""ю""
    ""^ль""                  -> ""лі""
    ""^мь""                  -> ""мі""
    ""^нь""                  -> ""ні""
    ""{л|м|н}ь{є|ю|я|O}""    -> ""і""
    ""{л|м|н}ь{ї|й}""        -> """"
    ""{л|м|н}ь$""            -> """"
    ""{л|м|н}ь{<cs>}""       -> """"
    ""{<cs>}'{є|ї|й|ю|я|O}"" -> ""і""
    ""бб""                   -> ""б""
    ""гг""                   -> ""г""
    ""ґґ""                   -> ""ґ""
    ""дд""                   -> ""д""
    ""дс""                   -> ""дз""
    ""жж""                   -> ""ж""
    ""зз""                   -> ""з""
    ""кк""                   -> ""к""
    ""лл""                   -> ""л""
    ""{@}мм{@}""             -> ""м,м""
    ""мм""                   -> ""м""
    ""{@}нн{@}""             -> ""н,н""
    ""нн""                   -> ""н""
    ""пп""                   -> ""п""
    ""рр""                   -> ""р""
    ""сс""                   -> ""с""
    ""тт""                   -> ""т""
    ""тц""                   -> ""ц""
    ""тч""                   -> ""ч""
    ""фф""                   -> ""ф""
    ""хх""                   -> ""х""
    ""цц""                   -> ""ц""
    ""чч""                   -> ""ч""
    ""шш""                   -> ""ш""
    ""щщ""                   -> ""щ""
    ""{з|с|ц}ь""             -> """"
    ""{и|і|ї}й""             -> """"
    ""{@}ь""                 -> """"
    ""тс""                   -> ""ц""
    ""дз""                   -> ""з""
    ""тз""                   -> ""з""
    ""нкт""                  -> ""Nт""
    ""^в{<cs>}""             -> ""у""
    ""{@}в{<cs>}""           -> ""у""
    ""{@}в$""                -> ""у""
    ""{@}к{<vl>}""           -> ""к,""
    ""{@}п{<vl>}""           -> ""п,""
    ""{@}т{<vl>}""           -> ""т,""
    ""{ж|з|ц|ч}O""           -> ""о""
    ""{ж|з|ц|ч}ю""           -> ""у""
    ""{ж|з|ц|ч}я""           -> ""а""
    ""щ""                    -> ""ш""
    ""{<cs>}є""              -> ""е""
    ""ша""                   -> ""ся""
    ""ше""                   -> ""сє""
    ""шо""                   -> ""сO""
    ""шу""                   -> ""сю""
    ""ш{и|і|ї|й|ь}""         -> ""с""
    ""ш$""                   -> ""сі""
    ""ш""                    -> ""сю""
    ""дж{@}""                -> ""з""
    ""дж""                   -> ""зі""
    ""ж{@}""                 -> ""з""
    ""ж""                    -> ""зу""
    ""ч{@}""                 -> ""ц""
    ""ч""                    -> ""чі""
    ""^л""                   -> ""л;""
    ""^м""                   -> ""м;""
    ""^н""                   -> ""н;""
    ""л$""                   -> ""л,""
    ""м$""                   -> ""м,""
    ""н$""                   -> ""н,""
    ""л{@|м,|н,|N}""         -> ""л;""
    ""м{@}""                 -> ""м;""
    ""н{@}""                 -> ""н;""
    ""л""                    -> ""л,""
    ""м""                    -> ""м,""
    ""н""                    -> ""н,""
    "",,""                   -> "",""
    "",;""                   -> """"
    "",л,""                  -> ""л,""
    "",м,""                  -> ""м,""
    "",н,""                  -> ""н,""
    ""л{м;|н;}""             -> ""л,""
    "";""                    -> """"

transcribe:
    ""б""  -> ""ㅂ""
    ""в""  -> ""ㅂ""
    ""г""  -> ""ㅎ""
    ""ґ""  -> ""ㄱ""
    ""д""  -> ""ㄷ""
    ""ж""  -> ""ㅈ""
    ""з""  -> ""ㅈ""
    ""ж""  -> ""ㅈ""
    ""к,"" -> ""-ㄱ""
    ""к""  -> ""ㅋ""
    ""^л"" -> ""ㄹ""
    ""л,"" -> ""-ㄹ""
    ""л""  -> ""-ㄹㄹ""
    ""м,"" -> ""-ㅁ""
    ""м""  -> ""ㅁ""
    ""н,"" -> ""-ㄴ""
    ""н""  -> ""ㄴ""
    ""N""  -> ""-ㅇ""
    ""п,"" -> ""-ㅂ""
    ""п""  -> ""ㅍ""
    ""р""  -> ""ㄹ""
    ""с""  -> ""ㅅ""
    ""т,"" -> ""-ㅅ""
    ""т""  -> ""ㅌ""
    ""ф""  -> ""ㅍ""
    ""х""  -> ""ㅎ""
    ""ц""  -> ""ㅊ""
    ""ч""  -> ""ㅊ""
    ""а""  -> ""ㅏ""
    ""е""  -> ""ㅔ""
    ""є""  -> ""ㅖ""
    ""O""  -> ""ㅛ""
    ""и""  -> ""ㅣ""
    ""і""  -> ""ㅣ""
    ""ї""  -> ""ㅣ""
    ""й""  -> ""ㅣ""
    ""о""  -> ""ㅗ""
    ""у""  -> ""ㅜ""
    ""ь""  -> ""ㅣ""
    ""ю""  -> ""ㅠ""
    ""я""  -> ""ㅑ""

test:
    ""кобзар""                 -> ""코브자르""
    ""Луцьк""                  -> ""루츠크""
    ""Роман Шухевич""          -> ""로만 슈헤비치""
    ""Григорій Сковорода""     -> ""흐리호리 스코보로다""
    ""Володимир Кличко""       -> ""볼로디미르 클리치코""
    ""Альона Бондаренко""      -> ""알료나 본다렌코""
    ""Горлівка""               -> ""호를리우카""
    ""Єнакієве""               -> ""예나키예베""
    ""Івано-Франківськ""       -> ""이바노프란키우스크""
    ""Леонід Кравчук""         -> ""레오니드 크라우추크""
    ""Данило Галицький""       -> ""다닐로 할리츠키""
    ""Запоріжжя""              -> ""자포리자""
    ""Сєверодонецьк""          -> ""세베로도네츠크""
    ""Львів""                  -> ""리비우""
    ""Андрей Шептицький""      -> ""안드레이 솁티츠키""
    ""Києво-Печерська лавра""  -> ""키예보페체르스카 라우라""
    ""Іван Франко""            -> ""이반 프란코""
    ""Віталій Кличко""         -> ""비탈리 클리치코""
    ""Кіровоград""             -> ""키로보흐라드""
    ""Оксана Баюл""            -> ""옥사나 바율""
    ""Симон Петлюра""          -> ""시몬 페틀류라""
    ""Максиміліан Левчин""     -> ""막시밀리안 레우친""
    ""Чернівці""               -> ""체르니우치""
    ""Вінниця""                -> ""빈니차""
    ""Одеса""                  -> ""오데사""
    ""Миколаїв""               -> ""미콜라이우""
    ""Херсон""                 -> ""헤르손""
    ""Ярослав Мудрий""         -> ""야로슬라우 무드리""
    ""Вадим Перельман""        -> ""바딤 페렐만""
    ""Сергій Ребров""          -> ""세르히 레브로우""
    ""Віктор Янукович""        -> ""빅토르 야누코비치""
    ""Леся Українка""          -> ""레샤 우크라인카""
    ""Михайло Грушевський""    -> ""미하일로 흐루셰우스키""
    ""Дніпродзержинськ""       -> ""드니프로제르진스크""
    ""Іван Мазепа""            -> ""이반 마제파""
    ""Рівне""                  -> ""리우네""
    ""Іван Кожедуб""           -> ""이반 코제두브""
    ""Тарас Шевченко""         -> ""타라스 셰우첸코""
    ""Міла Куніс""             -> ""밀라 쿠니스""
    ""Віктор Ющенко""          -> ""빅토르 유셴코""
    ""Володимир Мономах""      -> ""볼로디미르 모노마흐""
    ""Андрій Медведєв""        -> ""안드리 메드베데우""
    ""Маріуполь""              -> ""마리우폴""
    ""Василь Стус""            -> ""바실 스투스""
    ""Йосип Сліпий""           -> ""요시프 슬리피""
"%bstr.

Definition src_ukr_2 : bstr := "    ""Суми""                   -> ""수미""
    ""Слов'янськ""             -> ""슬로비얀스크""
    ""Олександр Алієв""        -> ""올렉산드르 알리예우""
    ""Степан Бандера""         -> ""스테판 반데라""
    ""Кременчук""              -> ""크레멘추크""
    ""Анатолій Тимощук""       -> ""아나톨리 티모슈크""
    ""гетьман""                -> ""헤티만""
    ""Сергій Тігіпко""         -> ""세르히 티힙코""
    ""Роман Мстиславич""       -> ""로만 므스티슬라비치""
    ""бандура""                -> ""반두라""
    ""Харків""                 -> ""하르키우""
    ""Асканія-Нова""           -> ""아스카니야노바""
    ""Біла Церква""            -> ""빌라 체르크바""
    ""Андрій Шевченко""        -> ""안드리 셰우첸코""
    ""Дніпропетровськ""        -> ""드니프로페트로우스크""
    ""Голодомор""              -> ""홀로도모르""
    ""Сергій Бубка""           -> ""세르히 부브카""
    ""Сергій Корольов""        -> ""세르히 코롤료우""
    ""Артем Мілевський""       -> ""아르템 밀레우스키""
    ""Євпаторія""              -> ""예우파토리야""
    ""Віктор Пінчук""          -> ""빅토르 핀추크""
    ""Леонід Кучма""           -> ""레오니드 쿠치마""
    ""Тернопіль""              -> ""테르노필""
    ""Олена Теліга""           -> ""올레나 텔리하""
    ""Юлія Тимошенко""         -> ""율리야 티모셴코""
    ""Черкаси""                -> ""체르카시""
    ""Ананьїв""                -> ""아나니우""
    ""Левко Лук'яненко""       -> ""레우코 루키야넨코""
    ""Чернігів""               -> ""체르니히우""
    ""Кривий ріг""             -> ""크리비 리흐""
    ""Донецьк""                -> ""도네츠크""
    ""Андрій Воронін""         -> ""안드리 보로닌""
    ""Ужгород""                -> ""우주호로드""
    ""Валерій Лобановський""   -> ""발레리 로바노우스키""
    ""Микола Лисенко""         -> ""미콜라 리센코""
    ""козак""                  -> ""코자크""
    ""Богдан Хмельницький""    -> ""보흐단 흐멜니츠키""
    ""Полтава""                -> ""폴타바""
    ""Катерина Білокур""       -> ""카테리나 빌로쿠르""
    ""Кам'янець-Подільський""  -> ""카미야네츠포딜스키""
    ""писанка""                -> ""피산카""
    ""Луганськ""               -> ""루한스크""
    ""Мстислав Володимирович"" -> ""므스티슬라우 볼로디미로비치""
    ""Ольга Куриленко""        -> ""올하 쿠릴렌코""
    ""Борис Тарасюк""          -> ""보리스 타라슈크""
    ""Олександр Довженко""     -> ""올렉산드르 도우젠코""
    ""Макіївка""               -> ""마키이우카""
    ""Київ""                   -> ""키이우""
    ""Житомир""                -> ""지토미르""
    ""Яна Клочкова""           -> ""야나 클로치코바""
    ""Пилип Орлик""            -> ""필리프 오를리크""
    ""Володимир Вернадський""  -> ""볼로디미르 베르나즈키""
    ""Катерина Бондаренко""    -> ""카테리나 본다렌코""
    ""Олег Блохін""            -> ""올레흐 블로힌""
    ""гопак""                  -> ""호파크""
    ""Климент Редько""         -> ""클리멘트 레디코""
    ""Вячеслав Чорновіл""      -> ""뱌체슬라우 초르노빌""

    # Politicians
    ""Володимир Зеленський""   -> ""볼로디미르 젤렌스키""
"%bstr.

Definition src_ukr : list bstr := [src_ukr_1; src_ukr_2].

Definition src_vie_1 : bstr := "lang:
    id      = ""vie""
    codes   = ""vi"", ""vie""
    english = ""Vietnamese""
    korean  = ""베트남어""
    script  = ""Latn""

config:
    author = ""Brian Jongseong Park <iceager@gmail.com>""
    stage  = ""draft""

macros:
    ""@"" = ""<vowels>""

vars:
    ""vowels"" = ""a"", ""A"", ""e"", ""E"", ""i"", ""o"", ""O"", ""u"", ""U"", ""y""

normalize:
    ""ơ"" = ""ỡ"", ""Ơ"", ""ợ"", ""Ợ"", ""Ỡ"", ""ớ"", ""Ớ"", ""ờ"", ""Ờ"", ""ở"", ""Ở""
    ""ă"" = ""Ă"", ""ắ"", ""Ắ"", ""ằ"", ""Ằ"", ""ẳ"", ""Ẳ"", ""ẵ"", ""Ẵ"", ""ặ"", ""Ặ""
    ""â"" = ""Â"", ""ấ"", ""Ấ"", ""ầ"", ""Ầ"", ""ẩ"", ""Ẩ"", ""ẫ"", ""Ẫ"", ""ậ"", ""Ậ""
    ""ê"" = ""ề"", ""Ề"", ""ể"", ""Ể"", ""ễ"", ""Ễ"", ""ệ"", ""Ệ"", ""Ê"", ""ế"", ""Ế""
    ""đ"" = ""Đ""
    ""ư"" = ""ứ"", ""Ứ"", ""ừ"", ""Ừ"", ""ử"", ""Ử"", ""Ư"", ""Ữ"", ""ự"", ""Ự"", ""ữ""

rewrite:
    ""ă""          -> ""A""
    ""â""          -> ""O""
    ""đ""          -> ""D""
    ""ê""          -> ""E""
    ""ơ""          -> ""O""
    ""ư""          -> ""U""
    ""ch""         -> ""C""
    ""c""          -> ""k""
    ""j""          -> ""d""
    ""kh{@}""      -> ""K""
    ""ngh{e|E|i}"" -> ""N""
    ""ng""         -> ""N""
    ""nh{@}""      -> ""nY""
    ""anh""        -> ""ain""
    ""nh""         -> ""n""
    ""gi""         -> ""d""
    ""gh""         -> ""g""
    ""ph{@}""      -> ""f""
    ""qua""        -> ""kWa""
    ""q""          -> ""k""
    ""th{@}""      -> ""T""
    ""tr""         -> ""C""
    ""dz{@}""      -> ""d""
    ""z{@}""       -> ""d""
    ""ia""         -> ""iO""
    ""ya""         -> ""yO""
    ""ua""         -> ""uO""
    ""Ua""         -> ""UO""
    ""A""          -> ""a""
    ""y{@}""       -> ""Y""
    ""y""          -> ""i""
    ""C{@}""       -> ""XC""
    ""{@}C""       -> ""CX""
    ""^k""         -> ""Xk""
    ""k{@|l|r|W}"" -> ""Xk""
    ""{@}k""       -> ""kX""
    ""m{@}""       -> ""Xm""
    ""{@}m""       -> ""mX""
    ""n{@|Y}""     -> ""Xn""
    ""{@}n""       -> ""nX""
    ""N""          -> ""NX""
    ""^p""         -> ""Xp""
    ""p{@|l|r}""   -> ""Xp""
    ""{@}p""       -> ""pX""
    ""^t""         -> ""Xt""
    ""t{@|l}""     -> ""Xt""
    ""{@}t""       -> ""tX""

transcribe:
    ""^l""      -> ""ㄹ""
    ""{X}l{@}"" -> ""ㄹ""
    ""l{@}""    -> ""-ㄹㄹ""
    ""l""       -> ""-ㄹ""
    ""b""       -> ""ㅂ""
    ""XC""      -> ""ㅉ""
    ""CX""      -> ""-ㄱ""
    ""C""       -> ""ㅉ""
    ""d""       -> ""ㅈ""
    ""D""       -> ""ㄷ""
    ""f""       -> ""ㅍ""
    ""g""       -> ""ㄱ""
    ""h{@}""    -> ""ㅎ""
    ""Xk""      -> ""ㄲ""
    ""kX""      -> ""-ㄱ""
    ""k""       -> ""ㄲ""
    ""K""       -> ""ㅋ""
    ""Xm""      -> ""ㅁ""
    ""mX""      -> ""-ㅁ""
    ""Xn""      -> ""ㄴ""
    ""nX""      -> ""-ㄴ""
    ""NX""      -> ""-ㅇ""
    ""Xp""      -> ""ㅃ""
    ""pX""      -> ""-ㅂ""
    ""p""       -> ""ㅃ""
    ""r""       -> ""ㄹ""
    ""s""       -> ""ㅅ""
    ""Xt""      -> ""ㄸ""
    ""tX""      -> ""-ㅅ""
    ""t""       -> ""ㄸ""
    ""T""       -> ""ㅌ""
    ""v""       -> ""ㅂ""
    ""x""       -> ""ㅆ""
    ""z""       -> ""ㅋ""
    ""Wa""      -> ""ㅘ""
    ""Ya""      -> ""ㅑ""
    ""Ye""      -> ""ㅒ""
    ""YE""      -> ""ㅖ""
    ""Yi""      -> ""ㅣ""
    ""Yo""      -> ""ㅛ""
    ""YO""      -> ""ㅕ""
    ""Yu""      -> ""ㅠ""
    ""YU""      -> ""ㅠ""
    ""a""       -> ""ㅏ""
    ""e""       -> ""ㅐ""
    ""E""       -> ""ㅔ""
    ""i""       -> ""ㅣ""
    ""o""       -> ""ㅗ""
    ""O""       -> ""ㅓ""
    ""u""       -> ""ㅜ""
    ""U""       -> ""ㅡ""

test:
    ""Quôc""   -> ""꾸옥""
    ""Quang""  -> ""꽝""
    ""Quyên""  -> ""꾸옌""
    ""Pleiku"" -> ""쁠래이꾸""
    ""Nguyên"" -> ""응우옌""
    ""yên""    -> ""옌""

"%bstr.

Definition src_vie : list bstr := [src_vie_1].

Definition src_wlm_1 : bstr := "lang:
    id      = ""wlm""
    codes   = """", ""wlm""
    english = ""Middle Welsh""
    korean  = ""웨일스어(중세)""
    script  = ""Latn""

config:
    author = ""Brian Jongseong Park <iceager@gmail.com>""
    stage  = ""draft""

macros:
    ""@"" = ""<vowels>""

vars:
    ""cs""     = ""b"", ""c"", ""C"", ""d"", ""D"", ""f"", ""F"", ""g"", ""h"", ""k"", ""l"", ""L"", ""m"", ""n"", ""N"", ""p"", ""q"", ""r"", ""s"", ""t"", ""T"", ""v"", ""W"", ""x"", ""z"", ""-"", ""Y""
    ""ob""     = ""b"", ""c"", ""C"", ""d"", ""D"", ""f"", ""F"", ""g"", ""h"", ""k"", ""p"", ""q"", ""s"", ""t"", ""T"", ""v"", ""W"", ""x"", ""z""
    ""vl""     = ""c"", ""C"", ""F"", ""h"", ""k"", ""p"", ""s"", ""t""
    ""vowels"" = ""a"", ""e"", ""i"", ""î"", ""o"", ""u"", ""U"", ""w"", ""ŵ"", ""y"", ""ŷ"", ""Q""

normalize:
    ""ŵ"" = ""Ŵ""
    ""ŷ"" = ""Ŷ""
    ""ï"" = ""Ï""
    ""î"" = ""Î""

rewrite:
    ""afon""                  -> ""afon-""
    ""^ban""                  -> ""ban-""
    ""^fan""                  -> ""fan-""
    ""^man""                  -> ""man-""
    ""blaen""                 -> ""blaen-""
    ""flaen""                 -> ""flaen-""
    ""mlaen""                 -> ""mlaen-""
    ""bron""                  -> ""bron-""
    ""fron""                  -> ""fron-""
    ""mron""                  -> ""mron-""
    ""bryn""                  -> ""bryn-""
    ""fryn""                  -> ""fryn-""
    ""mryn""                  -> ""mryn-""
    ""glan""                  -> ""glan-""
    ""^lan""                  -> ""lan-""
    ""glyn""                  -> ""glyn-""
    ""gwen""                  -> ""gwen-""
    ""gwyn""                  -> ""gwyn-""
    ""^lyn""                  -> ""lyn-""
    ""llain""                 -> ""llain-""
    ""llan""                  -> ""llan-""
    ""llyn""                  -> ""llyn-""
    ""maen""                  -> ""maen-""
    ""faen""                  -> ""faen-""
    ""onnen""                 -> ""onnen-""
    ""^pen""                  -> ""pen-""
    ""^ben""                  -> ""ben-""
    ""^phen""                 -> ""phen-""
    ""rhon""                  -> ""rhon-""
    ""rhyn""                  -> ""rhyn-""
    ""waun""                  -> ""waun-""
    ""{<cs>}ng$""             -> ""N""
    ""{<cs>}ng""              -> ""n-g""
    ""^dy$""                  -> ""dQ""
    ""^fy$""                  -> ""fQ""
    ""^y$""                   -> ""Q""
    ""^ym$""                  -> ""Qm""
    ""^yn$""                  -> ""Qn""
    ""^yng$""                 -> ""Qng""
    ""^yr$""                  -> ""Qr""
    ""m mh""                  -> ""m h""
    ""m-mh""                  -> ""mh""
    ""n nh""                  -> ""n h""
    ""n-nh""                  -> ""nh""
    ""ng ngh""                -> ""ng h""
    ""ng-ngh""                -> ""ngh""
    ""{c|C|g|h|@}win$""       -> ""Win""
    ""{<cs>}win$""            -> ""YWin""
    ""{c|C|g|h|@}wyn$""       -> ""Win""
    ""{<cs>}wyn$""            -> ""YWin""
    ""ch""                    -> ""C""
    ""dd""                    -> ""D""
    ""ff""                    -> ""F""
    ""ll""                    -> ""L""
    ""th""                    -> ""T""
    ""ll""                    -> ""L""
    ""ng""                    -> ""N""
    ""k""                     -> ""c""
    ""qu""                    -> ""cw""
    ""q""                     -> ""c""
    ""n{c|C}""                -> ""N""
    ""ph""                    -> ""F""
    ""v""                     -> ""f""
    ""x""                     -> ""s""
    ""z""                     -> ""s""
    ""^rh""                   -> ""hr""
    ""{c|C|F|h|p|s|t|T}rh""   -> ""r""
    ""{<cs>}rh""              -> ""hr""
    ""{c|C|F|h|p|s|t|T}L""    -> ""l""
    ""L""                     -> ""hl""
    ""^w{<cs>}""              -> ""U""
    ""{<cs>}w$""              -> ""U""
    ""{<cs>}w{<cs>}""         -> ""U""
    ""{c|C|g|@}wi""           -> ""Wi""
    ""{c|C|g|@}wy""           -> ""Wi""
    ""wi""                    -> ""Ui""
    ""wy""                    -> ""Ui""
    ""^w{@}""                 -> ""W""
    ""{c|C|g|h|@}w{@}""       -> ""W""
    ""{<cs>}w{@}""            -> ""YW""
    ""yw$""                   -> ""iw""
    ""yw{<cs>}""              -> ""iw""
    ""w""                     -> ""U""
    ""-""                     -> """"
    ""mm""                    -> ""m""
    ""nn""                    -> ""n""
    ""^l""                    -> ""l;""
    ""^mh""                   -> ""m,h""
    ""^m""                    -> ""m;""
    ""^nh""                   -> ""n,h""
    ""^n""                    -> ""n;""
    ""l$""                    -> ""l,""
    ""m$""                    -> ""m,""
    ""n$""                    -> ""n,""
    ""l{@|m,|n,|N}""          -> ""l;""
    ""{,}l""                  -> ""l;""
    ""m{@}""                  -> ""m;""
    ""n{@}""                  -> ""n;""
    ""l""                     -> ""l,""
    ""m""                     -> ""m,""
    ""n""                     -> ""n,""
    ""N""                     -> ""N,""
    "",,""                    -> "",""
    "",;""                    -> """"
    "",l,""                   -> ""l,""
    "",m,""                   -> ""m,""
    "",n,""                   -> ""n,""
    "",N,""                   -> ""N,""
    ""l{m;|n;}""              -> ""l,""
    "";""                     -> """"
    "",Y""                    -> "",""
    ""^i{@}""                 -> ""J""
    ""{@|s}i{@}""             -> ""J""
    ""ŵ""                     -> ""U""
    ""î""                     -> ""i""
    ""ï""                     -> ""i""
    ""ŷ""                     -> ""i""
    ""ae""                    -> ""ai""
    ""au""                    -> ""ai""
    ""eu""                    -> ""ei""
    ""oe""                    -> ""oi""
    ""ou""                    -> ""oi""
    ""{@}y$""                 -> ""i""
    ""{@}y{<cs>|,}""          -> ""i""
    ""bb""                    -> ""b""
    ""cc""                    -> ""c""
    ""gg""                    -> ""g""
    ""hh""                    -> ""h""
    ""jj""                    -> ""j""
    ""pp""                    -> ""p""
    ""rr""                    -> ""r""
    ""ss""                    -> ""s""
    ""tt""                    -> ""t""
    ""{<cs>|,}y{(<cs>|,)*$}"" -> ""i""
    ""y""                     -> ""Q""
    ""{@}c$""                 -> ""c,""
    ""{@}c{<ob>}""            -> ""c,""
    ""{@}t$""                 -> ""t,""
    ""{@}t{<ob>}""            -> ""t,""
    ""{@}p$""                 -> ""p,""
    ""{@}p{<ob>}""            -> ""p,""

transcribe:
    ""b""    -> ""ㅂ""
    ""c,""   -> ""-ㄱ""
    ""c""    -> ""ㅋ""
    ""C""    -> ""ㅎ""
    ""d""    -> ""ㄷ""
    ""D""    -> ""ㄷ""
    ""f""    -> ""ㅂ""
    ""F""    -> ""ㅍ""
    ""g""    -> ""ㄱ""
    ""h""    -> ""ㅎ""
    ""j""    -> ""ㅈ""
    ""^l""   -> ""ㄹ""
    ""{,}l"" -> ""ㄹ""
    ""l,""   -> ""-ㄹ""
    ""l""    -> ""-ㄹㄹ""
    ""m,""   -> ""-ㅁ""
    ""m""    -> ""ㅁ""
    ""n,""   -> ""-ㄴ""
    ""n""    -> ""ㄴ""
    ""N""    -> ""-ㅇ""
    ""p,""   -> ""-ㅂ""
    ""p""    -> ""ㅍ""
    ""r""    -> ""ㄹ""
    ""s""    -> ""ㅅ""
    ""t,""   -> ""-ㅅ""
    ""t""    -> ""ㅌ""
    ""T""    -> ""ㅅ""
    ""Ja""   -> ""ㅑ""
    ""Je""   -> ""ㅖ""
    ""Ji""   -> ""ㅣ""
    ""Jo""   -> ""ㅛ""
    ""Ju""   -> ""ㅠ""
    ""JU""   -> ""ㅠ""
    ""JQ""   -> ""ㅕ""
    ""Wa""   -> ""ㅘ""
    ""We""   -> ""ㅞ""
    ""Wi""   -> ""ㅟ""
    ""Wo""   -> ""ㅝ""
    ""Wu""   -> ""ㅟ""
    ""WU""   -> ""ㅜ""
    ""WQ""   -> ""ㅝ""
    ""a""    -> ""ㅏ""
    ""e""    -> ""ㅔ""
    ""i""    -> ""ㅣ""
    ""o""    -> ""ㅗ""
    ""u""    -> ""ㅟ""
    ""U""    -> ""ㅜ""
    ""Q""    -> ""ㅓ""
    ""Y""    -> ""ㅡ""

test:
    ""Olwen""                -> ""올웬""
    ""Cad Godeu""            -> ""카드 고데이""
    ""Myrddin""              -> ""머르딘""
    ""Llywarch""             -> ""흘러와르흐""
    ""Pryderi""              -> ""프러데리""
    ""Arianrhod""            -> ""아리안흐로드""
    ""Mabinogion""           -> ""마비노기온""
    ""Gwenhwyfar""           -> ""궨후이바르""
    ""Peredur""              -> ""페레뒤르""
    ""Gofannon""             -> ""고바논""
    ""Lleu Llaw Gyffes""     -> ""흘레이 흘라우 거페스""
    ""Gwawl""                -> ""과울""
    ""Gwynedd""              -> ""귀네드""
    ""tynged""               -> ""텅에드""
    ""Culhwch ac Olwen""     -> ""퀼후흐 악 올웬""
    ""Culhwch""              -> ""퀼후흐""
    ""Pwyll Pendefig Dyfed"" -> ""푸이흘 펜데비그 더베드""
    ""Chwedlau Odo""         -> ""훼들라이 오도""
    ""Brânwen""              -> ""브란웬""
    ""Annwn""                -> ""아눈""
    ""Beli Mawr""            -> ""벨리 마우르""
    ""Rhonabwy""             -> ""흐로나부이""
    ""Aneirin""              -> ""아네이린""
"%bstr.

Definition src_wlm_2 : bstr := "    ""Rhiannon""             -> ""흐리아논""
    ""Taliesin""             -> ""탈리에신""
    ""Manawydan""            -> ""마나위단""
    ""Llŷr""                 -> ""흘리르""
    ""Geraint""              -> ""게라인트""
    ""Math fab Mathonwy""    -> ""마스 바브 마소누이""
    ""Tegwaret""             -> ""테과렛""
"%bstr.

Definition src_wlm : list bstr := [src_wlm_1; src_wlm_2].

