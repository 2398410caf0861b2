(** Bundled specs, byte for byte (specs.go:15-16): specs/pol.hsl, specs/por.hsl, specs/por-br.hsl, specs/ron.hsl, specs/rus.hsl. Generated by tools/gen_bundled.py. *)
From Verif Require Import GoBase BString.

Definition src_pol_1 : bstr := "lang:
    id      = ""pol""
    codes   = ""pl"", ""pol""
    english = ""Polish""
    korean  = ""폴란드어""
    script  = ""Latn""

config:
    author = ""Brian Jongseong Park <iceager@gmail.com>""
    stage  = ""draft""

macros:
    ""@"" = ""<vowels>""

vars:
    ""cs""     = ""b"", ""c"", ""C"", ""d"", ""f"", ""g"", ""h"", ""j"", ""k"", ""l"", ""m"", ""n"", ""p"", ""q"", ""r"", ""s"", ""t"", ""v"", ""w"", ""x"", ""z""
    ""vl""     = ""c"", ""C"", ""f"", ""h"", ""k"", ""p"", ""s"", ""t""
    ""vowels"" = ""a"", ""e"", ""i"", ""o"", ""u"", ""y""

normalize:
    ""ł"" = ""Ł""
    ""ą"" = ""Ą""
    ""ć"" = ""Ć""
    ""ó"" = ""Ó""
    ""ę"" = ""Ę""
    ""ś"" = ""Ś""
    ""ź"" = ""Ź""
    ""ż"" = ""Ż""

rewrite:
    ""wałęsa""        -> ""wałensa""
    ""ą{l|ł}""        -> ""o""
    ""ą""             -> ""oN""
    ""ę{l|ł}""        -> ""e""
    ""ę$""            -> ""e""
    ""ę""             -> ""eN""
    ""ół""            -> ""u""
    ""łł""            -> ""ł""
    ""ł{@}""          -> ""W""
    ""ł""             -> ""%u""
    ""ó""             -> ""u""
    ""rz""            -> ""ż""
    ""dź""            -> ""ć""
    ""ć""             -> ""cj""
    ""^th""           -> ""t""
    ""hh""            -> ""h""
    ""ch""            -> ""h""
    ""ź{<vl>}""       -> ""sj""
    ""ź$""            -> ""sj""
    ""ź""             -> ""zj""
    ""ś""             -> ""sj""
    ""dz{<vl>}""      -> ""c""
    ""dz$""           -> ""c""
    ""dz""            -> ""z""
    ""dż{@}""         -> ""z""
    ""dż""            -> ""C""
    ""cz""            -> ""C""
    ""cj""            -> ""C""
    ""C$""            -> ""ci""
    ""C{@}""          -> ""c""
    ""C""             -> ""ci""
    ""b{<vl>}""       -> ""p""
    ""b$""            -> ""p""
    ""d{<vl>}""       -> ""t""
    ""d$""            -> ""t""
    ""g{<vl>}""       -> ""k""
    ""g$""            -> ""k""
    ""w{<vl>}""       -> ""f""
    ""w$""            -> ""f""
    ""ż{<vl>}""       -> ""sz""
    ""{<vl>}ż""       -> ""sz""
    ""ż$""            -> ""sz""
    ""ż{@}""          -> ""z""
    ""żj""            -> ""zj""
    ""ż""             -> ""zu""
    ""sz{@}""         -> ""sJ""
    ""szj""           -> ""sJ""
    ""sz$""           -> ""si""
    ""sz""            -> ""sJu""
    ""z{<vl>}""       -> ""s""
    ""z$""            -> ""s""
    ""xx""            -> ""x""
    ""x""             -> ""ks""
    ""tt""            -> ""t""
    ""w""             -> ""v""
    ""q""             -> ""kv""
    ""aa""            -> ""a""
    ""bb""            -> ""b""
    ""dd""            -> ""d""
    ""ee""            -> ""e""
    ""ff""            -> ""f""
    ""jj""            -> ""ij""
    ""ii""            -> ""i""
    ""zj{@}""         -> ""z""
    ""{<cs>}je""      -> ""e""
    ""j{@}""          -> ""J""
    ""j""             -> ""i""
    ""ij""            -> ""i""
    ""yj""            -> ""y""
    ""kk""            -> ""k""
    ""ll""            -> ""l""
    ""{@}mm{@}""      -> ""m,m""
    ""mm""            -> ""m""
    ""{@}nn{@}""      -> ""n,n""
    ""oo""            -> ""o""
    ""pp""            -> ""p""
    ""rr""            -> ""r""
    ""ss""            -> ""s""
    ""tt""            -> ""t""
    ""uu""            -> ""u""
    ""X""             -> """"
    ""vv""            -> ""v""
    ""^y{@}""         -> ""J""
    ""yy""            -> ""y""
    ""y""             -> ""i""
    ""zz""            -> ""z""
    ""{@}k{p|s|t|z}"" -> ""k,""
    ""{@}p{k|s|t|z}"" -> ""p,""
    ""^l""            -> ""l;""
    ""^m""            -> ""m;""
    ""^n""            -> ""n;""
    ""l$""            -> ""l,""
    ""m$""            -> ""m,""
    ""n$""            -> ""n,""
    ""l{@|J|m,|n,}""  -> ""l;""
    ""{,}l""          -> ""l;""
    ""m{@|J}""        -> ""m;""
    ""n{@|J}""        -> ""n;""
    ""l""             -> ""l,""
    ""m""             -> ""m,""
    ""n""             -> ""n,""
    "",,""            -> "",""
    "",;""            -> """"
    "",l,""           -> ""l,""
    "",m,""           -> ""m,""
    "",n,""           -> ""n,""
    ""l{m;|n;}""      -> ""l,""
    "";""             -> """"

transcribe:
    ""b""    -> ""ㅂ""
    ""c""    -> ""ㅊ""
    ""d""    -> ""ㄷ""
    ""f""    -> ""ㅍ""
    ""g""    -> ""ㄱ""
    ""h""    -> ""ㅎ""
    ""k,""   -> ""-ㄱ""
    ""k""    -> ""ㅋ""
    ""^l""   -> ""ㄹ""
    ""{,}l"" -> ""ㄹ""
    ""l,""   -> ""-ㄹ""
    ""l""    -> ""-ㄹㄹ""
    ""m,""   -> ""-ㅁ""
    ""m""    -> ""ㅁ""
    ""n,""   -> ""-ㄴ""
    ""n""    -> ""ㄴ""
    ""N""    -> ""-ㅇ""
    ""p,""   -> ""-ㅂ""
    ""p""    -> ""ㅍ""
    ""r""    -> ""ㄹ""
    ""s""    -> ""ㅅ""
    ""t""    -> ""ㅌ""
    ""v""    -> ""ㅂ""
    ""z""    -> ""ㅈ""
    ""Ja""   -> ""ㅑ""
    ""Je""   -> ""ㅖ""
    ""Ji""   -> ""ㅣ""
    ""Jo""   -> ""ㅛ""
    ""Ju""   -> ""ㅠ""
    ""Wa""   -> ""ㅇㅘ""
    ""We""   -> ""ㅇㅞ""
    ""Wi""   -> ""ㅇㅟ""
    ""Wo""   -> ""ㅇㅝ""
    ""Wu""   -> ""ㅇㅜ""
    ""a""    -> ""ㅏ""
    ""e""    -> ""ㅔ""
    ""i""    -> ""ㅣ""
    ""o""    -> ""ㅗ""
    ""u""    -> ""ㅜ""

test:
    ""dywan""                       -> ""디반""
    ""straż""                       -> ""스트라시""
    ""Stefan Banach""               -> ""스테판 바나흐""
    ""Jacek Kuroń""                 -> ""야체크 쿠론""
    ""targ""                        -> ""타르크""
    ""dobrze""                      -> ""도브제""
    ""Adam Ważyk""                  -> ""아담 바지크""
    ""Jan Łukasiewicz""             -> ""얀 우카시에비치""
    ""Edward Ochab""                -> ""에드바르트 오하프""
    ""matka""                       -> ""마트카""
    ""zabawka""                     -> ""자바프카""
    ""Poznań""                      -> ""포즈난""
    ""Bronisław Malinowski""        -> ""브로니스와프 말리노프스키""
    ""Rzeszów""                     -> ""제슈프""
    ""Rafał Szukała""               -> ""라파우 슈카와""
    ""proszę""                      -> ""프로셰""
    ""łyżka""                       -> ""위슈카""
    ""Józef Cyrankiewicz""          -> ""유제프 치란키에비치""
    ""chory""                       -> ""호리""
    ""grzmot""                      -> ""그주모트""
    ""Seweryn Bialer""              -> ""세베린 비알레르""
    ""Krzysztof Kieślowski""        -> ""크시슈토프 키에실로프스키""
    ""łodż""                        -> ""워치""
    ""nerka""                       -> ""네르카""
    ""kuchnia""                     -> ""쿠흐니아""
    ""węgorz""                      -> ""벵고시""
    ""Lech Kaczyński""              -> ""레흐 카친스키""
    ""burak""                       -> ""부라크""
    ""zdrowy""                      -> ""즈드로비""
    ""wywóz""                       -> ""비부스""
    ""Jacek Podsiadło""             -> ""야체크 포트시아드워""
    ""kapelusz""                    -> ""카펠루시""
    ""Stefan Themerson""            -> ""스테판 테메르손""
    ""góra""                        -> ""구라""
    ""Florian Znaniecki""           -> ""플로리안 즈나니에츠키""
    ""cel""                         -> ""첼""
    ""Lech Wałęsa""                 -> ""레흐 바웬사""
    ""noc""                         -> ""노츠""
    ""jasny""                       -> ""야스니""
    ""Jerzy Dudek""                 -> ""예지 두데크""
    ""Krzysztof Penderecki""        -> ""크시슈토프 펜데레츠키""
    ""Tadeusz Kościuszko""          -> ""타데우시 코시치우슈코""
    ""mokry""                       -> ""모크리""
    ""bank""                        -> ""반크""
    ""Mateusz Sawrymowicz""         -> ""마테우시 사브리모비치""
    ""Karol Wojtyła""               -> ""카롤 보이티와""
    ""mąka""                        -> ""몽카""
    ""kolano""                      -> ""콜라노""
    ""odpis""                       -> ""오트피스""
    ""Katarzyna Woźniak""           -> ""카타지나 보지니아크""
    ""kula""                        -> ""쿨라""
    ""Michał Witkowski""            -> ""미하우 비트코프스키""
    ""Jan Tomaszewski""             -> ""얀 토마셰프스키""
    ""Grzegorz Lato""               -> ""그제고시 라토""
    ""Stefan Wyszyński""            -> ""스테판 비신스키""
    ""fryzjer""                     -> ""프리제르""
    ""grad""                        -> ""그라트""
    ""motyl""                       -> ""모틸""
    ""koszt""                       -> ""코슈트""
    ""Otylia Jędrzejczak""          -> ""오틸리아 옝제이차크""
    ""trawa""                       -> ""트라바""
    ""Wacław Sierpiński""           -> ""바츠와프 시에르핀스키""
    ""zero""                        -> ""제로""
"%bstr.

Definition src_pol_2 : bstr := "    ""Aleksander Wielopolski""      -> ""알렉산데르 비엘로폴스키""
    ""sznur""                       -> ""슈누르""
    ""Leszek Miller""               -> ""레셰크 밀레르""
    ""fasola""                      -> ""파솔라""
    ""Władysław Gomułka""           -> ""브와디스와프 고무우카""
    ""Jadwiga Andegaweńska""        -> ""야드비가 안데가벤스카""
    ""Jarosław Iwaszkiewicz""       -> ""야로스와프 이바슈키에비치""
    ""Dariusz Dziekanowski""        -> ""다리우시 지에카노프스키""
    ""gwoździk""                    -> ""그보지지크""
    ""Adam Mickiewicz""             -> ""아담 미츠키에비치""
    ""zimno""                       -> ""짐노""
    ""Jarosław Kaczyński""          -> ""야로스와프 카친스키""
    ""musztarda""                   -> ""무슈타르다""
    ""przyjaciół""                  -> ""프시야치우""
    ""rzeka""                       -> ""제카""
    ""Leszek Kołakowski""           -> ""레셰크 코와코프스키""
    ""Donald Tusk""                 -> ""도날트 투스크""
    ""Joachim Lelewel""             -> ""요아힘 렐레벨""
    ""Aleksander Jabłoński""        -> ""알렉산데르 야브원스키""
    ""Kazimierz Deyna""             -> ""카지미에시 데이나""
    ""Henryk Wieniawski""           -> ""헨리크 비에니아프스키""
    ""łono""                        -> ""워노""
    ""Józef Piłsudski""             -> ""유제프 피우수트스키""
    ""Warszawa""                    -> ""바르샤바""
    ""Częstochowa""                 -> ""쳉스토호바""
    ""dziś""                        -> ""지시""
    ""Gdańsk""                      -> ""그단스크""
    ""Bogdan Borusewicz""           -> ""보그단 보루세비치""
    ""Włodzimierz Cimoszewicz""     -> ""브워지미에시 치모셰비치""
    ""słodki""                      -> ""스워트키""
    ""Leopold Godowsky""            -> ""레오폴트 고도프스키""
    ""od""                          -> ""오트""
    ""Czesław Miłosz""              -> ""체스와프 미워시""
    ""daktyl""                      -> ""닥틸""
    ""serce""                       -> ""세르체""
    ""Zbigniew Messner""            -> ""즈비그니에프 메스네르""
    ""Słupsk""                      -> ""스웁스크""
    ""Jan Andrzej Paweł Kaczmarek"" -> ""얀 안제이 파베우 카치마레크""
    ""kąt""                         -> ""콩트""
    ""szybko""                      -> ""십코""
    ""Paweł Korzeniowski""          -> ""파베우 코제니오프스키""
    ""zamek""                       -> ""자메크""
    ""Luiza Złotkowska""            -> ""루이자 즈워트코프스카""
    ""trąba""                       -> ""트롱바""
    ""Włodzimierz Smolarek""        -> ""브워지미에시 스몰라레크""
    ""Wanda Wasilewska""            -> ""반다 바실레프스카""
    ""Edward Gierek""               -> ""에드바르트 기에레크""
    ""herbata""                     -> ""헤르바타""
    ""garnek""                      -> ""가르네크""
    ""Anja Rubik""                  -> ""아냐 루비크""
    ""przjyaciół""                  -> ""프시아치우""
    ""pod""                         -> ""포트""
    ""Krystian Zimerman""           -> ""크리스티안 지메르만""
    ""Marek Belka""                 -> ""마레크 벨카""
    ""Aleksander Kwaśniewski""      -> ""알렉산데르 크바시니에프스키""
    ""chleb""                       -> ""흘레프""
    ""klucz""                       -> ""클루치""
    ""Stefan Żeromski""             -> ""스테판 제롬스키""
    ""dać""                         -> ""다치""
    ""mosiądz""                     -> ""모시옹츠""
    ""kraj""                        -> ""크라이""
    ""kanał""                       -> ""카나우""
    ""Leonid Hurwicz""              -> ""레오니트 후르비치""
    ""Feliks Dzierżyński""          -> ""펠릭스 지에르진스키""
    ""Sławomir Szmal""              -> ""스와보미르 슈말""
    ""łóżko""                       -> ""우슈코""
    ""Cyprian Kamil Norwid""        -> ""치프리안 카밀 노르비트""
    ""ślepy""                       -> ""실레피""
    ""Przemyśl""                    -> ""프셰미실""
    ""Stanisław Mikołajczyk""       -> ""스타니스와프 미코와이치크""
    ""Sławomir Mrożek""             -> ""스와보미르 므로제크""
    ""ręka""                        -> ""렝카""
    ""dzwon""                       -> ""즈본""
    ""Witold Gombrowicz""           -> ""비톨트 곰브로비치""
    ""Jerzy Buzek""                 -> ""예지 부제크""
    ""para""                        -> ""파라""
    ""Wojciech Jaruzelski""         -> ""보이치에흐 야루젤스키""
    ""Piotr Szewc""                 -> ""피오트르 셰프츠""
    ""befsztyk""                    -> ""베프슈티크""
    ""kępa""                        -> ""켕파""
    ""but""                         -> ""부트""
    ""beczka""                      -> ""베치카""
    ""Zbigniew Herbert""            -> ""즈비그니에프 헤르베르트""
    ""Roman Dmowski""               -> ""로만 드모프스키""
    ""Zygmunt Krasiński""           -> ""지그문트 크라신스키""
    ""tą""                          -> ""통""
    ""zbrodnia""                    -> ""즈브로드니아""
    ""Grabski""                     -> ""그랍스키""
    ""Józef Glemp""                 -> ""유제프 글렘프""
    ""Maria Skłodowska""            -> ""마리아 스크워도프스카""
    ""Magdalena Frackowiak""        -> ""마그달레나 프라츠코비아크""
    ""Ignacy Jan Paderewski""       -> ""이그나치 얀 파데레프스키""
    ""kino""                        -> ""키노""
    ""żyto""                        -> ""지토""
    ""Stanisław Barańczak""         -> ""스타니스와프 바란차크""
    ""mrówka""                      -> ""므루프카""
    ""Adam Michnik""                -> ""아담 미흐니크""
    ""Maciej Żurawski""             -> ""마치에이 주라프스키""
    ""Stefan Kisielewski""          -> ""스테판 키시엘레프스키""
    ""czysty""                      -> ""치스티""
    ""Stanisław Kania""             -> ""스타니스와프 카니아""
    ""olej""                        -> ""올레이""
    ""pęcherz""                     -> ""펭헤시""
    ""Olga Tokarczuk""              -> ""올가 토카르추크""
    ""drzewo""                      -> ""제보""
    ""Balicki""                     -> ""발리츠키""
    ""piwnica""                     -> ""피브니차""
    ""sam""                         -> ""삼""
    ""krew""                        -> ""크레프""
    ""kołnierz""                    -> ""코우니에시""
    ""Alfred Tarski""               -> ""알프레트 타르스키""
    ""Ludwik Łazarz Zamenhof""      -> ""루드비크 와자시 자멘호프""
    ""Zbigniew Boniek""             -> ""즈비그니에프 보니에크""
    ""Kazimierz Marcinkiewicz""     -> ""카지미에시 마르친키에비치""
    ""Ernest Wilimowski""           -> ""에르네스트 빌리모프스키""
    ""dokument""                    -> ""도쿠멘트""
    ""kosz""                        -> ""코시""
    ""Jerzy Andrzejewski""          -> ""예지 안제예프스키""
    ""tam""                         -> ""탐""
    ""Jagiełło""                    -> ""야기에워""
    ""Jacek Krzynówek""             -> ""야체크 크시누베크""
    ""głowa""                       -> ""그워바""
    ""dach""                        -> ""다흐""
    ""srebro""                      -> ""스레브로""
    ""pas""                         -> ""파스""
    ""rower""                       -> ""로베르""
    ""Zbigniew Bujak""              -> ""즈비그니에프 부야크""
    ""Andrzej Stasiuk""             -> ""안제이 스타시우크""
    ""Tadeusz Mazowiecki""          -> ""타데우시 마조비에츠키""
    ""stacja""                      -> ""스타차""
    ""Adam Małysz""                 -> ""아담 마위시""
    ""Andrzej Szarmach""            -> ""안제이 샤르마흐""
    ""lis""                         -> ""리스""
    ""różny""                       -> ""루주니""
    ""Bolesław Bierut""             -> ""볼레스와프 비에루트""
"%bstr.

Definition src_pol_3 : bstr := "    ""Stanisław Ignacy Witkiewicz"" -> ""스타니스와프 이그나치 비트키에비치""
    ""szary""                       -> ""샤리""
    ""udo""                         -> ""우도""
    ""więź""                        -> ""비엥시""
    ""zima""                        -> ""지마""
    ""Kazimierz Fajans""            -> ""카지미에시 파얀스""
    ""most""                        -> ""모스트""
    ""Kazimierz Funk""              -> ""카지미에시 푼크""
    ""Jerzy Grotowski""             -> ""예지 그로토프스키""
    ""Wanda Jakubowska""            -> ""반다 야쿠보프스카""
    ""król""                        -> ""크룰""
    ""Eliza Orzeszkowa""            -> ""엘리자 오제슈코바""
    ""Wanda Landowska""             -> ""반다 란도프스카""
    ""Wojciech Szczęsny""           -> ""보이치에흐 슈쳉스니""
    ""Katarzyna Sowula""            -> ""카타지나 소불라""
    ""Bronisław Komorowski""        -> ""브로니스와프 코모로프스키""
    ""Andrzej Wajda""               -> ""안제이 바이다""
    ""Ignacy Daszyński""            -> ""이그나치 다신스키""
    ""bułka""                       -> ""부우카""
    ""obraz""                       -> ""오브라스""
    ""Justyna Kowalczyk""           -> ""유스티나 코발치크""
    ""dziura""                      -> ""지우라""
    ""Włodzimierz Lubański""        -> ""브워지미에시 루반스키""
    ""chłop""                       -> ""흐워프""
    ""Henryk Jankowski""            -> ""헨리크 얀코프스키""
    ""próba""                       -> ""프루바""
    ""Hrubieszów""                  -> ""흐루비에슈프""
    ""niedźwiedź""                  -> ""니에치비에치""
    ""Mia Wasikowska""              -> ""미아 바시코프스카""
    ""Stanisław Wyspiański""        -> ""스타니스와프 비스피안스키""
    ""mleko""                       -> ""믈레코""

"%bstr.

Definition src_pol : list bstr := [src_pol_1; src_pol_2; src_pol_3].

Definition src_por_1 : bstr := "lang:
    id      = ""por""
    codes   = ""pt"", ""por""
    english = ""Portuguese""
    korean  = ""포르투갈어""
    script  = ""Latn""

config:
    author = ""Brian Jongseong Park <iceager@gmail.com>""
    stage  = ""draft""

macros:
    ""@"" = ""<vowels>""

vars:
    ""cs""     = ""b"", ""c"", ""C"", ""d"", ""f"", ""g"", ""h"", ""j"", ""k"", ""l"", ""m"", ""n"", ""p"", ""q"", ""r"", ""R"", ""s"", ""S"", ""t"", ""v"", ""w"", ""x"", ""z""
    ""son""    = ""l"", ""m"", ""n"", ""r""
    ""vl""     = ""c"", ""C"", ""f"", ""k"", ""p"", ""q"", ""R"", ""s"", ""S"", ""t""
    ""vowels"" = ""a"", ""A"", ""e"", ""E"", ""i"", ""I"", ""o"", ""O"", ""u"", ""U"", ""Q""

normalize:
    ""á"" = ""Á""
    ""ã"" = ""Ã""
    ""â"" = ""Â""
    ""ç"" = ""Ç""
    ""é"" = ""É"", ""ê""
    ""ê"" = ""Ê""
    ""ó"" = ""Ó""
    ""õ"" = ""Õ""
    ""ô"" = ""Ô""

rewrite:
    ""ã""                                  -> ""A~""
    ""á""                                  -> ""A""
    ""â""                                  -> ""A""
    ""sç""                                 -> ""S""
    ""ç""                                  -> ""S""
    ""é""                                  -> ""E""
    ""ê""                                  -> ""E""
    ""õ""                                  -> ""O~""
    ""ó""                                  -> ""O""
    ""ô""                                  -> ""O""
    ""dumont$""                            -> ""dumon""
    ""^eduar""                             -> ""Eduar""
    ""^eldorado""                          -> ""Eldorado""
    ""^joA~""                              -> ""juA~""
    ""^mirra$""                            -> ""mira""
    ""bb""                                 -> ""b""
    ""cc""                                 -> ""c""
    ""dd""                                 -> ""d""
    ""ff""                                 -> ""f""
    ""gg""                                 -> ""g""
    ""hh""                                 -> ""h""
    ""jj""                                 -> ""j""
    ""kk""                                 -> ""k""
    ""ll""                                 -> ""l""
    ""mm""                                 -> ""m""
    ""nn""                                 -> ""n""
    ""pp""                                 -> ""p""
    ""qq""                                 -> ""q""
    ""tt""                                 -> ""t""
    ""vv""                                 -> ""v""
    ""ww""                                 -> ""w""
    ""xx""                                 -> ""x""
    ""zz""                                 -> ""z""
    ""ch""                                 -> ""C""
    ""lh""                                 -> ""L""
    ""nh""                                 -> ""N""
    ""^ex{@}""                             -> ""ez""
    ""^hex{@}""                            -> ""ez""
    ""~e""                                 -> ""~i""
    ""A~o""                                -> ""A~""
    ""c{k|q}""                             -> """"
    ""sc{e|E|i}""                          -> ""S""
    ""ssc{e|E|i}""                         -> ""S""
    ""xc{e|E|i}""                          -> ""S""
    ""xs""                                 -> ""S""
    ""xss""                                -> ""S""
    ""ss""                                 -> ""S""
    ""c{e|E|i}""                           -> ""S""
    ""c""                                  -> ""k""
    ""x{@}""                               -> ""C""
    ""x""                                  -> ""S""
    ""g{e|E|i}""                           -> ""j""
    ""{g|q}u{e|E|i}""                      -> """"
    ""^e{(a|<cs>a|<cs><cs>a)$}""           -> ""E""
    ""^e{(<cs><cs><cs>a)$}""               -> ""E""
    ""^e{(am|<cs>am|<cs><cs>am)$}""        -> ""E""
    ""^e{(<cs><cs><cs>am)$}""              -> ""E""
    ""^e{(ans|<cs>ans|<cs><cs>ans)$}""     -> ""E""
    ""^e{(<cs><cs><cs>ans)$}""             -> ""E""
    ""^e{(as|<cs>as|<cs><cs>as)$}""        -> ""E""
    ""^e{(<cs><cs><cs>as)$}""              -> ""E""
    ""^e{(o|<cs>o|<cs><cs>o)$}""           -> ""E""
    ""^e{(<cs><cs><cs>o)$}""               -> ""E""
    ""^e{(om|<cs>om|<cs><cs>om)$}""        -> ""E""
    ""^e{(<cs><cs><cs>om)$}""              -> ""E""
    ""^e{(ons|<cs>ons|<cs><cs>ons)$}""     -> ""E""
    ""^e{(<cs><cs><cs>ons)$}""             -> ""E""
    ""^e{(os|<cs>os|<cs><cs>os)$}""        -> ""E""
    ""^e{(<cs><cs><cs>os)$}""              -> ""E""
    ""^e{(e|<cs>e|<cs><cs>e)$}""           -> ""E""
    ""^e{(<cs><cs><cs>e)$}""               -> ""E""
    ""^e{(em|<cs>em|<cs><cs>em)$}""        -> ""E""
    ""^e{(<cs><cs><cs>em)$}""              -> ""E""
    ""^e{(ens|<cs>ens|<cs><cs>ens)$}""     -> ""E""
    ""^e{(<cs><cs><cs>ens)$}""             -> ""E""
    ""^e{(es|<cs>es|<cs><cs>es)$}""        -> ""E""
    ""^e{(<cs><cs><cs>es)$}""              -> ""E""
    ""^e""                                 -> ""i""
    ""{C|L|N}e$""                          -> ""i""
    ""e$""                                 -> ""Q""
    ""o$""                                 -> ""u""
    ""os$""                                -> ""us""
    ""{p|b|m|f|v|g|q}es$""                 -> ""Es""
    ""{C|L|N}es$""                         -> ""is""
    ""es$""                                -> ""Qs""
    ""q""                                  -> ""k""
    ""ou""                                 -> ""o""
    ""A""                                  -> ""a""
    ""E""                                  -> ""e""
    ""I""                                  -> ""i""
    ""O""                                  -> ""o""
    ""U""                                  -> ""u""
    ""aa""                                 -> ""a""
    ""ee""                                 -> ""e""
    ""oo""                                 -> ""o""
    ""uu""                                 -> ""u""
    ""yy""                                 -> ""iy""
    ""^y{@}""                              -> ""Y""
    ""{@}y{@}""                            -> ""Y""
    ""y""                                  -> ""i""
    ""ii""                                 -> ""i""
    ""m$""                                 -> ""~""
    ""n$""                                 -> ""~""
    ""ns$""                                -> ""~s""
    ""n{g|k}""                             -> ""~""
    ""^r""                                 -> ""R""
    ""{n|l|s}r""                           -> ""R""
    ""rr""                                 -> ""R""
    ""^s""                                 -> ""S""
    ""{<vl>}s""                            -> ""S""
    ""{@}s{@}""                            -> ""z""
    ""s{@}""                               -> ""S""
    ""s{<vl>}""                            -> ""S""
    ""s$""                                 -> ""S""
    ""s""                                  -> ""Z""
    ""z{@}""                               -> ""Z""
    ""z{<vl>}""                            -> ""S""
    ""z$""                                 -> ""S""
    ""Z""                                  -> ""z""
    ""k{<son>}""                           -> ""F""
    ""{@}k{<cs>}""                         -> ""k,""
    ""F""                                  -> ""k""
    ""C{@}""                               -> ""SY""
    ""C""                                  -> ""Si""
    ""N{@}""                               -> ""nY""
    ""N""                                  -> ""n""
    ""L{@}""                               -> ""lY""
    ""L""                                  -> ""l""
    ""^l""                                 -> ""l;""
    ""^m""                                 -> ""m;""
    ""^n""                                 -> ""n;""
    ""l$""                                 -> ""l,""
    ""m$""                                 -> ""m,""
    ""n$""                                 -> ""n,""
    ""l{@|Y|m,|n,}""                       -> ""l;""
    ""{,}l""                               -> ""l;""
    ""m{@}""                               -> ""m;""
    ""n{@|Y}""                             -> ""n;""
    ""l""                                  -> ""l,""
    ""m""                                  -> ""m,""
    ""n""                                  -> ""n,""
    ""~""                                  -> ""~,""
    "",,""                                 -> "",""
    "",;""                                 -> """"
    "",l,""                                -> ""l,""
    "",m,""                                -> ""m,""
    "",n,""                                -> ""n,""
    ""l{m;|n;}""                           -> ""l,""
    "";""                                  -> """"
    ""^w""                                 -> ""W""
"%bstr.

Definition src_por_2 : bstr := "    ""{@|g|k}w""                           -> ""W""
    ""w""                                  -> ""QW""

transcribe:
    ""b""    -> ""ㅂ""
    ""d""    -> ""ㄷ""
    ""f""    -> ""ㅍ""
    ""g""    -> ""ㄱ""
    ""j""    -> ""ㅈ""
    ""j""    -> """"
    ""k,""   -> ""-ㄱ""
    ""k""    -> ""ㅋ""
    ""^l""   -> ""ㄹ""
    ""{,}l"" -> ""ㄹ""
    ""l,""   -> ""-ㄹ""
    ""l""    -> ""-ㄹㄹ""
    ""m,""   -> ""-ㅁ""
    ""m""    -> ""ㅁ""
    ""n,""   -> ""-ㄴ""
    ""n""    -> ""ㄴ""
    ""~""    -> ""-ㅇ""
    ""p,""   -> ""-ㅂ""
    ""p""    -> ""ㅍ""
    ""r""    -> ""ㄹ""
    ""R""    -> ""ㅎ""
    ""S""    -> ""ㅅ""
    ""t,""   -> ""-ㅅ""
    ""t""    -> ""ㅌ""
    ""v""    -> ""ㅂ""
    ""z""    -> ""ㅈ""
    ""Ya""   -> ""ㅑ""
    ""Ye""   -> ""ㅖ""
    ""Yi""   -> ""ㅣ""
    ""Yo""   -> ""ㅛ""
    ""Yu""   -> ""ㅠ""
    ""YQ""   -> ""ㅡ""
    ""Wa""   -> ""ㅘ""
    ""We""   -> ""ㅞ""
    ""Wi""   -> ""ㅟ""
    ""Wo""   -> ""ㅝ""
    ""Wu""   -> ""ㅜ""
    ""WQ""   -> ""ㅔ""
    ""a""    -> ""ㅏ""
    ""e""    -> ""ㅔ""
    ""i""    -> ""ㅣ""
    ""o""    -> ""ㅗ""
    ""u""    -> ""ㅜ""
    ""Q""    -> ""ㅡ""
    ""h""    -> """"

test:
    ""Montes""     -> ""몬트스""
    ""Angelo""     -> ""안젤루""
    ""Afonso""     -> ""아폰수""
    ""Saramago""   -> ""사라마구""
    ""Nascimento"" -> ""나시멘투""
    ""Azul""       -> ""아줄""
    ""Santarem""   -> ""산타렝""
    ""Garrett""    -> ""가헤트""
    ""Sul""        -> ""술""
    ""Branco""     -> ""브랑쿠""
    ""Teixeira""   -> ""테이셰이라""
    ""excelente""  -> ""이셀렌트""
    ""Melo""       -> ""멜루""
    ""lixo""       -> ""리슈""
    ""Passos""     -> ""파수스""
    ""cresça""     -> ""크레사""
    ""Conquista""  -> ""콩키스타""
    ""Gil""        -> ""질""
    ""Pires""      -> ""피르스""
    ""Barroso""    -> ""바호주""
    ""Diamantina"" -> ""디아만티나""
    ""Francisco""  -> ""프란시스쿠""
    ""Mattoso""    -> ""마토주""
    ""Bandeira""   -> ""반데이라""
    ""Ribeiro""    -> ""히베이루""
    ""Soares""     -> ""소아르스""
    ""Chaves""     -> ""샤베스""
    ""Lins""       -> ""링스""
    ""Chifre""     -> ""시프르""
    ""Peniche""    -> ""페니시""
    ""Angola""     -> ""앙골라""
    ""Campos""     -> ""캄푸스""
    ""Lopes""      -> ""로페스""
    ""Moniz""      -> ""모니스""
    ""Caracol""    -> ""카라콜""
    ""Vincente""   -> ""빈센트""
    ""Egas""       -> ""에가스""
    ""Iguaçú""     -> ""이구아수""
    ""Costa""      -> ""코스타""
    ""Rondon""     -> ""혼동""
    ""Montemayor"" -> ""몬테마요르""
    ""Amado""      -> ""아마두""
    ""Toress""     -> ""토레스""
    ""Alegrete""   -> ""알레그레트""
    ""de""         -> ""드""
    ""Antonio""    -> ""안토니우""
    ""Araquari""   -> ""아라쿠아리""
    ""exemplo""    -> ""이젬플루""
    ""Salazar""    -> ""살라자르""
    ""Manuel""     -> ""마누엘""
    ""piscina""    -> ""피시나""
    ""Camocim""    -> ""카모싱""
    ""Junqueiro""  -> ""중케이루""
    ""Gervasio""   -> ""제르바지우""
    ""Henrique""   -> ""엔히크""
    ""Carlos""     -> ""카를루스""
    ""Aquilino""   -> ""아킬리누""
    ""exame""      -> ""이자므""
    ""Angoche""    -> ""앙고시""
    ""Guerra""     -> ""게하""
    ""Estremoz""   -> ""이스트레모스""
    ""Amalia""     -> ""아말리아""
    ""Gilberto""   -> ""질베르투""
    ""Gomes""      -> ""고메스""
    ""Lagos""      -> ""라구스""
    ""Nobre""      -> ""노브르""
    ""Neves""      -> ""네베스""
    ""Rubens""     -> ""후벵스""
    ""Cabral""     -> ""카브랄""
"%bstr.

Definition src_por : list bstr := [src_por_1; src_por_2].

Definition src_por_br_1 : bstr := "lang:
    id      = ""por-br""
    codes   = ""pt"", ""por""
    english = ""Brazilian Portuguese""
    korean  = ""브라질 포르투갈어""
    script  = ""Latn""

config:
    author = ""Brian Jongseong Park <iceager@gmail.com>""
    stage  = ""draft""

macros:
    ""@"" = ""<vowels>""

vars:
    ""cs""     = ""b"", ""c"", ""C"", ""d"", ""f"", ""g"", ""h"", ""j"", ""k"", ""l"", ""m"", ""n"", ""p"", ""q"", ""r"", ""R"", ""s"", ""S"", ""t"", ""v"", ""w"", ""x"", ""z""
    ""son""    = ""l"", ""m"", ""n"", ""r""
    ""vl""     = ""c"", ""C"", ""f"", ""k"", ""p"", ""q"", ""R"", ""s"", ""S"", ""t""
    ""vowels"" = ""a"", ""A"", ""e"", ""E"", ""i"", ""I"", ""o"", ""O"", ""u"", ""U"", ""Q""

normalize:
    ""á"" = ""Á""
    ""ã"" = ""Ã""
    ""â"" = ""Â""
    ""ç"" = ""Ç""
    ""é"" = ""É"", ""ê""
    ""ê"" = ""Ê""
    ""ó"" = ""Ó""
    ""õ"" = ""Õ""
    ""ô"" = ""Ô""

rewrite:
    ""ã""                                    -> ""A~""
    ""á""                                    -> ""A""
    ""â""                                    -> ""A""
    ""sç""                                   -> ""S""
    ""ç""                                    -> ""S""
    ""é""                                    -> ""E""
    ""ê""                                    -> ""E""
    ""õ""                                    -> ""O~""
    ""ó""                                    -> ""O""
    ""ô""                                    -> ""O""
    ""dumont$""                              -> ""dumon""
    ""^eduar""                               -> ""Eduar""
    ""^eldorado""                            -> ""Eldorado""
    ""^joA~""                                -> ""juA~""
    ""^mirra$""                              -> ""mira""
    ""bb""                                   -> ""b""
    ""cc""                                   -> ""c""
    ""dd""                                   -> ""d""
    ""ff""                                   -> ""f""
    ""gg""                                   -> ""g""
    ""hh""                                   -> ""h""
    ""jj""                                   -> ""j""
    ""kk""                                   -> ""k""
    ""ll""                                   -> ""l""
    ""mm""                                   -> ""m""
    ""nn""                                   -> ""n""
    ""pp""                                   -> ""p""
    ""qq""                                   -> ""q""
    ""tt""                                   -> ""t""
    ""vv""                                   -> ""v""
    ""ww""                                   -> ""w""
    ""xx""                                   -> ""x""
    ""zz""                                   -> ""z""
    ""ch""                                   -> ""C""
    ""lh""                                   -> ""L""
    ""nh""                                   -> ""N""
    ""^ex{@}""                               -> ""ez""
    ""^hex{@}""                              -> ""ez""
    ""~e""                                   -> ""~i""
    ""A~o""                                  -> ""A~""
    ""c{k|q}""                               -> """"
    ""sc{e|E|i}""                            -> ""S""
    ""ssc{e|E|i}""                           -> ""S""
    ""xc{e|E|i}""                            -> ""S""
    ""xs""                                   -> ""S""
    ""xss""                                  -> ""S""
    ""ss""                                   -> ""S""
    ""c{e|E|i}""                             -> ""S""
    ""c""                                    -> ""k""
    ""x{@}""                                 -> ""C""
    ""x""                                    -> ""S""
    ""g{e|E|i}""                             -> ""j""
    ""{g|q}u{e|E|i}""                        -> """"
    ""^e{(a|<cs>a|<cs><cs>a)$}""             -> ""E""
    ""^e{(<cs><cs><cs>a)$}""                 -> ""E""
    ""^e{(am|<cs>am|<cs><cs>am)$}""          -> ""E""
    ""^e{(<cs><cs><cs>am)$}""                -> ""E""
    ""^e{(ans|<cs>ans|<cs><cs>ans)$}""       -> ""E""
    ""^e{(<cs><cs><cs>ans)$}""               -> ""E""
    ""^e{(as|<cs>as|<cs><cs>as)$}""          -> ""E""
    ""^e{(<cs><cs><cs>as)$}""                -> ""E""
    ""^e{(o|<cs>o|<cs><cs>o)$}""             -> ""E""
    ""^e{(<cs><cs><cs>o)$}""                 -> ""E""
    ""^e{(om|<cs>om|<cs><cs>om)$}""          -> ""E""
    ""^e{(<cs><cs><cs>om)$}""                -> ""E""
    ""^e{(ons|<cs>ons|<cs><cs>ons)$}""       -> ""E""
    ""^e{(<cs><cs><cs>ons)$}""               -> ""E""
    ""^e{(os|<cs>os|<cs><cs>os)$}""          -> ""E""
    ""^e{(<cs><cs><cs>os)$}""                -> ""E""
    ""^e{(e|<cs>e|<cs><cs>e)$}""             -> ""E""
    ""^e{(<cs><cs><cs>e)$}""                 -> ""E""
    ""^e{(em|<cs>em|<cs><cs>em)$}""          -> ""E""
    ""^e{(<cs><cs><cs>em)$}""                -> ""E""
    ""^e{(ens|<cs>ens|<cs><cs>ens)$}""       -> ""E""
    ""^e{(<cs><cs><cs>ens)$}""               -> ""E""
    ""^e{(es|<cs>es|<cs><cs>es)$}""          -> ""E""
    ""^e{(<cs><cs><cs>es)$}""                -> ""E""
    ""^e""                                   -> ""i""
    ""e$""                                   -> ""i""
    ""o$""                                   -> ""u""
    ""os$""                                  -> ""us""
    ""{p|b|m|f|v|g|q}es$""                   -> ""Es""
    ""es$""                                  -> ""is""
    ""q""                                    -> ""k""
    ""ou""                                   -> ""o""
    ""A""                                    -> ""a""
    ""E""                                    -> ""e""
    ""I""                                    -> ""i""
    ""O""                                    -> ""o""
    ""U""                                    -> ""u""
    ""aa""                                   -> ""a""
    ""ee""                                   -> ""e""
    ""oo""                                   -> ""o""
    ""uu""                                   -> ""u""
    ""yy""                                   -> ""iy""
    ""^y{@}""                                -> ""Y""
    ""{@}y{@}""                              -> ""Y""
    ""y""                                    -> ""i""
    ""ii""                                   -> ""i""
    ""m$""                                   -> ""~""
    ""n$""                                   -> ""~""
    ""ns$""                                  -> ""~s""
    ""n{g|k}""                               -> ""~""
    ""^r""                                   -> ""R""
    ""{n|l|s}r""                             -> ""R""
    ""rr""                                   -> ""R""
    ""^s""                                   -> ""S""
    ""{<vl>}s""                              -> ""S""
    ""{@}s{@}""                              -> ""z""
    ""s{@}""                                 -> ""S""
    ""s{<vl>}""                              -> ""S""
    ""s$""                                   -> ""S""
    ""s""                                    -> ""Z""
    ""z{@}""                                 -> ""Z""
    ""z{<vl>}""                              -> ""S""
    ""z$""                                   -> ""S""
    ""Z""                                    -> ""z""
    ""k{<son>}""                             -> ""F""
    ""{@}k{<cs>}""                           -> ""k,""
    ""F""                                    -> ""k""
    ""C{@}""                                 -> ""SY""
    ""C""                                    -> ""Si""
    ""N{@}""                                 -> ""nY""
    ""N""                                    -> ""n""
    ""L{@}""                                 -> ""lY""
    ""L""                                    -> ""l""
    ""^l""                                   -> ""l;""
    ""^m""                                   -> ""m;""
    ""^n""                                   -> ""n;""
    ""ul$""                                  -> ""ul,""
    ""l$""                                   -> ""u""
    ""l{<cs>}""                              -> ""u""
    ""m$""                                   -> ""m,""
    ""n$""                                   -> ""n,""
    ""l""                                    -> ""l;""
    ""m{@}""                                 -> ""m;""
    ""n{@|Y}""                               -> ""n;""
    ""m""                                    -> ""m,""
    ""n""                                    -> ""n,""
    ""~""                                    -> ""~,""
    "",,""                                   -> "",""
    "",;""                                   -> """"
    "",m,""                                  -> ""m,""
"%bstr.

Definition src_por_br_2 : bstr := "    "",n,""                                  -> ""n,""
    "";""                                    -> """"
    ""^w""                                   -> ""W""
    ""{@|g|k}w""                             -> ""W""
    ""w""                                    -> ""QW""
    ""di""                                   -> ""ji""
    ""ti""                                   -> ""Ti""

transcribe:
    ""b""    -> ""ㅂ""
    ""d""    -> ""ㄷ""
    ""f""    -> ""ㅍ""
    ""g""    -> ""ㄱ""
    ""j""    -> ""ㅈ""
    ""j""    -> """"
    ""k,""   -> ""-ㄱ""
    ""k""    -> ""ㅋ""
    ""^l""   -> ""ㄹ""
    ""l,""   -> ""-ㄹ""
    ""{,}l"" -> ""ㄹ""
    ""l""    -> ""-ㄹㄹ""
    ""m,""   -> ""-ㅁ""
    ""m""    -> ""ㅁ""
    ""n,""   -> ""-ㄴ""
    ""n""    -> ""ㄴ""
    ""~""    -> ""-ㅇ""
    ""p,""   -> ""-ㅂ""
    ""p""    -> ""ㅍ""
    ""r""    -> ""ㄹ""
    ""R""    -> ""ㅎ""
    ""S""    -> ""ㅅ""
    ""t,""   -> ""-ㅅ""
    ""t""    -> ""ㅌ""
    ""T""    -> ""ㅊ""
    ""v""    -> ""ㅂ""
    ""z""    -> ""ㅈ""
    ""Ya""   -> ""ㅑ""
    ""Ye""   -> ""ㅖ""
    ""Yi""   -> ""ㅣ""
    ""Yo""   -> ""ㅛ""
    ""Yu""   -> ""ㅠ""
    ""YQ""   -> ""ㅡ""
    ""Wa""   -> ""ㅘ""
    ""We""   -> ""ㅞ""
    ""Wi""   -> ""ㅟ""
    ""Wo""   -> ""ㅝ""
    ""Wu""   -> ""ㅜ""
    ""WQ""   -> ""ㅔ""
    ""a""    -> ""ㅏ""
    ""e""    -> ""ㅔ""
    ""i""    -> ""ㅣ""
    ""o""    -> ""ㅗ""
    ""u""    -> ""ㅜ""
    ""Q""    -> ""ㅡ""
    ""h""    -> """"

test:
    ""Dorneles""   -> ""도르넬리스""
    ""Montes""     -> ""몬치스""
    ""Diamantina"" -> ""지아만치나""
    ""Gilberto""   -> ""지우베르투""
    ""Caracol""    -> ""카라코우""
    ""Correntes""  -> ""코헨치스""
    ""Alegrete""   -> ""알레그레치""
    ""de""         -> ""지""
    ""Chifre""     -> ""시프리""

    # Football players
    ""Neymar Júnior""  -> ""네이마르 주니오르""
    ""Ronaldo""        -> ""호나우두""
    ""Ronaldinho""     -> ""호나우지뉴""
    ""Roberto Carlos"" -> ""호베르투 카를루스""
    ""Rivaldo""        -> ""히바우두""
    ""Pelé""           -> ""펠레""
"%bstr.

Definition src_por_br : list bstr := [src_por_br_1; src_por_br_2].

Definition src_ron_1 : bstr := "lang:
    id      = ""ron""
    codes   = ""ro"", ""ron""
    english = ""Romanian""
    korean  = ""루마니아어""
    script  = ""Latn""

config:
    author = ""Brian Jongseong Park <iceager@gmail.com>""
    stage  = ""draft""

macros:
    ""@"" = ""<vowels>""

vars:
    ""voiceless"" = ""C"", ""f"", ""h"", ""k"", ""p"", ""s"", ""t"", ""T""
    ""vowels""    = ""a"", ""A"", ""e"", ""i"", ""I"", ""o"", ""u""

normalize:
    ""ș"" = ""Ș"", ""ş"", ""Ş""
    ""ț"" = ""Ț"", ""ţ"", ""Ţ""
    ""â"" = ""Â""
    ""ă"" = ""Ă"", ""ĕ"", ""Ĕ""
    ""î"" = ""Î""

rewrite:
    ""ă""       -> ""A""
    ""â""       -> ""I""
    ""î""       -> ""I""
    ""ș""       -> ""S""
    ""ț""       -> ""T""
    ""ch""      -> ""k""
    ""gh""      -> ""G""
    ""^y{@}""   -> ""Y""
    ""y""       -> ""i""
    ""cea""     -> ""Ca""
    ""gea""     -> ""ja""
    ""c{e|i}""  -> ""C""
    ""g{e|i}""  -> ""j""
    ""cc""      -> ""c""
    ""gg""      -> ""g""
    ""c""       -> ""k""
    ""g""       -> ""G""
    ""dz""      -> ""z""
    ""^ea$""    -> ""Yea""
    ""^ei$""    -> ""Yei""
    ""^el$""    -> ""Yel""
    ""^ele$""   -> ""Yele""
    ""^eu$""    -> ""Yeu""
    ""^era$""   -> ""Yera""
    ""^erai$""  -> ""Yerai""
    ""^eram$""  -> ""Yeram""
    ""^eraTi$"" -> ""YeraTi""
    ""^erau$""  -> ""Yerau""
    ""^este$""  -> ""Yeste""
    ""^eSti$""  -> ""YeSti""
    ""^ex{@}""  -> ""eGz""
    ""SS""      -> ""S""
    ""S{@}""    -> ""sY""
    ""S""       -> ""sYu""
    ""xx""      -> ""x""
    ""x""       -> ""ks""
    ""q""       -> ""k""
    ""kh""      -> ""k""
    ""ph""      -> ""p""
    ""th""      -> ""t""
    ""w""       -> ""v""
    ""^y{@}""   -> ""Y""
    ""y""       -> ""i""
    ""aa""      -> ""a""
    ""bb""      -> ""b""
    ""dd""      -> ""d""
    ""ee""      -> ""e""
    ""ff""      -> ""f""
    ""hh""      -> ""h""
    ""ii""      -> ""i""
    ""jj""      -> ""j""
    ""kk""      -> ""k""
    ""ll""      -> ""l""
    ""mm""      -> ""m""
    ""nn""      -> ""n""
    ""mn$""     -> ""mnI""
    ""oo""      -> ""o""
    ""pp""      -> ""p""
    ""rr""      -> ""r""
    ""ss""      -> ""s""
    ""tt""      -> ""t""
    ""uu""      -> ""u""
    ""vv""      -> ""v""
    ""zz""      -> ""z""
    ""^m""      -> ""P""
    ""^n""      -> ""Q""

transcribe:
    ""{@}mm{@}""          -> ""-ㅁㅁ""
    ""{@}nn{@}""          -> ""-ㄴㄴ""
    ""^k""                -> ""ㅋ""
    ""{@}k{<voiceless>}"" -> ""-ㄱ""
    ""^p""                -> ""ㅍ""
    ""{@}p{<voiceless>}"" -> ""-ㅂ""
    ""k""                 -> ""ㅋ""
    ""p""                 -> ""ㅍ""
    ""b""                 -> ""ㅂ""
    ""C""                 -> ""ㅊ""
    ""d""                 -> ""ㄷ""
    ""f""                 -> ""ㅍ""
    ""G""                 -> ""ㄱ""
    ""h""                 -> ""ㅎ""
    ""j{@}""              -> ""ㅈ""
    ""j""                 -> ""ㅈㅣ""
    ""^l""                -> ""ㄹ""
    ""{m|n}l""            -> ""ㄹ""
    ""l{@}""              -> ""-ㄹㄹ""
    ""l""                 -> ""-ㄹ""
    ""P""                 -> ""ㅁ""
    ""m{@}""              -> ""ㅁ""
    ""m""                 -> ""-ㅁ""
    ""Q""                 -> ""ㄴ""
    ""n{@}""              -> ""ㄴ""
    ""n""                 -> ""-ㄴ""
    ""r""                 -> ""ㄹ""
    ""s""                 -> ""ㅅ""
    ""t""                 -> ""ㅌ""
    ""T""                 -> ""ㅊ""
    ""v""                 -> ""ㅂ""
    ""z""                 -> ""ㅈ""
    ""Ya""                -> ""ㅑ""
    ""YA""                -> ""ㅕ""
    ""Ye""                -> ""ㅖ""
    ""Yi""                -> ""ㅣ""
    ""YI""                -> ""ㅣㅡ""
    ""Yo""                -> ""ㅛ""
    ""Yu""                -> ""ㅠ""
    ""a""                 -> ""ㅏ""
    ""A""                 -> ""ㅓ""
    ""e""                 -> ""ㅔ""
    ""i""                 -> ""ㅣ""
    ""I""                 -> ""ㅡ""
    ""o""                 -> ""ㅗ""
    ""u""                 -> ""ㅜ""

test:
    ""taxi""       -> ""탁시""
    ""este""       -> ""예스테""
    ""Cine""       -> ""치네""
    ""alb""        -> ""알브""
    ""telefonist"" -> ""텔레포니스트""
    ""Jiu""        -> ""지우""
    ""radio""      -> ""라디오""
    ""Avram""      -> ""아브람""
    ""duh""        -> ""두흐""
    ""Victoria""   -> ""빅토리아""
    ""Cartof""     -> ""카르토프""
    ""Elena""      -> ""엘레나""
    ""Theodor""    -> ""테오도르""
    ""Galaţi""     -> ""갈라치""
    ""Gheorghe""   -> ""게오르게""
    ""hotel""      -> ""호텔""
    ""Moldova""    -> ""몰도바""
    ""hering""     -> ""헤린그""
    ""Brad""       -> ""브라드""
    ""examen""     -> ""에그자멘""
    ""Bran""       -> ""브란""
    ""Cîmpina""    -> ""큼피나""
    ""cap""        -> ""카프""
    ""autobuz""    -> ""아우토부즈""
    ""era""        -> ""예라""
    ""lemn""       -> ""렘느""
    ""el""         -> ""옐""
    ""Focşani""    -> ""폭샤니""
    ""Maramureş""  -> ""마라무레슈""
    ""Oradea""     -> ""오라데아""
    ""clei""       -> ""클레이""
    ""eu""         -> ""예우""
    ""Cluj""       -> ""클루지""
    ""Mureş""      -> ""무레슈""
    ""pas""        -> ""파스""
    ""pumn""       -> ""품느""
    ""Sibiu""      -> ""시비우""
    ""Bacău""      -> ""바커우""
    ""Braşov""     -> ""브라쇼브""
    ""Arad""       -> ""아라드""
    ""pianist""    -> ""피아니스트""
    ""Gigel""      -> ""지젤""
    ""România""    -> ""로므니아""
    ""Sturdza""    -> ""스투르자""
    ""bilet""      -> ""빌레트""
    ""Emil""       -> ""에밀""
    ""bibliotecă"" -> ""비블리오테커""
    ""Cheia""      -> ""케이아""
    ""centru""     -> ""첸트루""
    ""septembrie"" -> ""셉템브리에""
    ""şag""        -> ""샤그""
    ""ziar""       -> ""지아르""
    ""Nucet""      -> ""누체트""
    ""factură""    -> ""팍투러""
    ""kilogram""   -> ""킬로그람""
    ""ţigară""     -> ""치가러""
    ""braţ""       -> ""브라츠""
    ""haţeg""      -> ""하체그""
    ""dor""        -> ""도르""
    ""Cîntec""     -> ""큰테크""

"%bstr.

Definition src_ron : list bstr := [src_ron_1].

Definition src_rus_1 : bstr := "lang:
    id       = ""rus""
    codes    = ""ru"", ""rus""
    english  = ""Russian""
    korean   = ""러시아어""
    script   = ""Cyrl""
    translit = ""cyrillic[ru]""

config:
    author = ""Brian Jongseong Park <iceager@gmail.com>""
    stage  = ""draft""

macros:
    ""@"" = ""<vowels>""

vars:
    ""cs""     = ""б"", ""в"", ""г"", ""д"", ""ж"", ""з"", ""к"", ""л"", ""м"", ""н"", ""п"", ""р"", ""с"", ""т"", ""ф"", ""х"", ""ц"", ""ч"", ""ш"", ""щ""
    ""vl""     = ""к"", ""п"", ""с"", ""т"", ""ф"", ""х"", ""ц"", ""ч"", ""ш"", ""щ""
    ""vowels"" = ""а"", ""е"", ""ё"", ""и"", ""й"", ""о"", ""у"", ""ы"", ""ъ"", ""ь"", ""э"", ""ю"", ""я""

rewrite:
    ""град""           -> ""град-""
    ""город""          -> ""город-""
    ""^ль""            -> ""л-ь""
    ""{л|м|н}ь$""      -> """"
    ""{л|м|н}ь{<cs>}"" -> """"
    ""бб""             -> ""б""
    ""вв""             -> ""в""
    ""гг""             -> ""г""
    ""дд""             -> ""д""
    ""дц""             -> ""ц""
    ""дч""             -> ""ч""
    ""жж""             -> ""ж""
    ""зз""             -> ""з""
    ""кк""             -> ""к""
    ""лл""             -> ""л""
    ""{@}мм{@}""       -> ""м,м""
    ""мм""             -> ""м""
    ""{@}нн{@}""       -> ""н,н""
    ""нн""             -> ""н""
    ""пп""             -> ""п""
    ""рр""             -> ""р""
    ""сс""             -> ""с""
    ""тт""             -> ""т""
    ""тц""             -> ""ц""
    ""тч""             -> ""ч""
    ""фф""             -> ""ф""
    ""хх""             -> ""х""
    ""цц""             -> ""ц""
    ""чч""             -> ""ч""
    ""шш""             -> ""ш""
    ""щщ""             -> ""щ""
    ""ий""             -> ""и""
    ""ый""             -> ""ы""
    ""дс$""            -> ""ц""
    ""дс{<cs>}""       -> ""ц""
    ""тс""             -> ""ц""
    ""дз""             -> ""з""
    ""дж""             -> ""ж""
    ""нкт""            -> ""Nт""
    ""б{<vl>}""        -> ""п""
    ""б$""             -> ""п""
    ""в{<vl>}""        -> ""ф""
    ""в$""             -> ""ф""
    ""г{<vl>}""        -> ""к""
    ""г$""             -> ""к""
    ""д{<vl>}""        -> ""т""
    ""д$""             -> ""т""
    ""ж{<vl>}""        -> ""ш""
    ""ж$""             -> ""ш""
    ""з{<vl>}""        -> ""с""
    ""з$""             -> ""с""
    ""^к""             -> ""к;""
    ""к{<vl>}""        -> ""к,""
    ""^п""             -> ""п;""
    ""п{<vl>}""        -> ""п,""
    ""^т""             -> ""т;""
    ""т{<vl>}""        -> ""т,""
    ""^ф""             -> ""ф;""
    ""ф{<vl>}""        -> ""п,""
    "";""              -> """"
    "",к,""            -> "",к""
    "",п,""            -> "",п""
    "",т,""            -> "",т""
    ""{ж|з|ц|ч}ё""     -> ""о""
    ""{ж|з|ц|ч}ю""     -> ""у""
    ""{ж|з|ц|ч}я""     -> ""а""
    ""^э""             -> ""е""
    ""{@|ъ|ь}э""       -> ""е""
    ""щ""              -> ""ш""
    ""ше""             -> ""с-е""
    ""{<cs>}е""        -> ""э""
    ""ша""             -> ""ся""
    ""шо""             -> ""сё""
    ""шу""             -> ""сю""
    ""ш{и|й|ы|ъ|ь}""   -> ""с""
    ""ш""              -> ""сь""
    ""ч$""             -> ""чь""
    ""ч{<cs>}""        -> ""чь""
    ""^л""             -> ""л;""
    ""^м""             -> ""м;""
    ""^н""             -> ""н;""
    ""л$""             -> ""л,""
    ""м$""             -> ""м,""
    ""н$""             -> ""н,""
    ""л{@|м,|н,}""     -> ""л;""
    ""м{@|л}""         -> ""м;""
    ""н{@|л}""         -> ""н;""
    ""л""              -> ""л,""
    ""м""              -> ""м,""
    ""н""              -> ""н,""
    "",,""             -> "",""
    "",;""             -> """"
    "",л,""            -> ""л,""
    "",м,""            -> ""м,""
    "",н,""            -> ""н,""
    ""л{м;|н;}""       -> ""л,""
    "";|-""            -> """"

transcribe:
    ""б""  -> ""ㅂ""
    ""в""  -> ""ㅂ""
    ""г""  -> ""ㄱ""
    ""д""  -> ""ㄷ""
    ""ж""  -> ""ㅈ""
    ""з""  -> ""ㅈ""
    ""ж""  -> ""ㅈ""
    ""к,"" -> ""-ㄱ""
    ""к""  -> ""ㅋ""
    ""^л"" -> ""ㄹ""
    ""л,"" -> ""-ㄹ""
    ""л""  -> ""-ㄹㄹ""
    ""м,"" -> ""-ㅁ""
    ""м""  -> ""ㅁ""
    ""н,"" -> ""-ㄴ""
    ""н""  -> ""ㄴ""
    ""N""  -> ""-ㅇ""
    ""п,"" -> ""-ㅂ""
    ""п""  -> ""ㅍ""
    ""р""  -> ""ㄹ""
    ""с""  -> ""ㅅ""
    ""т,"" -> ""-ㅅ""
    ""т""  -> ""ㅌ""
    ""ф""  -> ""ㅍ""
    ""х""  -> ""ㅎ""
    ""ц""  -> ""ㅊ""
    ""ч""  -> ""ㅊ""
    ""а""  -> ""ㅏ""
    ""е""  -> ""ㅖ""
    ""ё""  -> ""ㅛ""
    ""и""  -> ""ㅣ""
    ""й""  -> ""ㅣ""
    ""о""  -> ""ㅗ""
    ""у""  -> ""ㅜ""
    ""ы""  -> ""ㅣ""
    ""ъ""  -> ""ㅣ""
    ""ь""  -> ""ㅣ""
    ""э""  -> ""ㅔ""
    ""ю""  -> ""ㅠ""
    ""я""  -> ""ㅑ""

test:
    ""Надя""         -> ""나댜""
    ""Щирец""        -> ""시레츠""
    ""Игорь""        -> ""이고리""
    ""Аввакум""      -> ""아바쿰""
    ""Крылов""       -> ""크릴로프""
    ""Гоголь""       -> ""고골""
    ""Бобров""       -> ""보브로프""
    ""Владивосток""  -> ""블라디보스토크""
    ""Калмык""       -> ""칼미크""
    ""Капица""       -> ""카피차""
    ""Псков""        -> ""프스코프""
    ""Аксаков""      -> ""악사코프""
    ""Ефремов""      -> ""예프레모프""
    ""Манечка""      -> ""마네치카""
    ""Жадовская""    -> ""자돕스카야""
    ""Шишков""       -> ""시시코프""
    ""Соллогуб""     -> ""솔로구프""
    ""Брятск""       -> ""브랴츠크""
    ""Павел""        -> ""파벨""
    ""Глеб""         -> ""글레프""
    ""Андарбаг""     -> ""안다르바크""
    ""Петрозаводск"" -> ""페트로자보츠크""
    ""Якутск""       -> ""야쿠츠크""
    ""Восход""       -> ""보스호트""
    ""Ойстрах""      -> ""오이스트라흐""
    ""Кыра""         -> ""키라""
    ""Алексей""      -> ""알렉세이""
    ""Сарапул""      -> ""사라풀""
    ""Петров""       -> ""페트로프""
    ""Кебеж""        -> ""케베시""
    ""Цветаева""     -> ""츠베타예바""
    ""Илья""         -> ""일리야""
    ""Марков""       -> ""마르코프""
    ""Алексеев""     -> ""알렉세예프""
    ""Таджикистан""  -> ""타지키스탄""
    ""Агрыз""        -> ""아그리스""
    ""Юрий""         -> ""유리""
    ""Егвекинот""    -> ""예그베키노트""
    ""Калининград""  -> ""칼리닌그라드""
    ""Тверь""        -> ""트베리""
    ""Гончаров""     -> ""곤차로프""
    ""Хабаровск""    -> ""하바롭스크""
    ""Мусоргский""   -> ""무소륵스키""
    ""Мценск""       -> ""므첸스크""
    ""Квас""         -> ""크바스""
    ""Стефан""       -> ""스테판""
    ""Славгород""    -> ""슬라브고로드""
    ""Юрга""         -> ""유르가""
    ""Премьер""      -> ""프레미예르""
    ""Белый""        -> ""벨리""
    ""Анна""         -> ""안나""
    ""Ленин""        -> ""레닌""
    ""Ростопчиня""   -> ""로스톱치냐""
    ""Зайчев""       -> ""자이체프""
    ""Волгоград""    -> ""볼고그라드""
    ""Веревкин""     -> ""베렙킨""
    ""Андрей""       -> ""안드레이""
    ""Цимлянск""     -> ""치믈랸스크""
    ""Одесса""       -> ""오데사""
    ""Майкоп""       -> ""마이코프""
    ""Максим""       -> ""막심""
    ""Лермонтов""    -> ""레르몬토프""
    ""Дмитрий""      -> ""드미트리""
    ""Вернадский""   -> ""베르나츠키""
    ""Иванов""       -> ""이바노프""
    ""Дьяково""      -> ""디야코보""
    ""Татьяна""      -> ""타티야나""
    ""Лопатка""      -> ""로팟카""
    ""Эртель""       -> ""예르텔""
    ""Акбаур""       -> ""아크바우르""
    ""Фёдор""        -> ""표도르""
    ""Салтыков""     -> ""살티코프""
    ""Адыгея""       -> ""아디게야""
    ""Садко""        -> ""삿코""
    ""Ахматова""     -> ""아흐마토바""
    ""Рубцовск""     -> ""룹촙스크""
    ""Якубович""     -> ""야쿠보비치""
    ""Нижний Тагил"" -> ""니즈니 타길""
    ""Лужков""       -> ""루시코프""
    ""Авксесия""     -> ""압크세시야""
    ""Острогожск""   -> ""오스트로고시스크""
"%bstr.

Definition src_rus_2 : bstr := "    ""Гатчина""      -> ""가치나""
    ""Ольга""        -> ""올가""
    ""борщ""         -> ""보르시""
    ""Назрань""      -> ""나즈란""
    ""Гиппиус""      -> ""기피우스""
    ""Курбский""     -> ""쿠릅스키""
    ""Борис""        -> ""보리스""
    ""Болотов""      -> ""볼로토프""
    ""Гамма""        -> ""감마""
    ""Кузнецов""     -> ""쿠즈네초프""
    ""Михаийл""      -> ""미하일""
    ""Ока""          -> ""오카""
    ""Достоевский""  -> ""도스토옙스키""
    ""Рязань""       -> ""랴잔""
    ""Льбовна""      -> ""리보브나""
    ""Хомяков""      -> ""호먀코프""
    ""Ушаков""       -> ""우샤코프""
    ""Николаевич""   -> ""니콜라예비치""
    ""Шелгунов""     -> ""셸구노프""
    ""Рыбинск""      -> ""리빈스크""
    ""Хватков""      -> ""흐밧코프""
    ""Евгений""      -> ""예브게니""
    ""Жданов""       -> ""즈다노프""
    ""Абакан""       -> ""아바칸""
    ""Соловьёв""     -> ""솔로비요프""
    ""Иосиф""        -> ""이오시프""
    ""Пётр""         -> ""표트르""
    ""Земля""        -> ""제믈랴""
    ""Бурят""        -> ""부랴트""
    ""Ясинский""     -> ""야신스키""
    ""Богдан""       -> ""보그단""
    ""Артём""        -> ""아르툠""
    ""Дзержинский""  -> ""제르진스키""
    ""Щербаков""     -> ""셰르바코프""
    ""Николай""      -> ""니콜라이""
    ""Василий""      -> ""바실리""
    ""Тютчев""       -> ""튜체프""
    ""Акмеизм""      -> ""아크메이즘""
    ""Акколь""       -> ""아콜""
    ""Находка""      -> ""나홋카""
    ""Бенедиктов""   -> ""베네딕토프""
    ""Алекса́ндр""    -> ""알렉산드르""

    # Politicians
    ""Влади́мир Пу́тин"" -> ""블라디미르 푸틴""
"%bstr.

Definition src_rus : list bstr := [src_rus_1; src_rus_2].

