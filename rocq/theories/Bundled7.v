(** Bundled specs, byte for byte (specs.go:15-16): specs/slk.hsl, specs/slv.hsl, specs/spa.hsl, specs/sqi.hsl, specs/swe.hsl, specs/tur.hsl. Generated by tools/gen_bundled.py. *)
From Verif Require Import GoBase BString.

Definition src_slk_1 : bstr := "lang:
    id      = ""slk""
    codes   = ""sk"", ""slk""
    english = ""Slovak""
    korean  = ""슬로바키아어""
    script  = ""Latn""

config:
    author = ""Brian Jongseong Park <iceager@gmail.com>""
    stage  = ""draft""

macros:
    ""@"" = ""<vowels>""

vars:
    ""cs""     = ""b"", ""c"", ""C"", ""d"", ""D"", ""f"", ""g"", ""h"", ""j"", ""k"", ""l"", ""L"", ""m"", ""n"", ""N"", ""p"", ""q"", ""Q"", ""r"", ""R"", ""s"", ""S"", ""t"", ""T"", ""v"", ""w"", ""x"", ""z"", ""Z""
    ""vl""     = ""c"", ""C"", ""f"", ""k"", ""p"", ""s"", ""S"", ""t"", ""T""
    ""vowels"" = ""a"", ""A"", ""P"", ""e"", ""E"", ""i"", ""I"", ""o"", ""O"", ""W"", ""u"", ""U"", ""y"", ""Y""

normalize:
    ""á"" = ""Á""
    ""ä"" = ""Ä""
    ""č"" = ""Č""
    ""ď"" = ""Ď""
    ""é"" = ""É""
    ""í"" = ""Í""
    ""ĺ"" = ""Ĺ""
    ""ľ"" = ""Ľ""
    ""ň"" = ""Ň""
    ""ó"" = ""Ó""
    ""ô"" = ""Ô""
    ""ŕ"" = ""Ŕ""
    ""š"" = ""Š""
    ""ť"" = ""Ť""
    ""ú"" = ""Ú""
    ""ý"" = ""Ý""
    ""ž"" = ""Ž""

rewrite:
    ""á""                                                          -> ""A""
    ""ä""                                                          -> ""P""
    ""č""                                                          -> ""C""
    ""ď""                                                          -> ""D""
    ""é""                                                          -> ""E""
    ""í""                                                          -> ""I""
    ""ĺ""                                                          -> ""L""
    ""ľ""                                                          -> ""Q""
    ""ň""                                                          -> ""N""
    ""ó""                                                          -> ""O""
    ""ô""                                                          -> ""W""
    ""ŕ""                                                          -> ""R""
    ""š""                                                          -> ""S""
    ""ť""                                                          -> ""T""
    ""ú""                                                          -> ""U""
    ""ý""                                                          -> ""Y""
    ""ž""                                                          -> ""Z""
    ""^bielov{<cs>}""                                              -> ""bieloV""
    ""^bratovr""                                                   -> ""bratoVr""
    ""^cArov{<cs>}""                                               -> ""cAroV""
    ""^cudzov{<cs>}""                                              -> ""cudzoV""
    ""^Carov{<cs>}""                                               -> ""CaroV""
    ""^dov{<cs>}""                                                 -> ""doV""
    ""^drevov{<cs>}""                                              -> ""drevoV""
    ""^hrWzov{<cs>}""                                              -> ""hrWzoV""
    ""^krutov{<cs>}""                                              -> ""krutoV""
    ""^mAlov{<cs>}""                                               -> ""mAloV""
    ""^mimov{<cs>}""                                               -> ""mimoV""
    ""^mnohov{<cs>}""                                              -> ""mnohoV""
    ""^nav{l|r|z}""                                                -> ""naV""
    ""^nAvr""                                                      -> ""nAVr""
    ""^nev{<cs>}""                                                 -> ""neV""
    ""^ov{dov|lAd|laZ|p|r}""                                       -> ""oV""
    ""^polov{<cs>}""                                               -> ""poloV""
    ""^poStov{<cs>}""                                              -> ""poStoV""
    ""^povra""                                                     -> ""poura""
    ""^pov{<cs>}""                                                 -> ""poV""
    ""^povyv{<cs>}""                                               -> ""povyV""
    ""^povzb""                                                     -> ""poVzb""
    ""^pravl""                                                     -> ""praVl""
    ""^prev{<cs>}""                                                -> ""preV""
    ""^priv{<cs>}""                                                -> ""priV""
    ""spoluv{<cs>}""                                               -> ""spoluV""
    ""^sUv{<cs>}""                                                 -> ""sUV""
    ""^vov{<cs>}""                                                 -> ""voV""
    ""^vyv{<cs>}""                                                 -> ""vyV""
    ""^zav{<cs>}""                                                 -> ""zaV""
    ""^zov{<cs>}""                                                 -> ""zoV""
    ""^uv{<cs>}""                                                  -> ""uV""
    ""v{Cera|lAd|las|rAs|rav|rat|rAt|Simn|tAk|tip|zdu|zTah|zTaZ}"" -> ""V""
    ""v{lC|QC|lh|lk}""                                             -> ""v""
    ""vl{C|h|k|n}""                                                -> ""Vl""
    ""vr{h|ch|kn|l|stv|z|Zl}""                                     -> ""Vr""
    ""vR{S|t|z}""                                                  -> ""VR""
    ""vz{d|h|n|T}""                                                -> ""Vz""
    ""v{n|N}""                                                     -> ""V""
    ""{@}v{<cs>}""                                                 -> ""u""
    ""{@}v$""                                                      -> ""u""
    ""V""                                                          -> ""v""
    ""A""                                                          -> ""a""
    ""P""                                                          -> ""e""
    ""E""                                                          -> ""e""
    ""I""                                                          -> ""i""
    ""L""                                                          -> ""l""
    ""O""                                                          -> ""o""
    ""R""                                                          -> ""r""
    ""W""                                                          -> ""uo""
    ""U""                                                          -> ""u""
    ""w""                                                          -> ""v""
    ""ts""                                                         -> ""c""
    ""tS""                                                         -> ""C""
    ""b{<vl>}""                                                    -> ""p""
    ""b$""                                                         -> ""p""
    ""d{<vl>}""                                                    -> ""t""
    ""d$""                                                         -> ""t""
    ""dz{<vl>}""                                                   -> ""c""
    ""dz$""                                                        -> ""c""
    ""dZ{<vl>}""                                                   -> ""C""
    ""dZ$""                                                        -> ""C""
    ""D{<vl>}""                                                    -> ""T""
    ""D$""                                                         -> ""T""
    ""g{<vl>}""                                                    -> ""k""
    ""g$""                                                         -> ""k""
    ""v{<vl>}""                                                    -> ""f""
    ""v$""                                                         -> ""f""
    ""z{<vl>}""                                                    -> ""s""
    ""z$""                                                         -> ""s""
    ""Z{<vl>}""                                                    -> ""S""
    ""Z$""                                                         -> ""S""
    ""C{@}""                                                       -> ""c""
    ""C""                                                          -> ""ci""
    ""D{@}""                                                       -> ""dJ""
    ""D""                                                          -> ""di""
    ""Q{@}""                                                       -> ""lJ""
    ""Q""                                                          -> ""l""
    ""N{@}""                                                       -> ""nJ""
    ""N""                                                          -> ""n""
"%bstr.

Definition src_slk_2 : bstr := "    ""S{@}""                                                       -> ""sJ""
    ""S$""                                                         -> ""si""
    ""S""                                                          -> ""sJu""
    ""T{@}""                                                       -> ""tJ""
    ""T""                                                          -> ""ti""
    ""dZ{@}""                                                      -> ""z""
    ""dZ""                                                         -> ""zi""
    ""Z{@}""                                                       -> ""z""
    ""Z""                                                          -> ""zu""
    ""xx""                                                         -> ""x""
    ""^x""                                                         -> ""z""
    ""x""                                                          -> ""ks""
    ""qu""                                                         -> ""kv""
    ""q""                                                          -> ""k""
    ""ch""                                                         -> ""h""
    ""aa""                                                         -> ""a""
    ""bb""                                                         -> ""b""
    ""dd""                                                         -> ""d""
    ""ee""                                                         -> ""e""
    ""ff""                                                         -> ""f""
    ""gg""                                                         -> ""g""
    ""hh""                                                         -> ""h""
    ""jj""                                                         -> ""ij""
    ""ii""                                                         -> ""i""
    ""^j{@}""                                                      -> ""J""
    ""{@}j{@}""                                                    -> ""J""
    ""sje""                                                        -> ""sJe""
    ""je""                                                         -> ""e""
    ""{l|n|d|s|t}j{@}""                                            -> ""J""
    ""{l|n}j""                                                     -> """"
    ""j""                                                          -> ""i""
    ""ij""                                                         -> ""i""
    ""yj""                                                         -> ""y""
    ""kk""                                                         -> ""k""
    ""ll""                                                         -> ""l""
    ""{@}mm{@}""                                                   -> ""m,m""
    ""mm""                                                         -> ""m""
    ""{@}nn{@}""                                                   -> ""n,n""
    ""nn""                                                         -> ""n""
    ""oo""                                                         -> ""o""
    ""pp""                                                         -> ""p""
    ""rr""                                                         -> ""r""
    ""ss""                                                         -> ""s""
    ""tt""                                                         -> ""t""
    ""uu""                                                         -> ""u""
    ""vv""                                                         -> ""v""
    ""^y{@}""                                                      -> ""J""
    ""{@}y{@}""                                                    -> ""J""
    ""yy""                                                         -> ""y""
    ""y""                                                          -> ""i""
    ""Y""                                                          -> ""i""
    ""zz""                                                         -> ""z""
    ""dz""                                                         -> ""z""
    ""je""                                                         -> ""e""
    ""{@}k{<vl>}""                                                 -> ""k,""
    ""{@}p{<vl>}""                                                 -> ""p,""
    ""^l""                                                         -> ""l;""
    ""^m""                                                         -> ""m;""
    ""^n""                                                         -> ""n;""
    ""l$""                                                         -> ""l,""
    ""m$""                                                         -> ""m,""
    ""n$""                                                         -> ""n,""
    ""l{@|J|m,|n,}""                                               -> ""l;""
    ""{,}l""                                                       -> ""l;""
    ""m{@|r}""                                                     -> ""m;""
    ""n{@|J}""                                                     -> ""n;""
    ""l""                                                          -> ""l,""
    ""m""                                                          -> ""m,""
    ""n""                                                          -> ""n,""
    "",,""                                                         -> "",""
    "",;""                                                         -> """"
    "",l,""                                                        -> ""l,""
    "",m,""                                                        -> ""m,""
    "",n,""                                                        -> ""n,""
    ""l{m;|n;}""                                                   -> ""l,""
    "";""                                                          -> """"

transcribe:
    ""b""    -> ""ㅂ""
    ""c""    -> ""ㅊ""
    ""d""    -> ""ㄷ""
    ""f""    -> ""ㅍ""
    ""g""    -> ""ㄱ""
    ""h""    -> ""ㅎ""
    ""H""    -> ""ㅎ""
    ""k,""   -> ""-ㄱ""
    ""k""    -> ""ㅋ""
    ""^l""   -> ""ㄹ""
    ""{,}l"" -> ""ㄹ""
    ""l,""   -> ""-ㄹ""
    ""l""    -> ""-ㄹㄹ""
    ""m,""   -> ""-ㅁ""
    ""m""    -> ""ㅁ""
    ""n,""   -> ""-ㄴ""
    ""n""    -> ""ㄴ""
    ""p,""   -> ""-ㅂ""
    ""p""    -> ""ㅍ""
    ""r""    -> ""ㄹ""
    ""s""    -> ""ㅅ""
    ""t""    -> ""ㅌ""
    ""v""    -> ""ㅂ""
    ""z""    -> ""ㅈ""
    ""Ja""   -> ""ㅑ""
    ""Je""   -> ""ㅖ""
    ""Ji""   -> ""ㅣ""
    ""Jo""   -> ""ㅛ""
    ""Ju""   -> ""ㅠ""
    ""a""    -> ""ㅏ""
    ""e""    -> ""ㅔ""
    ""i""    -> ""ㅣ""
    ""o""    -> ""ㅗ""
    ""u""    -> ""ㅜ""

test:
    ""Prešov""                   -> ""프레쇼우""
    ""Ľudovít Štúr""             -> ""류도비트 슈투르""
    ""Nitra""                    -> ""니트라""
    ""Pavol Hurajt""             -> ""파볼 후라이트""
    ""Martin""                   -> ""마르틴""
    ""Martin Škrtel""            -> ""마르틴 슈크르텔""
    ""deväť""                    -> ""데베티""
    ""Milan Hodža""              -> ""밀란 호자""
    ""Manínska tiesňava""        -> ""마닌스카 티에스냐바""
    ""Vavrinec""                 -> ""바우리네츠""
    ""Komárno""                  -> ""코마르노""
    ""Aurel Stodola""            -> ""아우렐 스토돌라""
    ""Zvolen""                   -> ""즈볼렌""
    ""Hviezdoslav""              -> ""흐비에즈도슬라우""
    ""Daniela Hantuchová""       -> ""다니엘라 한투호바""
    ""Poprad""                   -> ""포프라트""
    ""Vladimír Mečiar""          -> ""블라디미르 메치아르""
    ""Natália Prekopová""        -> ""나탈리아 프레코포바""
    ""Bratislava""               -> ""브라티슬라바""
    ""Milan Rastislav Štefánik"" -> ""밀란 라스티슬라우 슈테파니크""
    ""Štefan Banič""             -> ""슈테판 바니치""
    ""Jozef Miloslav Hurban""    -> ""요제프 밀로슬라우 후르반""
    ""jahôd""                    -> ""야후오트""
    ""Martina Moravcová""        -> ""마르티나 모라우초바""
    ""Bardejov""                 -> ""바르데요우""
    ""Jozef Roháček""            -> ""요제프 로하체크""
    ""Dionýz Ilkovič""           -> ""디오니스 일코비치""
    ""Peter Šťastný""            -> ""페테르 슈탸스트니""
    ""Rožňava""                  -> ""로주냐바""
    ""Dominika Cibulková""       -> ""도미니카 치불코바""
"%bstr.

Definition src_slk_3 : bstr := "    ""Michaela Kocianová""       -> ""미하엘라 코치아노바""
    ""pätnásť""                  -> ""페트나스티""
    ""Marek Hamšík""             -> ""마레크 함시크""
    ""Alexander Dubček""         -> ""알렉산데르 둡체크""
    ""Michal Martikán""          -> ""미할 마르티칸""
    ""Spiš""                     -> ""스피시""
    ""Trnava""                   -> ""트르나바""
    ""Váh""                      -> ""바흐""
    ""Banská Bystrica""          -> ""반스카 비스트리차""
    ""Považská""                 -> ""포바슈스카""
    ""Trenčín""                  -> ""트렌친""
    ""Rudolf Vrba""              -> ""루돌프 브르바""
    ""Mikuláš Dzurinda""         -> ""미쿨라시 주린다""
    ""Zuzana Sekerová""          -> ""주자나 세케로바""
    ""mäkčeň""                   -> ""멕첸""
    ""Anton Bernolák""           -> ""안톤 베르놀라크""
    ""Ján Čarnogurský""          -> ""얀 차르노구르스키""
    ""Dominik Hrbatý""           -> ""도미니크 흐르바티""
    ""Žilina""                   -> ""질리나""
    ""Andrej Hlinka""            -> ""안드레이 흘린카""
    ""Jozef Murgaš""             -> ""요제프 무르가시""
    ""Košice""                   -> ""코시체""
    ""Slavín""                   -> ""슬라빈""
    ""Michalovce""               -> ""미할로우체""
    ""Peter Bondra""             -> ""페테르 본드라""
    ""Žehra""                    -> ""제흐라""
    ""Magdaléna Rybáriková""     -> ""마그달레나 리바리코바""
    ""Zuzana Štefečeková""       -> ""주자나 슈테페체코바""
    ""Marián Gáborík""           -> ""마리안 가보리크""
    ""Zdeno Chára""              -> ""즈데노 하라""
    ""Marian Hossa""             -> ""마리안 호사""
    ""Eugen Suchoň""             -> ""에우겐 수혼""
    ""Anastasiya Kuzmina""       -> ""아나스타시야 쿠즈미나""
    ""Gustáv Husák""             -> ""구스타우 후사크""
    ""Jozef Tiso""               -> ""요제프 티소""
    ""Elena Kaliská""            -> ""엘레나 칼리스카""
    ""Janko Matúška""            -> ""얀코 마투슈카""
    ""Pavol Demitra""            -> ""파볼 데미트라""
    ""Vlkolínec""                -> ""블콜리네츠""
    ""Vydrica""                  -> ""비드리차""
    ""Karol Kučera""             -> ""카롤 쿠체라""
    ""Ján Bahýľ""                -> ""얀 바힐""
    ""Štefan Marko Daxner""      -> ""슈테판 마르코 닥스네르""
    ""Vladimír Weiss""           -> ""블라디미르 베이스""

"%bstr.

Definition src_slk : list bstr := [src_slk_1; src_slk_2; src_slk_3].

Definition src_slv_1 : bstr := "lang:
    id      = ""slv""
    codes   = ""sl"", ""slv""
    english = ""Slovenian""
    korean  = ""슬로베니아어""
    script  = ""Latn""

config:
    author = ""Brian Jongseong Park <iceager@gmail.com>""
    stage  = ""draft""

macros:
    ""@"" = ""<vowels>""

vars:
    ""vl""     = ""c"", ""C"", ""f"", ""k"", ""p"", ""s"", ""S"", ""t""
    ""vowels"" = ""a"", ""e"", ""i"", ""o"", ""O"", ""u"", ""U""

normalize:
    ""š"" = ""Š""
    ""č"" = ""Č"", ""ć"", ""Ć""
    ""đ"" = ""Đ""
    ""ö"" = ""Ö""
    ""ü"" = ""Ü""
    ""ž"" = ""Ž""

rewrite:
    ""č""               -> ""C""
    ""š""               -> ""S""
    ""ž""               -> ""Z""
    ""ö""               -> ""O""
    ""ü""               -> ""U""
    ""đ""               -> ""dZ""
    ""qu""              -> ""kv""
    ""q""               -> ""k""
    ""w""               -> ""v""
    ""x""               -> ""ks""
    ""^y{@}""           -> ""J""
    ""{@}y{@}""         -> ""J""
    ""iy""              -> ""i""
    ""y""               -> ""i""
    ""^j{@}""           -> ""J""
    ""{@}j{@}""         -> ""J""
    ""{c|C|S|z|Z}j{@}"" -> """"
    ""sje""             -> ""sJe""
    ""je""              -> ""ie""
    ""{l|n|s}j{@}""     -> ""J""
    ""{l|n}j""          -> """"
    ""ij""              -> ""i""
    ""j""               -> ""i""
    ""v{@}""            -> ""V""
    ""v""               -> ""u""
    ""ts""              -> ""c""
    ""tS""              -> ""C""
    ""b{<vl>}""         -> ""p""
    ""b$""              -> ""p""
    ""d{<vl>}""         -> ""t""
    ""d$""              -> ""t""
    ""dz{<vl>}""        -> ""c""
    ""dz$""             -> ""c""
    ""dZ{<vl>}""        -> ""C""
    ""dZ$""             -> ""C""
    ""g{<vl>}""         -> ""k""
    ""g$""              -> ""k""
    ""z{<vl>}""         -> ""s""
    ""z$""              -> ""s""
    ""Z{<vl>}""         -> ""S""
    ""Z$""              -> ""S""
    ""C{@}""            -> ""c""
    ""C""               -> ""ci""
    ""SS""              -> ""S""
    ""S{@}""            -> ""sJ""
    ""S$""              -> ""si""
    ""S""               -> ""sJu""
    ""ZZ""              -> ""Z""
    ""dZ{@}""           -> ""z""
    ""dZ""              -> ""zi""
    ""Z{@}""            -> ""z""
    ""Z""               -> ""zu""
    ""aa""              -> ""a""
    ""bb""              -> ""b""
    ""dd""              -> ""d""
    ""ee""              -> ""e""
    ""ff""              -> ""f""
    ""gg""              -> ""g""
    ""hh""              -> ""h""
    ""ii""              -> ""i""
    ""kk""              -> ""k""
    ""ll""              -> ""l""
    ""{@}mm{@}""        -> ""m,m""
    ""mm""              -> ""m""
    ""{@}nn{@}""        -> ""n,n""
    ""nn""              -> ""n""
    ""oo""              -> ""o""
    ""pp""              -> ""p""
    ""rr""              -> ""r""
    ""ss""              -> ""s""
    ""tt""              -> ""t""
    ""uu""              -> ""u""
    ""zz""              -> ""z""
    ""dz""              -> ""z""
    ""{@}k{<vl>}""      -> ""k,""
    ""{@}p{<vl>}""      -> ""p,""
    ""^l""              -> ""l;""
    ""^m""              -> ""m;""
    ""^n""              -> ""n;""
    ""l$""              -> ""l,""
    ""m$""              -> ""m,""
    ""n$""              -> ""n,""
    ""l{@|J|m,|n,}""    -> ""l;""
    ""{,}l""            -> ""l;""
    ""m{@}""            -> ""m;""
    ""n{@|J}""          -> ""n;""
    ""l""               -> ""l,""
    ""m""               -> ""m,""
    ""n""               -> ""n,""
    "",,""              -> "",""
    "",;""              -> """"
    "",l,""             -> ""l,""
    "",m,""             -> ""m,""
    "",n,""             -> ""n,""
    ""l{m;|n;}""        -> ""l,""
    "";""               -> """"

transcribe:
    ""b""    -> ""ㅂ""
    ""c""    -> ""ㅊ""
    ""d""    -> ""ㄷ""
    ""f""    -> ""ㅍ""
    ""g""    -> ""ㄱ""
    ""h""    -> ""ㅎ""
    ""k,""   -> ""-ㄱ""
    ""k""    -> ""ㅋ""
    ""^l""   -> ""ㄹ""
    ""{,}l"" -> ""ㄹ""
    ""l,""   -> ""-ㄹ""
    ""l""    -> ""-ㄹㄹ""
    ""m,""   -> ""-ㅁ""
    ""m""    -> ""ㅁ""
    ""n,""   -> ""-ㄴ""
    ""n""    -> ""ㄴ""
    ""p,""   -> ""-ㅂ""
    ""p""    -> ""ㅍ""
    ""r""    -> ""ㄹ""
    ""s""    -> ""ㅅ""
    ""t""    -> ""ㅌ""
    ""V""    -> ""ㅂ""
    ""z""    -> ""ㅈ""
    ""Ja""   -> ""ㅑ""
    ""Je""   -> ""ㅖ""
    ""Ji""   -> ""ㅣ""
    ""Jo""   -> ""ㅛ""
    ""JO""   -> ""ㅛ""
    ""Ju""   -> ""ㅠ""
    ""JU""   -> ""ㅠ""
    ""a""    -> ""ㅏ""
    ""e""    -> ""ㅔ""
    ""i""    -> ""ㅣ""
    ""o""    -> ""ㅗ""
    ""O""    -> ""ㅚ""
    ""u""    -> ""ㅜ""
    ""U""    -> ""ㅟ""

test:
    ""Gregor Fučka""           -> ""그레고르 푸치카""
    ""Saša Vujačič""           -> ""사샤 부야치치""
    ""Primož Trubar""          -> ""프리모시 트루바르""
    ""Novo mesto""             -> ""노보 메스토""
    ""Triglav""                -> ""트리글라우""
    ""Slavoj Žižek""           -> ""슬라보이 지제크""
    ""Maribor""                -> ""마리보르""
    ""Anton Martin Slomšek""   -> ""안톤 마르틴 슬롬셰크""
    ""Jakob Petelin Gallus""   -> ""야코프 페텔린 갈루스""
    ""Ljubljana""              -> ""류블랴나""
    ""Trbovlje""               -> ""트르보울리에""
    ""Janez Janša""            -> ""야네스 얀샤""
    ""Pivka""                  -> ""피우카""
    ""Jurij Vega""             -> ""유리 베가""
    ""Armin Bačinovič""        -> ""아르민 바치노비치""
    ""Fran Levstik""           -> ""프란 레우스티크""
    ""Anže Kopitar""           -> ""안제 코피타르""
    ""Kamnik""                 -> ""캄니크""
    ""Milan Kučan""            -> ""밀란 쿠찬""
    ""Sebastjan Cimirotič""    -> ""세바스티안 치미로티치""
    ""Ptuj""                   -> ""프투이""
    ""Janez Bleiweis""         -> ""야네스 블레이베이스""
    ""Janez Vajkard Valvasor"" -> ""야네스 바이카르트 발바소르""
    ""Rudolf Maister""         -> ""루돌프 마이스테르""
    ""Beno Udrih""             -> ""베노 우드리흐""
    ""Željko Ivanek""          -> ""젤코 이바네크""
    ""Jesenice""               -> ""예세니체""
    ""Jože Plečnik""           -> ""요제 플레치니크""
    ""Robert Koren""           -> ""로베르트 코렌""
    ""Zlatko Dedič""           -> ""즐라트코 데디치""
    ""Škofja Loka""            -> ""슈코피아 로카""
    ""Bohinj""                 -> ""보힌""
    ""Uroš Slokar""            -> ""우로시 슬로카르""
    ""Janez Drnovšek""         -> ""야네스 드르노우셰크""
    ""Zlatko Zahovič""         -> ""즐라트코 자호비치""
    ""Rihard Jakopič""         -> ""리하르트 야코피치""
    ""Željko Milinovič""       -> ""젤코 밀리노비치""
    ""Koper""                  -> ""코페르""
    ""Lojze Peterle""          -> ""로이제 페테를레""
    ""Piran""                  -> ""피란""
    ""Matjaž Kek""             -> ""마티아시 케크""
    ""Sašo Udovič""            -> ""사쇼 우도비치""
    ""Milenko Ačimovič""       -> ""밀렌코 아치모비치""
    ""Ivana Kobilca""          -> ""이바나 코빌차""
    ""Nova Gorica""            -> ""노바 고리차""
    ""Matevž Irt""             -> ""마테우시 이르트""
    ""Milivoje Novakovič""     -> ""밀리보예 노바코비치""
    ""Ivan Cankar""            -> ""이반 찬카르""
    ""France Prešeren""        -> ""프란체 프레셰렌""
    ""Jože Brumen""            -> ""요제 브루멘""
    ""Celje""                  -> ""첼리에""
    ""Domžale""                -> ""돔잘레""
    ""Samir Handanovič""       -> ""사미르 한다노비치""
    ""Zdenko Verdenik""        -> ""즈덴코 베르데니크""
    ""Kranj""                  -> ""크란""
    ""Dubravka Tomšič""        -> ""두브라우카 톰시치""
    ""Leon Štukelj""           -> ""레온 슈투켈""
    ""Murska Sobota""          -> ""무르스카 소보타""
    ""Katarina Srebotnik""     -> ""카타리나 스레보트니크""
    ""Oskar Kogoj""            -> ""오스카르 코고이""
    ""Anton Aškerc""           -> ""안톤 아슈케르츠""
    ""Srečko Katanec""         -> ""스레치코 카타네츠""
    ""Izola""                  -> ""이졸라""
    ""Bojan Prašnikar""        -> ""보얀 프라슈니카르""
    ""Radoslav Nesterovič""    -> ""라도슬라우 네스테로비치""
    ""Velenje""                -> ""벨레니에""
    ""Bled""                   -> ""블레트""
    ""Friderik Pregl""         -> ""프리데리크 프레글""
    ""Bojan Jokić""            -> ""보얀 요키치""
    ""Danilo Türk""            -> ""다닐로 튀르크""
    ""Kras""                   -> ""크라스""
"%bstr.

Definition src_slv_2 : bstr := "    ""Slovenija""              -> ""슬로베니야""
    ""Borut Pahor""            -> ""보루트 파호르""

"%bstr.

Definition src_slv : list bstr := [src_slv_1; src_slv_2].

Definition src_spa_1 : bstr := "lang:
    id      = ""spa""
    codes   = ""es"", ""spa""
    english = ""Spanish""
    korean  = ""스페인어""
    script  = ""Latn""

config:
    author = ""Brian Jongseong Park <iceager@gmail.com>""
    stage  = ""draft""

macros:
    ""@"" = ""<vowels>""

vars:
    ""vowels"" = ""a"", ""e"", ""i"", ""o"", ""u"", ""ü"", ""y""

normalize:
    ""ñ"" = ""Ñ""
    ""ü"" = ""Ü"", ""Ǘ""

rewrite:
    ""ññ""            -> ""ñ""
    ""ñ{@}""          -> ""nY""
    ""^y{@}""         -> ""Y""
    ""{@}y{@}""       -> ""Y""
    ""y""             -> ""i""
    ""aa""            -> ""a""
    ""ee""            -> ""e""
    ""ii""            -> ""i""
    ""oo""            -> ""o""
    ""uu""            -> ""u""
    ""hh""            -> ""h""
    ""k$""            -> ""kX""
    ""{@}cc{e|i}""    -> ""ks""
    ""ch{@}""         -> ""C""
    ""h""             -> """"
    ""ll""            -> ""Y""
    ""c{k|q|x}""      -> """"
    ""cc""            -> ""c""
    ""c{e|i}""        -> ""s""
    ""c""             -> ""k""
    ""n{j|k|g|q|x}""  -> ""N""
    ""g{e|i}""        -> ""j""
    ""{g|q}ü{a|e|i}"" -> ""W""
    ""ü""             -> ""u""
    ""{g|q}u{e|i}""   -> """"
    ""{g|q}ua""       -> ""Wa""
    ""q""             -> ""k""
    ""ww""            -> ""w""
    ""^w{@}""         -> ""W""
    ""{@}w{@}""       -> ""W""
    ""w""             -> ""XW""
    ""xx""            -> ""x""
    ""^x{@}""         -> ""s""
    ""{@}x""          -> ""ks""
    ""bb""            -> ""b""
    ""dd""            -> ""d""
    ""ff""            -> ""f""
    ""gg""            -> ""g""
    ""jj""            -> ""j""
    ""kk""            -> ""k""
    ""mm""            -> ""m""
    ""nn""            -> ""n""
    ""pp""            -> ""p""
    ""rr""            -> ""r""
    ""z""             -> ""s""
    ""ss""            -> ""s""
    ""tt""            -> ""t""
    ""vv""            -> ""v""
    ""^m""            -> ""P""
    ""^n""            -> ""Q""

transcribe:
    ""b""              -> ""ㅂ""
    ""C""              -> ""ㅊ""
    ""d""              -> ""ㄷ""
    ""f""              -> ""ㅍ""
    ""g""              -> ""ㄱ""
    ""j{@}""           -> ""ㅎ""
    ""j""              -> """"
    ""^k""             -> ""ㅋ""
    ""k{@|l|m|n|r|X}"" -> ""ㅋ""
    ""{@}k""           -> ""-ㄱ""
    ""k""              -> ""ㅋ""
    ""{m|n}l""         -> ""ㄹ""
    ""^l""             -> ""ㄹ""
    ""l{@}""           -> ""-ㄹㄹ""
    ""l""              -> ""-ㄹ""
    ""P""              -> ""ㅁ""
    ""m{@}""           -> ""ㅁ""
    ""m""              -> ""-ㅁ""
    ""Q""              -> ""ㄴ""
    ""n{@|Y}""         -> ""ㄴ""
    ""n""              -> ""-ㄴ""
    ""N""              -> ""-ㅇ""
    ""p{@|l|m|n|r|X}"" -> ""ㅍ""
    ""{@}p""           -> ""-ㅂ""
    ""p""              -> ""ㅍ""
    ""r""              -> ""ㄹ""
    ""s""              -> ""ㅅ""
    ""t""              -> ""ㅌ""
    ""v""              -> ""ㅂ""
    ""Ya""             -> ""ㅑ""
    ""Ye""             -> ""ㅖ""
    ""Yi""             -> ""ㅣ""
    ""Yo""             -> ""ㅛ""
    ""Yu""             -> ""ㅠ""
    ""Wa""             -> ""ㅘ""
    ""We""             -> ""ㅞ""
    ""Wi""             -> ""ㅟ""
    ""a""              -> ""ㅏ""
    ""e""              -> ""ㅔ""
    ""i""              -> ""ㅣ""
    ""o""              -> ""ㅗ""
    ""u""              -> ""ㅜ""

test:
    ""quisquilla""           -> ""키스키야""
    ""braceo""               -> ""브라세오""
    ""colcren""              -> ""콜크렌""
    ""ñoñez""                -> ""뇨녜스""
    ""xilofono""             -> ""실로포노""
    ""yuxta""                -> ""육스타""
    ""giganta""              -> ""히간타""
    ""ganga""                -> ""강가""
    ""coquito""              -> ""코키토""
    ""flan""                 -> ""플란""
    ""cifra""                -> ""시프라""
    ""Cecilia""              -> ""세실리아""
    ""bistec""               -> ""비스텍""
    ""ocal""                 -> ""오칼""
    ""fuga""                 -> ""푸가""
    ""laxante""              -> ""락산테""
    ""queso""                -> ""케소""
    ""dictado""              -> ""딕타도""
    ""Ángeles""              -> ""앙헬레스""
    ""jueves""               -> ""후에베스""
    ""güerrero""             -> ""궤레로""
    ""llama""                -> ""야마""
    ""plantón""              -> ""플란톤""
    ""mañana""               -> ""마냐나""
    ""accion""               -> ""악시온""
    ""yungla""               -> ""융글라""
    ""José Ortega y Gasset"" -> ""호세 오르테가 이 가세트""
    ""kapok""                -> ""카포크""
    ""viudedad""             -> ""비우데다드""
    ""membrete""             -> ""멤브레테""
    ""antiguo""              -> ""안티구오""
    ""felicidad""            -> ""펠리시다드""
    ""Nicaragua""            -> ""니카라과""
    ""blandon""              -> ""블란돈""
    ""tetraetro""            -> ""테트라에트로""
    ""carreterra""           -> ""카레테라""
    ""guerra""               -> ""게라""
    ""Quarai""               -> ""콰라이""
    ""xenón""                -> ""세논""
    ""Quorem""               -> ""쿠오렘""
    ""walkirias""            -> ""왈키리아스""
    ""geologia""             -> ""헤올로히아""
    ""pepsina""              -> ""펩시나""
    ""blanco""               -> ""블랑코""
    ""lluvia""               -> ""유비아""
    ""Güicho""               -> ""귀초""
    ""gato""                 -> ""가토""
    ""Gamiño""               -> ""가미뇨""
    ""carrera""              -> ""카레라""
    ""Lulio""                -> ""룰리오""
    ""quehacer""             -> ""케아세르""
    ""Guipuzcoa""            -> ""기푸스코아""
    ""noche""                -> ""노체""
    ""rascador""             -> ""라스카도르""
    ""fran""                 -> ""프란""
    ""zagal""                -> ""사갈""
    ""georgico""             -> ""헤오르히코""
    ""lacrar""               -> ""라크라르""
    ""hipo""                 -> ""이포""
    ""coccion""              -> ""콕시온""
    ""sastreria""            -> ""사스트레리아""
    ""chicharra""            -> ""치차라""
    ""biz""                  -> ""비스""
    ""liquidez""             -> ""리키데스""
    ""reloj""                -> ""렐로""

    # Football players
    ""Gabriel Batistuta""   -> ""가브리엘 바티스투타""
    ""Diego Maradona""      -> ""디에고 마라도나""
    ""Diego Simeone""       -> ""디에고 시메오네""
    ""Mario Kempes""        -> ""마리오 켐페스""
    ""Mauricio Pochettino"" -> ""마우리시오 포체티노""
"%bstr.

Definition src_spa : list bstr := [src_spa_1].

Definition src_sqi_1 : bstr := "lang:
    id      = ""sqi""
    codes   = ""sq"", ""sqi""
    english = ""Albanian""
    korean  = ""알바니아어""
    script  = ""Latn""

config:
    author = ""Brian Jongseong Park <iceager@gmail.com>""
    stage  = ""draft""

macros:
    ""@"" = ""<vowels>""

vars:
    ""vl""     = ""c"", ""C"", ""f"", ""k"", ""p"", ""q"", ""s"", ""S"", ""t"", ""T""
    ""vowels"" = ""a"", ""e"", ""E"", ""i"", ""o"", ""u"", ""y""

normalize:
    ""â"" = ""Â""
    ""ç"" = ""Ç""
    ""ë"" = ""Ë""
    ""ê"" = ""Ê""
    ""î"" = ""Î""
    ""ô"" = ""Ô""
    ""ŷ"" = ""Ŷ""
    ""û"" = ""Û""

rewrite:
    ""ë""          -> ""E""
    ""ç""          -> ""C""
    ""â""          -> ""aN""
    ""ê""          -> ""eN""
    ""î""          -> ""iN""
    ""ô""          -> ""oN""
    ""û""          -> ""uN""
    ""ŷ""          -> ""yN""
    ""w""          -> ""v""
    ""dh""         -> ""d""
    ""gj""         -> ""G""
    ""ll""         -> ""l""
    ""nj{@}""      -> ""nJ""
    ""nj""         -> ""n""
    ""rr""         -> ""r""
    ""sh""         -> ""S""
    ""th""         -> ""T""
    ""xh""         -> ""X""
    ""zh""         -> ""Z""
    ""^j{@}""      -> ""J""
    ""{@}j{@}""    -> ""J""
    ""ij""         -> ""i""
    ""j""          -> ""i""
    ""C{@}""       -> ""c""
    ""C""          -> ""ci""
    ""G{@}""       -> ""x""
    ""G""          -> ""xi""
    ""q{@}""       -> ""c""
    ""q""          -> ""ci""
    ""S{@}""       -> ""sJ""
    ""S$""         -> ""si""
    ""S""          -> ""sJu""
    ""X{@}""       -> ""x""
    ""X""          -> ""xi""
    ""Z{@}""       -> ""z""
    ""Z""          -> ""zu""
    ""{@}mm{@}""   -> ""m,m""
    ""mm""         -> ""m""
    ""{@}nn{@}""   -> ""n,n""
    ""nn""         -> ""n""
    ""{@}k{<vl>}"" -> ""k,""
    ""{@}p{<vl>}"" -> ""p,""
    ""^l""         -> ""l;""
    ""l$""         -> ""l,""
    ""m$""         -> ""m,""
    ""n$""         -> ""n,""
    ""l{@|m,|n,}"" -> ""l;""
    ""{,}l""       -> ""l;""
    ""m{@}""       -> ""m;""
    ""n{@|J}""     -> ""n;""
    ""l""          -> ""l,""
    ""m""          -> ""m,""
    ""n""          -> ""n,""
    ""N""          -> ""N,""
    "",,""         -> "",""
    "",;""         -> """"
    "",l,""        -> ""l,""
    "",m,""        -> ""m,""
    "",n,""        -> ""n,""
    "",N,""        -> ""N,""
    ""l{m;|n;}""   -> ""l,""
    "";""          -> """"

transcribe:
    ""b""      -> ""ㅂ""
    ""c""      -> ""ㅊ""
    ""d""      -> ""ㄷ""
    ""f""      -> ""ㅍ""
    ""g""      -> ""ㄱ""
    ""h""      -> ""ㅎ""
    ""k,""     -> ""-ㄱ""
    ""k""      -> ""ㅋ""
    ""^l""     -> ""ㄹ""
    ""{,|-}l"" -> ""ㄹ""
    ""l,""     -> ""-ㄹ""
    ""l""      -> ""-ㄹㄹ""
    ""m,""     -> ""-ㅁ""
    ""m""      -> ""ㅁ""
    ""n,""     -> ""-ㄴ""
    ""n""      -> ""ㄴ""
    ""N""      -> ""-ㅇ""
    ""p,""     -> ""-ㅂ""
    ""p""      -> ""ㅍ""
    ""r""      -> ""ㄹ""
    ""s""      -> ""ㅅ""
    ""t""      -> ""ㅌ""
    ""T""      -> ""ㅅ""
    ""v""      -> ""ㅂ""
    ""z""      -> ""ㅈ""
    ""x""      -> ""ㅈ""
    ""z""      -> ""ㅈ""
    ""Ja""     -> ""ㅑ""
    ""Je""     -> ""ㅖ""
    ""JE""     -> ""ㅕ""
    ""Ji""     -> ""ㅣ""
    ""Jo""     -> ""ㅛ""
    ""Ju""     -> ""ㅠ""
    ""Jy""     -> ""ㅟ""
    ""a""      -> ""ㅏ""
    ""e""      -> ""ㅔ""
    ""E""      -> ""ㅓ""
    ""i""      -> ""ㅣ""
    ""o""      -> ""ㅗ""
    ""u""      -> ""ㅜ""
    ""y""      -> ""ㅟ""
    ""'""      -> """"

test:
    ""Berati""                     -> ""베라티""
    ""Fieri""                      -> ""피에리""
    ""Ulpiana""                    -> ""울피아나""
    ""Ibrahim Kodra""              -> ""이브라힘 코드라""
    ""Kavaja""                     -> ""카바야""
    ""Tirana""                     -> ""티라나""
    ""Prizreni""                   -> ""프리즈레니""
    ""Agim Çeku""                  -> ""아김 체쿠""
    ""Adil Çarçani""               -> ""아딜 차르차니""
    ""Adrian Paçi""                -> ""아드리안 파치""
    ""Peja""                       -> ""페야""
    ""Gjon Buzuku""                -> ""존 부주쿠""
    ""Dhimitër Kamarda""           -> ""디미터르 카마르다""
    ""Vlora""                      -> ""블로라""
    ""Saranda""                    -> ""사란다""
    ""Shkumbini""                  -> ""슈쿰비니""
    ""Shkodra""                    -> ""슈코드라""
    ""Hashim Thaçi""               -> ""하심 사치""
    ""Mit'hat Frashëri""           -> ""미트하트 프라셔리""
    ""Korça""                      -> ""코르차""
    ""Lezha""                      -> ""레자""
    ""Mitrovica""                  -> ""미트로비차""
    ""Alfred Moisiu""              -> ""알프레드 모이시우""
    ""Klodiana Shala""             -> ""클로디아나 샬라""
    ""Lushnja""                    -> ""루슈냐""
    ""Kaçaniku""                   -> ""카차니쿠""
    ""Durrësi""                    -> ""두러시""
    ""Gjilani""                    -> ""질라니""
    ""Luan Krasniqi""              -> ""루안 크라스니치""
    ""Luigj Gurakuqi""             -> ""루이지 구라쿠치""
    ""Lorik Cana""                 -> ""로리크 차나""
    ""Ibrahim Rugova""             -> ""이브라힘 루고바""
    ""Prishtina""                  -> ""프리슈티나""
    ""Butrinti""                   -> ""부트린티""
    ""Enver Hoxha""                -> ""엔베르 호자""
    ""Pashko Vasa""                -> ""파슈코 바사""
    ""Leka Dukagjini""             -> ""레카 두카지니""
    ""Eliza Dushku""               -> ""엘리자 두슈쿠""
    ""Xherdan Shaqiri""            -> ""제르단 샤치리""
    ""Jakup Krasniqi""             -> ""야쿠프 크라스니치""
    ""Gjergj Kastriot Skanderbeg"" -> ""제르지 카스트리오트 스칸데르베그""
    ""Gjeke Marinaj""              -> ""제케 마리나이""
    ""Gjirokastra""                -> ""지로카스트라""
    ""Kruja""                      -> ""크루야""
    ""Valon Behrami""              -> ""발론 베흐라미""
    ""Bujar Bukoshi""              -> ""부야르 부코시""
    ""Artim Shaqiri""              -> ""아르팀 샤치리""
    ""Shefki Kuqi""                -> ""셰프키 쿠치""
    ""Riza Lushta""                -> ""리자 루슈타""
    ""Bamir Topi""                 -> ""바미르 토피""
    ""Simon Gjoni""                -> ""시몬 조니""
    ""Sali Berisha""               -> ""살리 베리샤""
    ""Gjakova""                    -> ""자코바""
    ""Fatos Nano""                 -> ""파토스 나노""
    ""Agnes Gonxha Bojaxhiu""      -> ""아그네스 곤자 보야지우""
    ""Vasil Laçi""                 -> ""바실 라치""
    ""Rexhep Meidani""             -> ""레제프 메이다니""
    ""Rexhep Qosja""               -> ""레제프 초시아""
    ""Behxhet Pacolli""            -> ""베흐제트 파촐리""
    ""Pogradeci""                  -> ""포그라데치""
    ""Ismail Kadare""              -> ""이스마일 카다레""
    ""Emina Çunmulaj""             -> ""에미나 춘물라이""
    ""Fatmir Sejdiu""              -> ""파트미르 세이디우""
    ""Shqipëria""                  -> ""슈치퍼리아""
    ""Mirela Manjani""             -> ""미렐라 마냐니""
    ""Elbasani""                   -> ""엘바사니""
    ""Ramiz Alia""                 -> ""라미즈 알리아""
    ""Gjergj Fishta""              -> ""제르지 피슈타""
    ""Eqrem Çabej""                -> ""에치렘 차베이""

"%bstr.

Definition src_sqi : list bstr := [src_sqi_1].

Definition src_swe_1 : bstr := "lang:
    id      = ""swe""
    codes   = ""sv"", ""swe""
    english = ""Swedish""
    korean  = ""스웨덴어""
    script  = ""Latn""

config:
    author = ""Brian Jongseong Park <iceager@gmail.com>""
    stage  = ""draft""

macros:
    ""@"" = ""<vowels>""

vars:
    ""vl""     = ""f"", ""h"", ""k"", ""p"", ""s"", ""t""
    ""vowels"" = ""a"", ""A"", ""e"", ""E"", ""i"", ""o"", ""O"", ""u"", ""y""

normalize:
    ""y"" = ""ü"", ""Ü""
    ""s"" = ""ç"", ""Ç""
    ""å"" = ""ǻ"", ""Ǻ"", ""Å""
    ""ä"" = ""æ"", ""Ä"", ""Æ""
    ""ö"" = ""Ø"", ""ø"", ""Ö""

rewrite:
    ""å""              -> ""A""
    ""ä""              -> ""E""
    ""ö""              -> ""O""
    ""w""              -> ""v""
    ""adjO""           -> ""ajO""
    ""berg""           -> ""beri""
    ""borg""           -> ""bori""
    ""dvErg""          -> ""dvEri""
    ""fErg""           -> ""fEri""
    ""karg""           -> ""kari""
    ""korg""           -> ""kori""
    ""mErg""           -> ""mEri""
    ""sorg""           -> ""sori""
    ""torg""           -> ""tori""
    ""varg""           -> ""vari""
    ""norge""          -> ""norje""
    ""sverige""        -> ""sverije""
    ""avg{e|i}""       -> ""avj""
    ""namng{e|i}""     -> ""namnj""
    ""Aterg{e|i}""     -> ""Aterj""
    ""Overg{e|i}""     -> ""Overj""
    ""^igen""          -> ""ijen""
    ""reger""          -> ""rejer""
    ""regist""         -> ""rejist""
    ""gata$""          -> ""Gata""
    ""gatan$""         -> ""Gatan""
    ""giva""           -> ""jiva""
    ""gift""           -> ""jift""
    ""genom""          -> ""jenom""
    ""geir""           -> ""Geir""
    ""gren$""          -> ""Gren""
    ""grens$""         -> ""Grens""
    ""guyan""          -> ""Gaian""
    ""kebnekaise""     -> ""Kebnekaise""
    ""kelvin""         -> ""Kelvin""
    ""kelviA""         -> ""KelviA""
    ""kennet""         -> ""Kennet""
    ""^keke""          -> ""Keke""
    ""^kent""          -> ""Kent""
    ""kexholm""        -> ""Kexholm""
    ""^kim""           -> ""Kim""
    ""kiruna""         -> ""Kiruna""
    ""^kO$""           -> ""KO""
    ""^bilkO""         -> ""bilKO""
    ""^kOer$""         -> ""KOer""
    ""^kOren$""        -> ""KOren""
    ""^kOrfestival""   -> ""KOrfestival""
    ""^kymmen""        -> ""Kymmen""
    ""lysekil""        -> ""lyseSil""
    ""guyan""          -> ""Gaian""
    ""mEnnisk""        -> ""mEnniS""
    ""sjuk""           -> ""sjuk{}""
    ""xx""             -> ""x""
    ""x""              -> ""ks""
    ""ds""             -> ""s""
    ""sch{@}""         -> ""S""
    ""sch""            -> ""Su""
    ""^sk{e|E|i|O|y}"" -> ""S""
    ""sk{E|O|y}""      -> ""S""
    ""^sk{e|E|i|O|y}"" -> ""S""
    ""sk{E|O|y}""      -> ""S""
    ""skj""            -> ""S""
    ""stj""            -> ""S""
    ""kj""             -> ""S""
    ""sj""             -> ""S""
    ""ttj""            -> ""ti""
    ""tj""             -> ""S""
    ""^g{e|E|i|O|y}""  -> ""j""
    ""g{E|O|y}""       -> ""j""
    ""^k{e|E|i|O|y}""  -> ""S""
    ""k{E|O|y}""       -> ""S""
    ""ch{@}""          -> ""S""
    ""ch""             -> ""k""
    ""c{e|i|y}""       -> ""s""
    ""c""              -> ""k""
    ""tionde""         -> ""ti{}onde""
    ""tion""           -> ""Son""
    ""^dj""            -> ""j""
    ""gj""             -> ""j""
    ""hj""             -> ""j""
    ""^lj""            -> ""j""
    ""lg$""            -> ""li""
    ""lg{@|l|r}""      -> ""lG""
    ""lg""             -> ""li""
    ""rg$""            -> ""ri""
    ""rg{l|@|r}""      -> ""rG""
    ""rg""             -> ""ri""
    ""rl""             -> ""l""
    ""qu""             -> ""kv""
    ""q""              -> ""k""
    ""{@}gn""          -> ""Nn""
    ""ng""             -> ""N""
    ""nkt""            -> ""Nt""
    ""nk""             -> ""Nk""
    ""mn{@}""          -> ""m,n""
    ""Nn{@}""          -> ""N,n""
    ""{m|N}n""         -> """"
    ""th""             -> ""t""
    ""z""              -> ""s""
    ""jO""             -> ""je""
    ""SO""             -> ""Se""
    ""S{@}""           -> ""sJ""
    ""S""              -> ""si""
    ""^j{@}""          -> ""J""
    ""{@}j{@}""        -> ""J""
    ""j""              -> ""i""
    ""G""              -> ""g""
    ""K""              -> ""k""
    ""aa""             -> ""a""
    ""bb""             -> ""b""
    ""dd""             -> ""d""
    ""ee""             -> ""e""
    ""ff""             -> ""f""
    ""gg""             -> ""g""
    ""hh""             -> ""h""
    ""ii""             -> ""i""
    ""jj""             -> ""j""
    ""kk""             -> ""k""
    ""ll""             -> ""l""
    ""{@}mm{@}""       -> ""m,m""
    ""mm""             -> ""m""
    ""{@}nn{@}""       -> ""n,n""
    ""nn""             -> ""n""
    ""oo""             -> ""o""
    ""pp""             -> ""p""
    ""rr""             -> ""r""
    ""ss""             -> ""s""
    ""tt""             -> ""t""
    ""uu""             -> ""u""
    ""vv""             -> ""v""
    ""yy""             -> ""y""
    ""zz""             -> ""z""
    ""A""              -> ""o""
    ""E""              -> ""e""
    ""h{@}""           -> ""H""
    ""h""              -> """"
    ""H""              -> ""h""
    ""{@}b{<vl>}""     -> ""p,""
    ""{@}g{<vl>}""     -> ""k,""
    ""{@}k{<vl>}""     -> ""k,""
    ""{@}p{<vl>}""     -> ""p,""
    ""{@}t{<vl>}""     -> ""t,""
    ""^l""             -> ""l;""
    ""^m""             -> ""m;""
    ""^n""             -> ""n;""
    ""l$""             -> ""l,""
    ""m$""             -> ""m,""
    ""n$""             -> ""n,""
    ""l{@|m,|n,|N}""   -> ""l;""
    ""{,}l""           -> ""l;""
    ""m{@}""           -> ""m;""
    ""n{@}""           -> ""n;""
    ""l""              -> ""l,""
    ""m""              -> ""m,""
    ""n""              -> ""n,""
    ""N""              -> ""N,""
    "",,""             -> "",""
    "",;""             -> """"
    "",l,""            -> ""l,""
    "",m,""            -> ""m,""
    "",n,""            -> ""n,""
    "",N,""            -> ""N,""
    ""l{m;|n;}""       -> ""l,""
    "";""              -> """"

transcribe:
    ""b""    -> ""ㅂ""
    ""d""    -> ""ㄷ""
    ""f""    -> ""ㅍ""
    ""g""    -> ""ㄱ""
    ""h""    -> ""ㅎ""
    ""k,""   -> ""-ㄱ""
    ""k""    -> ""ㅋ""
    ""^l""   -> ""ㄹ""
    ""{,}l"" -> ""ㄹ""
    ""l,""   -> ""-ㄹ""
    ""l""    -> ""-ㄹㄹ""
    ""m,""   -> ""-ㅁ""
    ""m""    -> ""ㅁ""
    ""n,""   -> ""-ㄴ""
    ""n""    -> ""ㄴ""
    ""N""    -> ""-ㅇ""
    ""p,""   -> ""-ㅂ""
    ""p""    -> ""ㅍ""
    ""r""    -> ""ㄹ""
    ""s""    -> ""ㅅ""
    ""t,""   -> ""-ㅅ""
    ""t""    -> ""ㅌ""
    ""v""    -> ""ㅂ""
    ""Ja""   -> ""ㅑ""
    ""Je""   -> ""ㅖ""
    ""Ji""   -> ""ㅣ""
    ""Jo""   -> ""ㅛ""
    ""Ju""   -> ""ㅠ""
    ""Jy""   -> ""ㅟ""
    ""a""    -> ""ㅏ""
    ""e""    -> ""ㅔ""
    ""i""    -> ""ㅣ""
    ""o""    -> ""ㅗ""
    ""u""    -> ""ㅜ""
    ""y""    -> ""ㅟ""
    ""O""    -> ""ㅚ""

test:
    ""Erlander""        -> ""엘란데르""
    ""Kiruna""          -> ""키루나""
    ""Vänern""          -> ""베네른""
    ""tjeck""           -> ""셰크""
    ""detalj""          -> ""데탈리""
    ""Småland""         -> ""스몰란드""
    ""Carlsson""        -> ""칼손""
    ""bock""            -> ""보크""
    ""Sjöberg""         -> ""셰베리""
    ""börja""           -> ""뵈리아""
    ""och""             -> ""오크""
    ""Geijer""          -> ""예이예르""
    ""Ludvig""          -> ""루드비그""
    ""Greta""           -> ""그레타""
    ""röd""             -> ""뢰드""
    ""helgon""          -> ""헬곤""
    ""sjukhem""         -> ""슈크헴""
    ""Wilander""        -> ""빌란데르""
    ""Lindqvist""       -> ""린드크비스트""
    ""Jacob""           -> ""야코브""
    ""mjuk""            -> ""미우크""
    ""skydda""          -> ""쉬다""
    ""Luther""          -> ""루테르""
    ""dag""             -> ""다그""
    ""lång""            -> ""롱""
    ""Linköping""       -> ""린셰핑""
    ""tjugo""           -> ""슈고""
    ""tjäna""           -> ""셰나""
    ""lektion""         -> ""렉숀""
    ""Eslöv""           -> ""에슬뢰브""
    ""Sundsvall""       -> ""순스발""
    ""Östersund""       -> ""외스테르순드""
    ""bank""            -> ""방크""
    ""Schack""          -> ""샤크""
    ""Alvesta""         -> ""알베스타""
    ""namn""            -> ""남""
    ""Tjåkkå""          -> ""쇼코""
    ""Celsius""         -> ""셀시우스""
    ""Lorenzo""         -> ""로렌소""
    ""bal""             -> ""발""
    ""Karlgren""        -> ""칼그렌""
    ""Lysekil""         -> ""뤼세실""
    ""Björk""           -> ""비에르크""
    ""Björn""           -> ""비에른""
    ""Kattegatt""       -> ""카테가트""
    ""Schein""          -> ""셰인""
    ""adjö""            -> ""아예""
    ""Boden""           -> ""보덴""
    ""Umeå""            -> ""우메오""
    ""Ericson""         -> ""에릭손""
    ""folk""            -> ""폴크""
"%bstr.

Definition src_swe_2 : bstr := "    ""Gustav""          -> ""구스타브""
    ""Nynäshamn""       -> ""뉘네스함""
    ""Skeppsholmen""    -> ""솁스홀멘""
    ""Swedenborg""      -> ""스베덴보리""
    ""skål""            -> ""스콜""
    ""Trelleborg""      -> ""트렐레보리""
    ""Malmö""           -> ""말뫼""
    ""Sankt""           -> ""상트""
    ""Gislaved""        -> ""이슬라베드""
    ""Hjalmar""         -> ""얄마르""
    ""hummer""          -> ""훔메르""
    ""Svealand""        -> ""스베알란드""
    ""Kerstin""         -> ""셰르스틴""
    ""punkt""           -> ""풍트""
    ""fjäril""          -> ""피에릴""
    ""högst""           -> ""획스트""
    ""Jönköping""       -> ""옌셰핑""
    ""Jansson""         -> ""얀손""
    ""kamp""            -> ""캄프""
    ""samtal""          -> ""삼탈""
    ""kniv""            -> ""크니브""
    ""Dahl""            -> ""달""
    ""Visby""           -> ""비스뷔""
    ""Karl""            -> ""칼""
    ""Agnes""           -> ""앙네스""
    ""Piteå""           -> ""피테오""
    ""Sankta Ragnhild"" -> ""상타 랑힐드""
    ""Göteborg""        -> ""예테보리""
    ""Skövde""          -> ""셰브데""
    ""Göta""            -> ""예타""
    ""Gjerstad""        -> ""예르스타드""
    ""kung""            -> ""쿵""
    ""Borg""            -> ""보리""
    ""Kalix""           -> ""칼릭스""
    ""mjöl""            -> ""미엘""
    ""Fredrik""         -> ""프레드리크""
    ""Storvik""         -> ""스토르비크""
    ""Södertälje""      -> ""쇠데르텔리에""
    ""Halmstad""        -> ""할름스타드""
    ""Magnus""          -> ""망누스""
    ""Luleå""           -> ""룰레오""
    ""Kjell""           -> ""셸""
    ""Axel""            -> ""악셀""
    ""Falun""           -> ""팔룬""
    ""Hjälmaren""       -> ""옐마렌""
    ""älg""             -> ""엘리""
    ""Örebro""          -> ""외레브로""
    ""Gjörwell""        -> ""예르벨""
    ""dricka""          -> ""드리카""
    ""Uppsala""         -> ""웁살라""
    ""revansch""        -> ""레반슈""
    ""luft""            -> ""루프트""
    ""station""         -> ""스타숀""
    ""Bromma""          -> ""브롬마""
    ""Nässjö""          -> ""네셰""
    ""Strindberg""      -> ""스트린드베리""
    ""Kock""            -> ""코크""
    ""vacker""          -> ""바케르""
    ""oktober""         -> ""옥토베르""
    ""Oxenstjerna""     -> ""옥센셰르나""
    ""Alexander""       -> ""알렉산데르""
    ""Johansson""       -> ""요한손""
    ""Sverige""         -> ""스베리예""
    ""knappt""          -> ""크납트""
    ""Dannemora""       -> ""단네모라""
    ""snabbt""          -> ""스납트""
    ""Karlshamn""       -> ""칼스함""
    ""Stjärneborg""     -> ""셰르네보리""
    ""land""            -> ""란드""
    ""Kjula""           -> ""슐라""
    ""Stockholm""       -> ""스톡홀름""
    ""skörd""           -> ""셰르드""
    ""sex""             -> ""섹스""
    ""Hjort""           -> ""요르트""
    ""Enköping""        -> ""엔셰핑""
    ""Hälsingborg""     -> ""헬싱보리""
    ""Trollhättan""     -> ""트롤헤탄""
    ""Skellefteå""      -> ""셸레프테오""
    ""dans""            -> ""단스""
    ""kedja""           -> ""셰디아""
    ""Lund""            -> ""룬드""
    ""Wasa""            -> ""바사""
    ""skuldra""         -> ""스쿨드라""
    ""Botkyrka""        -> ""봇쉬르카""
    ""Jarl""            -> ""얄""
    ""Björling""        -> ""비엘링""
    ""Mälaren""         -> ""멜라렌""
    ""sommar""          -> ""솜마르""
    ""tal""             -> ""탈""
    ""Djurgården""      -> ""유르고르덴""
    ""Kungsholm""       -> ""쿵스홀름""
    ""Norrköping""      -> ""노르셰핑""
    ""Hammarskjöld""    -> ""함마르셸드""
    ""zon""             -> ""손""
    ""Skoglund""        -> ""스코글룬드""
    ""Ragnar""          -> ""랑나르""
    ""anka""            -> ""앙카""
    ""Idre""            -> ""이드레""
    ""Zachris""         -> ""사크리스""
    ""Borlänge""        -> ""볼렝에""
    ""Ljusnan""         -> ""유스난""
    ""charm""           -> ""샤름""
    ""Grönberg""        -> ""그뢴베리""
    ""Malmqvist""       -> ""말름크비스트""
    ""Åmål""            -> ""오몰""
    ""Västerås""        -> ""베스테로스""
    ""Thunberg""        -> ""툰베리""
    ""campa""           -> ""캄파""
    ""Skjöldebrand""    -> ""셸데브란드""
    ""tala""            -> ""탈라""
    ""båt""             -> ""보트""
    ""hyra""            -> ""휘라""
    ""Ystad""           -> ""위스타드""

"%bstr.

Definition src_swe : list bstr := [src_swe_1; src_swe_2].

Definition src_tur_1 : bstr := "lang:
    id      = ""tur""
    codes   = ""tr"", ""tur""
    english = ""Turkish""
    korean  = ""튀르키예어""
    script  = ""Latn""

config:
    author = ""Brian Jongseong Park <iceager@gmail.com>""
    stage  = ""draft""

macros:
    ""@"" = ""<vowels>""

vars:
    ""cs""     = ""b"", ""c"", ""C"", ""d"", ""f"", ""g"", ""G"", ""h"", ""j"", ""k"", ""l"", ""m"", ""n"", ""N"", ""p"", ""r"", ""s"", ""S"", ""t"", ""v"", ""z""
    ""vl""     = ""C"", ""f"", ""h"", ""k"", ""p"", ""s"", ""S"", ""t""
    ""vowels"" = ""a"", ""e"", ""I"", ""i"", ""o"", ""O"", ""u"", ""U""

normalize:
    ""ç"" = ""Ç""
    ""i"" = ""İ""
    ""ı"" = ""I""
    ""ğ"" = ""Ğ""
    ""ö"" = ""Ö""
    ""ü"" = ""Ü""
    ""ş"" = ""Ş""

rewrite:
    ""ç""                 -> ""C""
    ""ğ""                 -> ""G""
    ""ı""                 -> ""I""
    ""ö""                 -> ""O""
    ""ş""                 -> ""S""
    ""ü""                 -> ""U""
    ""^y{@}""             -> ""Y""
    ""iyy""               -> ""iy""
    ""yy""                -> ""iy""
    ""{@}y{@}""           -> ""Y""
    ""iy""                -> ""i""
    ""y""                 -> ""i""
    ""rl""                -> ""l""
    ""{p|t|k}h""          -> """"
    ""q""                 -> ""k""
    ""w""                 -> ""v""
    ""x""                 -> ""h""
    ""bb""                -> ""b""
    ""cc""                -> ""c""
    ""CC""                -> ""C""
    ""dd""                -> ""d""
    ""dc""                -> ""c""
    ""ff""                -> ""f""
    ""gg""                -> ""g""
    ""GG""                -> ""G""
    ""hh""                -> ""h""
    ""jj""                -> ""j""
    ""kk""                -> ""k""
    ""ll""                -> ""l""
    ""mm""                -> ""m,m""
    ""nn""                -> ""n,n""
    ""pp""                -> ""p""
    ""rr""                -> ""r""
    ""ss""                -> ""s""
    ""SS""                -> ""S""
    ""tt""                -> ""t""
    ""tC""                -> ""C""
    ""vv""                -> ""v""
    ""zz""                -> ""z""
    ""{@}g{<vl>}""        -> ""k,""
    ""{@}k{<vl>}""        -> ""k,""
    ""{@}b{<vl>}""        -> ""p,""
    ""{@}p{<vl>}""        -> ""p,""
    ""c{<cs>}""           -> ""ci""
    ""c$""                -> ""ci""
    ""C{<cs>}""           -> ""Ci""
    ""C$""                -> ""Ci""
    ""j{<cs>}""           -> ""ju""
    ""j$""                -> ""ju""
    ""S{@}""              -> ""sY""
    ""S""                 -> ""sYu""
    ""^l""                -> ""l;""
    ""^m""                -> ""m;""
    ""^n""                -> ""n;""
    ""{@}n{g|k$}""        -> ""N""
    ""{@}n{g<cs>|k<cs>}"" -> ""N""
    ""ng{@}""             -> ""Ng""
    ""nk{@}""             -> ""Nk""
    ""l$""                -> ""l,""
    ""m$""                -> ""m,""
    ""n$""                -> ""n,""
    ""l{@|m,|n,|N}""      -> ""l;""
    ""{,}l""              -> ""l;""
    ""m{@}""              -> ""m;""
    ""n{@}""              -> ""n;""
    ""l""                 -> ""l,""
    ""m""                 -> ""m,""
    ""n""                 -> ""n,""
    "",,""                -> "",""
    "",;""                -> """"
    "",l,""               -> ""l,""
    "",m,""               -> ""m,""
    "",n,""               -> ""n,""
    ""l{m;|n;}""          -> ""l,""
    "";""                 -> """"

transcribe:
    ""b""    -> ""ㅂ""
    ""c""    -> ""ㅈ""
    ""C""    -> ""ㅊ""
    ""d""    -> ""ㄷ""
    ""f""    -> ""ㅍ""
    ""g""    -> ""ㄱ""
    ""h""    -> ""ㅎ""
    ""j""    -> ""ㅈ""
    ""k,""   -> ""-ㄱ""
    ""k""    -> ""ㅋ""
    ""^l""   -> ""ㄹ""
    ""{,}l"" -> ""ㄹ""
    ""l,""   -> ""-ㄹ""
    ""l""    -> ""-ㄹㄹ""
    ""m,""   -> ""-ㅁ""
    ""m""    -> ""ㅁ""
    ""n,""   -> ""-ㄴ""
    ""n""    -> ""ㄴ""
    ""N""    -> ""-ㅇ""
    ""p,""   -> ""-ㅂ""
    ""p""    -> ""ㅍ""
    ""r""    -> ""ㄹ""
    ""s""    -> ""ㅅ""
    ""t""    -> ""ㅌ""
    ""v""    -> ""ㅂ""
    ""z""    -> ""ㅈ""
    ""Ya""   -> ""ㅑ""
    ""Ye""   -> ""ㅖ""
    ""YI""   -> ""ㅣㅡ""
    ""Yi""   -> ""ㅣ""
    ""Yo""   -> ""ㅛ""
    ""YO""   -> ""ㅚ""
    ""Yu""   -> ""ㅠ""
    ""YU""   -> ""ㅟ""
    ""a""    -> ""ㅏ""
    ""e""    -> ""ㅔ""
    ""I""    -> ""ㅡ""
    ""i""    -> ""ㅣ""
    ""o""    -> ""ㅗ""
    ""O""    -> ""ㅚ""
    ""u""    -> ""ㅜ""
    ""U""    -> ""ㅟ""

test:
    ""Orhan Pamuk""               -> ""오르한 파무크""
    ""Rüştü Reçber""              -> ""뤼슈튀 레치베르""
    ""Takiyüddin ibn Manıf""      -> ""타키위딘 이븐 마느프""
    ""İzmir""                     -> ""이즈미르""
    ""Battani""                   -> ""바타니""
    ""Mahzuni Şerif""             -> ""마흐주니 셰리프""
    ""Beşiktaş""                  -> ""베식타슈""
    ""Trabzon""                   -> ""트라브존""
    ""Ajda Pekkan""               -> ""아주다 페칸""
    ""Dolmabahçe""                -> ""돌마바흐체""
    ""Patara""                    -> ""파타라""
    ""Adana""                     -> ""아다나""
    ""Gaziantep""                 -> ""가지안테프""
    ""Kapadokya""                 -> ""카파도키아""
    ""Pamukkale""                 -> ""파무칼레""
    ""İlhan Mansız""              -> ""일한 만스즈""
    ""Ahmet Mithat Efendi""       -> ""아흐메트 미타트 에펜디""
    ""Nâmık Kemal""               -> ""나므크 케말""
    ""Hakan Şükür""               -> ""하칸 쉬퀴르""
    ""Tarkan Tevetoğlu""          -> ""타르칸 테베톨루""
    ""Selçuk""                    -> ""셀추크""
    ""Nakkaş Osman""              -> ""나카슈 오스만""
    ""Bülent Ecevit""             -> ""뷜렌트 에제비트""
    ""Recep Tayyip Erdoğan""      -> ""레제프 타이이프 에르도안""
    ""Nihat Kahveci""             -> ""니하트 카흐베지""
    ""Hattuşaş""                  -> ""하투샤슈""
    ""Halit Ziya Uşaklıgil""      -> ""할리트 지야 우샤클르길""
    ""Ankara""                    -> ""앙카라""
    ""Kayseri""                   -> ""카이세리""
    ""Pir Sultan Abdal""          -> ""피르 술탄 아브달""
    ""Yakup Kadri Karaosmanoğlu"" -> ""야쿠프 카드리 카라오스마놀루""
    ""Tevfik Fikret""             -> ""테브피크 피크레트""
    ""Hüseyin Çağlayan""          -> ""휘세인 찰라얀""
    ""Abdullah Gül""              -> ""아브둘라흐 귈""
    ""Bursa""                     -> ""부르사""
    ""Ertuğrul Gazi""             -> ""에르투룰 가지""
    ""Ziynet Sali""               -> ""지네트 살리""
    ""Fazıl Küçük""               -> ""파즐 퀴취크""
    ""Arykanda""                  -> ""아리칸다""
    ""Kanuni Sultan Süleyman""    -> ""카누니 술탄 쉴레이만""
    ""Türkiye""                   -> ""튀르키예""
    ""Mersin""                    -> ""메르신""
    ""Çanakkale""                 -> ""차나칼레""
    ""Ağrı""                      -> ""아르""
    ""Ömer Seyfettin""            -> ""외메르 세이페틴""
    ""Yaşar Kemal""               -> ""야샤르 케말""
    ""Osman Hamdi Bey""           -> ""오스만 함디 베이""
    ""Şenol Güneş""               -> ""셰놀 귀네슈""
    ""Ahmed Hâşim""               -> ""아흐메드 하심""
    ""Tuncay Şanlı""              -> ""툰자이 샨르""
    ""Âşık Veysel Şatıroğlu""     -> ""아시으크 베이셀 샤트롤루""
    ""Ziya Gökalp""               -> ""지야 괴칼프""
    ""Antalya""                   -> ""안탈리아""
    ""Topkapı""                   -> ""톱카프""
    ""Denizli""                   -> ""데니즐리""
    ""Nigoğos Balyan""            -> ""니고오스 발리안""
    ""Divriği""                   -> ""디브리이""
    ""Arda Turan""                -> ""아르다 투란""
    ""İstanbul""                  -> ""이스탄불""
    ""Sait Faik Abasıyanık""      -> ""사이트 파이크 아바스야느크""
    ""Mustafa Kemal Atatürk""     -> ""무스타파 케말 아타튀르크""
    ""Yunus Emre""                -> ""유누스 엠레""
    ""Nâzım Hikmet""              -> ""나즘 히크메트""
    ""Hamit Altıntop""            -> ""하미트 알튼토프""
    ""Rauf Denktaş""              -> ""라우프 뎅크타슈""
    ""Safranbolu""                -> ""사프란볼루""
    ""Antakya""                   -> ""안타키아""
    ""Çatalhöyük""                -> ""차탈회위크""
    ""Süleyman Çelebi""           -> ""쉴레이만 첼레비""
    ""Reşat Nuri Güntekin""       -> ""레샤트 누리 귄테킨""
    ""Ali Kuşçu""                 -> ""알리 쿠슈추""
    ""Konya""                     -> ""코니아""
"%bstr.

Definition src_tur_2 : bstr := "    ""Sertab Erener""             -> ""세르타브 에레네르""
    ""Krikor Balyan""             -> ""크리코르 발리안""
    ""Garabet Amira Balyan""      -> ""가라베트 아미라 발리안""
"%bstr.

Definition src_tur : list bstr := [src_tur_1; src_tur_2].

