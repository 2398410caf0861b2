(** Bundled specs, byte for byte (specs.go:15-16): specs/grc.hsl, specs/hbs.hsl, specs/hun.hsl, specs/isl.hsl, specs/ita.hsl, specs/jpn.hsl. Generated by tools/gen_bundled.py. *)
From Verif Require Import GoBase BString.

Definition src_grc_1 : bstr := "lang:
    id      = ""grc""
    codes   = """", ""grc""
    english = ""Ancient Greek""
    korean  = ""고대 그리스어""
    script  = ""Grek""

config:
    author = ""Brian Jongseong Park <iceager@gmail.com>""
    stage  = ""draft""

macros:
    ""@"" = ""<vowels>""

vars:
    ""av""     = ""ά"", ""έ"", ""ή"", ""ί"", ""ό"", ""ύ"", ""ώ""
    ""cs""     = ""β"", ""γ"", ""δ"", ""ζ"", ""θ"", ""κ"", ""λ"", ""μ"", ""ν"", ""ξ"", ""π"", ""ρ"", ""σ"", ""τ"", ""φ"", ""χ"", ""ψ"", ""Ν"", ""Τ"", ""Ξ""
    ""ob""     = ""β"", ""γ"", ""δ"", ""ζ"", ""θ"", ""κ"", ""ξ"", ""π"", ""σ"", ""τ"", ""φ"", ""χ"", ""ψ"", ""Τ"", ""Ξ""
    ""sv""     = ""α"", ""ε"", ""η"", ""ι"", ""ο"", ""υ"", ""ω""
    ""vowels"" = ""α"", ""ά"", ""ε"", ""έ"", ""η"", ""ή"", ""ι"", ""ί"", ""ϊ"", ""ο"", ""ό"", ""υ"", ""ύ"", ""ϋ"", ""ω"", ""ώ"", ""Υ""

normalize:
    ""ἁ"" = ""ᾁ"", ""ᾉ"", ""Ἁ""
    ""ὁ"" = ""Ὁ""
    ""ἅ"" = ""ᾃ"", ""ᾅ"", ""ἇ"", ""ᾇ"", ""Ἅ"", ""ᾋ"", ""ᾍ"", ""ἃ"", ""ᾏ"", ""Ἇ"", ""Ἃ""
    ""ἑ"" = ""Ἑ""
    ""ἕ"" = ""ἓ"", ""Ἕ"", ""Ἓ""
    ""ὅ"" = ""ὃ"", ""Ὅ"", ""Ὃ""
    ""ἡ"" = ""ᾑ"", ""ᾙ"", ""Ἡ""
    ""ἱ"" = ""Ἱ""
    ""ἥ"" = ""ἣ"", ""ἧ"", ""Ἣ"", ""Ἥ"", ""Ἧ"", ""ᾓ"", ""ᾕ"", ""ᾗ"", ""ᾛ"", ""ᾝ"", ""ᾟ""
    ""έ"" = ""ὲ"", ""Έ"", ""ἒ"", ""ἔ"", ""Ὲ"", ""Ἒ"", ""Ἔ""
    ""ά"" = ""ἂ"", ""ᾲ"", ""ᾆ"", ""ἆ"", ""Ἂ"", ""Ά"", ""Ἄ"", ""Ἆ"", ""ὰ"", ""ᾄ"", ""ᾂ"", ""ᾊ"", ""ᾴ"", ""ᾷ"", ""ᾶ"", ""ᾌ"", ""Ὰ"", ""ᾎ"", ""ἄ""
    ""ί"" = ""Ὶ"", ""ἶ"", ""Ί"", ""ῖ"", ""ἲ"", ""ἴ"", ""ὶ"", ""Ἲ"", ""Ἴ"", ""Ἶ""
    ""ή"" = ""ἢ"", ""ῇ"", ""ἤ"", ""ῂ"", ""ἦ"", ""Ή"", ""ῄ"", ""Ἢ"", ""Ἤ"", ""ῆ"", ""Ἦ"", ""ᾒ"", ""ὴ"", ""Ὴ"", ""ᾖ"", ""ᾚ"", ""ᾞ"", ""ᾜ"", ""ᾔ""
    ""α"" = ""ἀ"", ""ᾀ"", ""ᾈ"", ""ᾱ"", ""ᾰ"", ""ᾳ"", ""Α"", ""Ἀ"", ""Ᾱ"", ""Ᾰ"", ""ᾼ""
    ""γ"" = ""Γ""
    ""β"" = ""Β""
    ""ε"" = ""ἐ"", ""Ε"", ""Ἐ""
    ""δ"" = ""Δ""
    ""η"" = ""ἠ"", ""ῃ"", ""Ἠ"", ""ῌ"", ""ᾐ"", ""Η"", ""ᾘ""
    ""ζ"" = ""Ζ""
    ""ι"" = ""ἰ"", ""Ῑ"", ""ῑ"", ""ῐ"", ""Ῐ"", ""Ι"", ""Ἰ""
    ""ἵ"" = ""ἳ"", ""Ἵ"", ""Ἳ"", ""ἷ"", ""Ἷ""
    ""λ"" = ""Λ""
    ""κ"" = ""Κ""
    ""ν"" = ""Ν""
    ""μ"" = ""Μ""
    ""ο"" = ""ὀ"", ""Ο"", ""Ὀ""
    ""ξ"" = ""Ξ""
    ""ρ"" = ""Ρ"", ""ῥ"", ""ῤ"", ""Ῥ""
    ""π"" = ""Π""
    ""σ"" = ""Σ"", ""ς""
    ""υ"" = ""ῡ"", ""ῠ"", ""Υ"", ""Ῡ"", ""Ῠ"", ""ὐ""
    ""τ"" = ""Τ""
    ""χ"" = ""Χ""
    ""φ"" = ""Φ""
    ""ω"" = ""ὠ"", ""ᾠ"", ""Ω"", ""ᾨ"", ""ῳ"", ""Ὠ"", ""ῼ""
    ""ψ"" = ""Ψ""
    ""ϋ"" = ""ΰ"", ""Ϋ"", ""ῢ"", ""ῧ""
    ""ϊ"" = ""ΐ"", ""Ϊ"", ""ῗ"", ""ῒ""
    ""ύ"" = ""ῦ"", ""Ὺ"", ""Ύ"", ""ὒ"", ""ὔ"", ""ὖ"", ""ὺ""
    ""ό"" = ""ὂ"", ""ὄ"", ""Ὂ"", ""Ό"", ""Ὄ"", ""Ὸ"", ""ὸ""
    ""ώ"" = ""ὢ"", ""ὤ"", ""ὦ"", ""Ὢ"", ""ᾦ"", ""Ὤ"", ""Ώ"", ""Ὦ"", ""ῲ"", ""ᾢ"", ""ῴ"", ""ᾪ"", ""ῷ"", ""ῶ"", ""ᾬ"", ""ᾮ"", ""ὼ"", ""Ὼ"", ""ᾤ""
    ""ὑ"" = ""Ὑ""
    ""ὕ"" = ""Ὗ"", ""ὓ"", ""Ὕ"", ""Ὓ"", ""ὗ""
    ""θ"" = ""Θ""
    ""ὡ"" = ""ᾡ"", ""ᾩ"", ""Ὡ""
    ""ὥ"" = ""ᾣ"", ""ᾥ"", ""ὧ"", ""ᾧ"", ""ᾭ"", ""ᾫ"", ""Ὥ"", ""ὣ"", ""ᾯ"", ""Ὧ"", ""Ὣ""

rewrite:
    ""(<sv>)̀""     -> ""(<av>)""
    ""̀""           -> """"
    ""(<sv>)́""     -> ""(<av>)""
    ""́""           -> """"
    ""(<sv>)͂""     -> ""(<av>)""
    ""͂""           -> """"
    ""̈́""           -> ""̈""
    ""ϊ""          -> ""ϊ""
    ""ί̈""          -> ""ϊ""
    ""ϋ""          -> ""ϋ""
    ""ύ̈""          -> ""ϋ""
    ""̄""           -> """"
    ""̓""           -> """"
    ""̓""           -> """"
    ""̔""           -> ""Ξ""
    ""῝""           -> ""Ξ""
    ""῞""           -> ""Ξ""
    ""῟""           -> ""Ξ""
    ""῾""           -> ""Ξ""
    ""ἁ""           -> ""Ξα""
    ""ἅ""           -> ""Ξά""
    ""ἑ""           -> ""Ξε""
    ""ἕ""           -> ""Ξέ""
    ""ἡ""           -> ""Ξη""
    ""ἥ""           -> ""Ξή""
    ""ἱ""           -> ""Ξι""
    ""ἵ""           -> ""Ξί""
    ""ὁ""           -> ""Ξο""
    ""ὅ""           -> ""Ξό""
    ""ὑ""           -> ""Ξυ""
    ""ὕ""           -> ""Ξύ""
    ""ὡ""           -> ""Ξω""
    ""ὥ""           -> ""Ξώ""
    ""αΞ""          -> ""Ξα""
    ""άΞ""          -> ""Ξά""
    ""εΞ""          -> ""Ξε""
    ""έΞ""          -> ""Ξέ""
    ""ηΞ""          -> ""Ξη""
    ""ήΞ""          -> ""Ξή""
    ""ιΞ""          -> ""Ξι""
    ""ίΞ""          -> ""Ξί""
    ""οΞ""          -> ""Ξο""
    ""όΞ""          -> ""Ξό""
    ""υΞ""          -> ""Ξυ""
    ""ύΞ""          -> ""Ξύ""
    ""ωΞ""          -> ""Ξω""
    ""ώΞ""          -> ""Ξώ""
    ""^υ""          -> ""Ξυ""
    ""^ύ""          -> ""Ξύ""
    ""ου""          -> ""Υ""
    ""{@}υ""        -> ""Υ""
    ""υι""          -> ""ι""
    ""η""           -> ""ε""
    ""ού""          -> ""Υ""
    ""{@}ύ""        -> ""Υ""
    ""υί""          -> ""ι""
    ""υ""           -> ""ι""
    ""ά""           -> ""α""
    ""έ""           -> ""ε""
    ""ή""           -> ""ε""
    ""ί""           -> ""ι""
    ""ό""           -> ""ο""
    ""ύ""           -> ""ι""
    ""ω""           -> ""ο""
    ""ώ""           -> ""ο""
    ""ϊ""           -> ""ι""
    ""ϋ""           -> ""ι""
    ""ξ""           -> ""κσ""
    ""ψ""           -> ""πσ""
    ""{@}γ{γ|κ|χ}"" -> ""Ν""
    ""{@}ν{γ|κ|χ}"" -> ""Ν""
    ""τζ""          -> ""ζ""
    ""τσ""          -> ""Τ""
    ""ββ""          -> ""β""
    ""γγ""          -> ""γ""
    ""δδ""          -> ""δ""
    ""ζζ""          -> ""ζ""
    ""θθ""          -> ""θ""
    ""κκ""          -> ""κ""
    ""κχ""          -> ""χ""
    ""λλ""          -> ""λ""
    ""μμ""          -> ""μ""
    ""νν""          -> ""ν""
    ""ππ""          -> ""π""
    ""πφ""          -> ""φ""
    ""ρρ""          -> ""ρ""
    ""σσ""          -> ""σ""
    ""ττ""          -> ""τ""
    ""τθ""          -> ""θ""
    ""φφ""          -> ""φ""
    ""χχ""          -> ""χ""
    ""^κ""          -> ""κ;""
    ""{<cs>}κ""     -> ""κ;""
    ""κ{<ob>}""     -> ""κ,""
    ""^π""          -> ""π;""
    ""{<cs>}π""     -> ""π;""
    ""π{<ob>}""     -> ""π,""
    "";""           -> """"
    ""^λ""          -> ""λ;""
    ""^μ""          -> ""μ;""
    ""^ν""          -> ""ν;""
    ""λ$""          -> ""λ,""
    ""μ$""          -> ""μ,""
    ""ν$""          -> ""ν,""
    ""λ{@|μ,|ν,}""  -> ""λ;""
    ""μ{@}""        -> ""μ;""
    ""ν{@}""        -> ""ν;""
    ""λ""           -> ""λ,""
    ""μ""           -> ""μ,""
    ""ν""           -> ""ν,""
    ""Ν""           -> ""Ν,""
    "",,""          -> "",""
    "",;""          -> """"
    "",λ,""         -> ""λ,""
    "",μ,""         -> ""μ,""
    "",ν,""         -> ""ν,""
    ""λ{μ;|ν;}""    -> ""λ,""
    "";""           -> """"

transcribe:
    ""β""    -> ""ㅂ""
    ""γ""    -> ""ㄱ""
    ""δ""    -> ""ㄷ""
    ""ζ""    -> ""ㅈ""
    ""θ""    -> ""ㅌ""
    ""κ,""   -> ""-ㄱ""
    ""κ""    -> ""ㅋ""
    ""^λ""   -> ""ㄹ""
    ""{,}λ"" -> ""ㄹ""
    ""λ,""   -> ""-ㄹ""
    ""λ""    -> ""-ㄹㄹ""
    ""μ,""   -> ""-ㅁ""
    ""μ""    -> ""ㅁ""
    ""ν,""   -> ""-ㄴ""
    ""ν""    -> ""ㄴ""
    ""Ν""    -> ""-ㅇ""
    ""π,""   -> ""-ㅂ""
    ""π""    -> ""ㅍ""
    ""ρ""    -> ""ㄹ""
    ""σ""    -> ""ㅅ""
    ""τ""    -> ""ㅌ""
    ""Τ""    -> ""ㅊ""
    ""φ""    -> ""ㅍ""
    ""χ""    -> ""ㅋ""
    ""Ξ""    -> ""ㅎ""
    ""α""    -> ""ㅏ""
    ""ε""    -> ""ㅔ""
    ""ι""    -> ""ㅣ""
    ""ο""    -> ""ㅗ""
    ""Υ""    -> ""ㅜ""

test:
    ""Κυβέλη""       -> ""키벨레""
    ""Νίκη""         -> ""니케""
    ""Κροῖσος""      -> ""크로이소스""
    ""Δαρδανέλλια""  -> ""다르다넬리아""
    ""Τυφών""        -> ""티폰""
    ""Ἀχέρων""       -> ""아케론""
    ""Εὔβοια""       -> ""에우보이아""
    ""Μυκήνη""       -> ""미케네""
    ""Δωρίς""        -> ""도리스""
    ""Ἀκρόπολις""    -> ""아크로폴리스""
    ""Ἑρμιόνη""      -> ""헤르미오네""
    ""Ἀρτεμίς""      -> ""아르테미스""
    ""Ζήνων""        -> ""제논""
    ""Ποσειδῶν""     -> ""포세이돈""
    ""Ἄργος""        -> ""아르고스""
    ""Ἄτλας""        -> ""아틀라스""
    ""Βοιωτία""      -> ""보이오티아""
    ""Σαλαμίς""      -> ""살라미스""
    ""Πυθαγόρας""    -> ""피타고라스""
    ""Γανυμήδης""    -> ""가니메데스""
    ""Εὐρυδίκη""     -> ""에우리디케""
    ""Ἄτταλος""      -> ""아탈로스""
    ""Πάππος""       -> ""파포스""
    ""Θουκυδίδης""   -> ""투키디데스""
    ""Πανδώρα""      -> ""판도라""
    ""Διόνυσος""     -> ""디오니소스""
    ""Ἑλλάς""        -> ""헬라스""
    ""Ὕπνος""        -> ""히프노스""
"%bstr.

Definition src_grc_2 : bstr := "    ""Ἀττική""       -> ""아티케""
    ""Πηνελόπη""     -> ""페넬로페""
    ""Δαμασκός""     -> ""다마스코스""
    ""Στύξ""         -> ""스틱스""
    ""Ἠώς""          -> ""에오스""
    ""Ἀπολλώνιος""   -> ""아폴로니오스""
    ""Σόλων""        -> ""솔론""
    ""Ἱππολύτη""     -> ""히폴리테""
    ""Ὅμηρος""       -> ""호메로스""
    ""Τυῤῥηνία""     -> ""티레니아""
    ""Ἀναξαγόρας""   -> ""아낙사고라스""
    ""Περσεύς""      -> ""페르세우스""
    ""Σφίγξ""        -> ""스핑크스""
    ""Ἑστία""        -> ""헤스티아""
    ""Ἀντιόχεια""    -> ""안티오케이아""
    ""Ἀφροδίτη""     -> ""아프로디테""
    ""Πρωτεύς""      -> ""프로테우스""
    ""Πλούταρχος""   -> ""플루타르코스""
    ""Ὠκεανία""      -> ""오케아니아""
    ""Θῆβαι""        -> ""테바이""
    ""Χίμαιρα""      -> ""키마이라""
    ""Δαλματία""     -> ""달마티아""
    ""Πενθεσίλεια""  -> ""펜테실레이아""
    ""Ἥρα""          -> ""헤라""
    ""Νέμεσις""      -> ""네메시스""
    ""Ἀμαζόνες""     -> ""아마조네스""
    ""Νηρεύς""       -> ""네레우스""
    ""Αἴας""         -> ""아이아스""
    ""Μορφεύς""      -> ""모르페우스""
    ""Θάνατος""      -> ""타나토스""
    ""Ὦξος""         -> ""옥소스""
    ""Θερμοπύλαι""   -> ""테르모필라이""
    ""Στράβων""      -> ""스트라본""
    ""Φρυγία""       -> ""프리기아""
    ""Φοίβη""        -> ""포이베""
    ""Ἀπόλλων""      -> ""아폴론""
    ""Ἑλλήσποντος""  -> ""헬레스폰토스""
    ""Χρόνος""       -> ""크로노스""
    ""Λυκοῦργος""    -> ""리쿠르고스""
    ""Βορέας""       -> ""보레아스""
    ""Ἄρης""         -> ""아레스""
    ""Ἐρατοσθένης""  -> ""에라토스테네스""
    ""Ἀνδρομάχη""    -> ""안드로마케""
    ""Ἶρις""         -> ""이리스""
    ""Ὀδυσσεύς""     -> ""오디세우스""
    ""Ἀτλάντις""     -> ""아틀란티스""
    ""Καλλιόπη""     -> ""칼리오페""
    ""Σκύθαι""       -> ""스키타이""
    ""Περικλῆς""     -> ""페리클레스""
    ""Ἡρόδοτος""     -> ""헤로도토스""
    ""Ζέφυρος""      -> ""제피로스""
    ""Αἴγυπτος""     -> ""아이깁토스""
    ""Οὐρανός""      -> ""우라노스""
    ""Πέργαμον""     -> ""페르가몬""
    ""Κέρβερος""     -> ""케르베로스""
    ""Ἀντιγόνη""     -> ""안티고네""
    ""όμφαλος""      -> ""옴팔로스""
    ""Μέδουσα""      -> ""메두사""
    ""Ἀχελῷος""      -> ""아켈로오스""
    ""Δεκάπολις""    -> ""데카폴리스""
    ""Ἥλιος""        -> ""헬리오스""
    ""Ἰάσων""        -> ""이아손""
    ""Ἑκάτη""        -> ""헤카테""
    ""Γαῖα""         -> ""가이아""
    ""Τυνδάρεως""    -> ""틴다레오스""
    ""Ἡσίοδος""      -> ""헤시오도스""
    ""Ἱέρων""        -> ""히에론""
    ""Τιτάν""        -> ""티탄""
    ""Ἴλιον""        -> ""일리온""
    ""Ἀριστοτέλης""  -> ""아리스토텔레스""
    ""Ὀδύσσεια""     -> ""오디세이아""
    ""Σέλευκος""     -> ""셀레우코스""
    ""Μίδας""        -> ""미다스""
    ""Ἀναξίμανδρος"" -> ""아낙시만드로스""
    ""Ἡρακλῆς""      -> ""헤라클레스""
    ""Ξενοφῶν""      -> ""크세노폰""
    ""Ἕκτωρ""        -> ""헥토르""
    ""Ῥόδος""        -> ""로도스""
    ""Δῆλος""        -> ""델로스""
    ""Εὐρώπη""       -> ""에우로페""
    ""Ἱσπανία""      -> ""히스파니아""
    ""Πάν""          -> ""판""
    ""Ἀρχιμήδης""    -> ""아르키메데스""
    ""Πύθων""        -> ""피톤""
    ""Ἀγαμέμνων""    -> ""아가멤논""
    ""Ἁλικαρνασσός"" -> ""할리카르나소스""
    ""Ἑλένη""        -> ""헬레네""
    ""Εὐκτήμων""     -> ""에욱테몬""
    ""Εὐριπίδης""    -> ""에우리피데스""
    ""Θεμιστοκλῆς""  -> ""테미스토클레스""
    ""Ὀρφεύς""       -> ""오르페우스""
    ""Ἰθάκη""        -> ""이타케""
    ""Μνήμη""        -> ""므네메""
    ""Ἀμαζών""       -> ""아마존""
    ""Σεμέλη""       -> ""세멜레""
    ""Ἀντίγονος""    -> ""안티고노스""
    ""Ἱπποκράτης""   -> ""히포크라테스""
    ""Ἰλιάς""        -> ""일리아스""
    ""Σιληνός""      -> ""실레노스""
    ""Ἀλεξάνδρεια""  -> ""알렉산드레이아""
    ""ᾍδης""         -> ""하데스""
    ""Ἀναξανδρίδας"" -> ""아낙산드리다스""
    ""Ἔρις""         -> ""에리스""
    ""Ἥφαιστος""     -> ""헤파이스토스""
    ""Πλάτων""       -> ""플라톤""
    ""Πτολεμαῖος""   -> ""프톨레마이오스""
    ""Ὄλυμπος""      -> ""올림포스""
    ""Νεμέα""        -> ""네메아""
    ""Δημόκριτος""   -> ""데모크리토스""
    ""Οἰδίπους""     -> ""오이디푸스""
    ""Τροία""        -> ""트로이아""
    ""Θαλῆς""        -> ""탈레스""
    ""Ίαπετός""      -> ""이아페토스""
    ""Ἐλεφαντίνη""   -> ""엘레판티네""
    ""Ἀχιλλεύς""     -> ""아킬레우스""
    ""Ἥβη""          -> ""헤베""
    ""Σωκράτης""     -> ""소크라테스""
    ""Ἀμφίπολις""    -> ""암피폴리스""
    ""Λεωνίδας""     -> ""레오니다스""
    ""Ῥοδόπη""       -> ""로도페""
    ""Ὠρίων""        -> ""오리온""
    ""Ἵππαρχος""     -> ""히파르코스""
    ""Ἄδωνις""       -> ""아도니스""
    ""Πολύβιος""     -> ""폴리비오스""
    ""Ζάκυνθος""     -> ""자킨토스""
    ""Ῥέα""          -> ""레아""
    ""Πυθία""        -> ""피티아""
    ""Ὕδρα""         -> ""히드라""
    ""Δελφοί""       -> ""델포이""
    ""Σαπφώ""        -> ""사포""
    ""Αἴολος""       -> ""아이올로스""
    ""Τῆλος""        -> ""텔로스""
    ""Ἀλέξανδρος""   -> ""알렉산드로스""
    ""Χάος""         -> ""카오스""
    ""Ἀθηνᾶ""        -> ""아테나""
    ""Πίνδαρος""     -> ""핀다로스""
    ""Ἑρμής""        -> ""헤르메스""
    ""Περσεφόνη""    -> ""페르세포네""
    ""Ἔρως""         -> ""에로스""
    ""Αἴσωπος""      -> ""아이소포스""
    ""Δημήτηρ""      -> ""데메테르""
    ""Ἀριάδνη""      -> ""아리아드네""
    ""Σαμοθρᾴκη""    -> ""사모트라케""
    ""Ἰωνία""        -> ""이오니아""
    ""Δάφνη""        -> ""다프네""
    ""Προμηθεύς""    -> ""프로메테우스""
    ""Κλεομένης""    -> ""클레오메네스""
    ""Σίσυφος""      -> ""시시포스""
    ""Ζεύς""         -> ""제우스""

"%bstr.

Definition src_grc : list bstr := [src_grc_1; src_grc_2].

Definition src_hbs_1 : bstr := "lang:
    id      = ""hbs""
    codes   = ""sh"", ""hbs""
    english = ""Serbo-Croatian""
    korean  = ""세르보크로아트어""
    script  = ""Latn""

config:
    author = ""Brian Jongseong Park <iceager@gmail.com>""
    stage  = ""draft""

macros:
    ""@"" = ""<vowels>""

vars:
    ""consonants"" = ""c"", ""C"", ""f"", ""h"", ""s"", ""t""
    ""vowels""     = ""a"", ""e"", ""i"", ""o"", ""u"", ""y""

normalize:
    ""ć""  = ""Ћ"", ""ћ"", ""Ć""
    ""č""  = ""Č""
    ""đ""  = ""Đ"", ""ђ"", ""Ђ""
    ""nj"" = ""ǋ"", ""Њ"", ""Ǌ"", ""њ""
    ""lj"" = ""Љ"", ""ǈ"", ""љ"", ""Ǉ""
    ""š""  = ""Š"", ""Ш"", ""ш""
    ""C""  = ""ч"", ""Ч""
    ""dž"" = ""џ"", ""ǅ"", ""Ǆ"", ""Џ""
    ""a""  = ""А"", ""а""
    ""c""  = ""ц"", ""Ц""
    ""b""  = ""Б"", ""б""
    ""e""  = ""е"", ""Е""
    ""d""  = ""Д"", ""д""
    ""g""  = ""Г"", ""г""
    ""f""  = ""Ф"", ""ф""
    ""i""  = ""И"", ""и""
    ""h""  = ""х"", ""Х""
    ""k""  = ""к"", ""К""
    ""j""  = ""Ј"", ""ј""
    ""m""  = ""М"", ""м""
    ""l""  = ""Л"", ""л""
    ""o""  = ""о"", ""О""
    ""n""  = ""н"", ""Н""
    ""p""  = ""п"", ""П""
    ""s""  = ""С"", ""с""
    ""r""  = ""Р"", ""р""
    ""u""  = ""У"", ""у""
    ""t""  = ""т"", ""Т""
    ""v""  = ""в"", ""В""
    ""z""  = ""з"", ""З""
    ""ž""  = ""ж"", ""Ž"", ""Ж""

rewrite:
    ""č""         -> ""C""
    ""ć""         -> ""C""
    ""đ""         -> ""D""
    ""š""         -> ""S""
    ""dž""        -> ""D""
    ""ž""         -> ""Z""
    ""tj""        -> ""C""
    ""S{@}""      -> ""sJ""
    ""S$""        -> ""si""
    ""S""         -> ""sJu""
    ""^je""       -> ""Je""
    ""{@|s}je""   -> ""Je""
    ""je""        -> ""e""
    ""{l|n}j{@}"" -> ""J""
    ""{l|n}j""    -> """"
    ""j{@}""      -> ""J""
    ""j""         -> ""i""
    ""xx""        -> ""x""
    ""x""         -> ""ks""
    ""qu""        -> ""kv""
    ""q""         -> ""k""
    ""w""         -> ""v""
    ""^y{@}""     -> ""J""
    ""y""         -> ""i""
    ""aa""        -> ""a""
    ""bb""        -> ""b""
    ""dd""        -> ""d""
    ""ee""        -> ""e""
    ""ff""        -> ""f""
    ""gg""        -> ""g""
    ""hh""        -> ""h""
    ""ii""        -> ""i""
    ""kk""        -> ""k""
    ""ll""        -> ""l""
    ""mm""        -> ""m""
    ""nn""        -> ""n""
    ""oo""        -> ""o""
    ""pp""        -> ""p""
    ""rr""        -> ""r""
    ""ss""        -> ""s""
    ""tt""        -> ""t""
    ""uu""        -> ""u""
    ""vv""        -> ""v""
    ""zz""        -> ""z""
    ""^m""        -> ""P""
    ""^n""        -> ""Q""

transcribe:
    ""{@}mm{@}""             -> ""-ㅁㅁ""
    ""{@}nn{@}""             -> ""-ㄴㄴ""
    ""^k""                   -> ""ㅋ""
    ""{@}k{<consonants>|p}"" -> ""-ㄱ""
    ""^p""                   -> ""ㅍ""
    ""{@}p{<consonants>|k}"" -> ""-ㅂ""
    ""k""                    -> ""ㅋ""
    ""p""                    -> ""ㅍ""
    ""C{@}""                 -> ""ㅊ""
    ""C""                    -> ""ㅊㅣ""
    ""b""                    -> ""ㅂ""
    ""c""                    -> ""ㅊ""
    ""d""                    -> ""ㄷ""
    ""D{@}""                 -> ""ㅈ""
    ""D""                    -> ""ㅈㅣ""
    ""f""                    -> ""ㅍ""
    ""g""                    -> ""ㄱ""
    ""h""                    -> ""ㅎ""
    ""^l""                   -> ""ㄹ""
    ""{m|n}l""               -> ""ㄹ""
    ""l{@|J}""               -> ""-ㄹㄹ""
    ""l""                    -> ""-ㄹ""
    ""P""                    -> ""ㅁ""
    ""m{@|J|l|r|n}""         -> ""ㅁ""
    ""m""                    -> ""-ㅁ""
    ""Q""                    -> ""ㄴ""
    ""n{@|J}""               -> ""ㄴ""
    ""n""                    -> ""-ㄴ""
    ""r""                    -> ""ㄹ""
    ""s""                    -> ""ㅅ""
    ""t""                    -> ""ㅌ""
    ""v""                    -> ""ㅂ""
    ""z""                    -> ""ㅈ""
    ""Z{@}""                 -> ""ㅈ""
    ""Z""                    -> ""ㅈㅜ""
    ""Ja""                   -> ""ㅑ""
    ""Je""                   -> ""ㅖ""
    ""Ji""                   -> ""ㅣ""
    ""Jo""                   -> ""ㅛ""
    ""Ju""                   -> ""ㅠ""
    ""a""                    -> ""ㅏ""
    ""e""                    -> ""ㅔ""
    ""i""                    -> ""ㅣ""
    ""o""                    -> ""ㅗ""
    ""u""                    -> ""ㅜ""

test:
    ""jastuk""     -> ""야스투크""
    ""кула""       -> ""쿨라""
    ""vatra""      -> ""바트라""
    ""Ниш""        -> ""니시""
    ""gost""       -> ""고스트""
    ""opština""    -> ""옵슈티나""
    ""sestrić""    -> ""세스트리치""
    ""ostrvo""     -> ""오스트르보""
    ""pasulj""     -> ""파술""
    ""drvo""       -> ""드르보""
    ""сједло""     -> ""셰들로""
    ""drobnjak""   -> ""드로브냐크""
    ""čelik""      -> ""첼리크""
    ""смрт""       -> ""스므르트""
    ""muž""        -> ""무주""
    ""telo""       -> ""텔로""
    ""mlad""       -> ""믈라드""
    ""Njegoš""     -> ""네고시""
    ""јастук""     -> ""야스투크""
    ""vlasništvo"" -> ""블라스니슈트보""
    ""glas""       -> ""글라스""
    ""torba""      -> ""토르바""
    ""džep""       -> ""제프""
    ""cev""        -> ""체브""
    ""pogreb""     -> ""포그레브""
    ""pojas""      -> ""포야스""
    ""nos""        -> ""노스""
    ""dim""        -> ""딤""
    ""odjelo""     -> ""오델로""
    ""млад""       -> ""믈라드""
    ""општина""    -> ""옵슈티나""
    ""шљивовица""  -> ""슐리보비차""
    ""šah""        -> ""샤흐""
    ""olovka""     -> ""올로브카""
    ""malo""       -> ""말로""
    ""kula""       -> ""쿨라""
    ""šal""        -> ""샬""
    ""osam""       -> ""오삼""
    ""svibanj""    -> ""스비반""
    ""narudžba""   -> ""나루지바""
    ""loman""      -> ""로만""
    ""kifla""      -> ""키플라""
    ""cigara""     -> ""치가라""
    ""novac""      -> ""노바츠""
    ""šaraf""      -> ""샤라프""
    ""zavoj""      -> ""자보이""
    ""molim""      -> ""몰림""
    ""izložba""    -> ""이즐로주바""
    ""dugme""      -> ""두그메""
    ""broš""       -> ""브로시""
    ""zubar""      -> ""주바르""
    ""korist""     -> ""코리스트""
    ""pozno""      -> ""포즈노""
    ""peta""       -> ""페타""
    ""krug""       -> ""크루그""
    ""Niš""        -> ""니시""
    ""много""      -> ""므노고""
    ""šljivovica"" -> ""슐리보비차""
    ""posle""      -> ""포슬레""
    ""hitan""      -> ""히탄""
    ""mnogo""      -> ""므노고""
    ""naći""       -> ""나치""
    ""ljeto""      -> ""레토""
    ""mir""        -> ""미르""
    ""lep""        -> ""레프""
    ""levo""       -> ""레보""
    ""put""        -> ""푸트""
    ""sedam""      -> ""세담""
    ""balkon""     -> ""발콘""
    ""točka""      -> ""토치카""
    ""bakar""      -> ""바카르""
    ""desno""      -> ""데스노""
    ""žena""       -> ""제나""
    ""banka""      -> ""반카""
    ""obraz""      -> ""오브라즈""
    ""fasada""     -> ""파사다""
    ""medved""     -> ""메드베드""
    ""бједро""     -> ""베드로""
    ""riba""       -> ""리바""
    ""proliv""     -> ""프롤리브""
    ""smrt""       -> ""스므르트""
    ""bog""        -> ""보그""
    ""bjedro""     -> ""베드로""
    ""sjedlo""     -> ""셰들로""
    ""kolač""      -> ""콜라치""

"%bstr.

Definition src_hbs : list bstr := [src_hbs_1].

Definition src_hun_1 : bstr := "lang:
    id      = ""hun""
    codes   = ""hu"", ""hun""
    english = ""Hungarian""
    korean  = ""헝가리어""
    script  = ""Latn""

config:
    author = ""Brian Jongseong Park <iceager@gmail.com>""
    stage  = ""draft""

macros:
    ""@"" = ""<vowels>""

vars:
    ""cs""     = ""b"", ""c"", ""C"", ""d"", ""D"", ""f"", ""g"", ""h"", ""k"", ""l"", ""m"", ""n"", ""p"", ""q"", ""r"", ""s"", ""S"", ""t"", ""v"", ""w"", ""x"", ""z"", ""Z""
    ""vl""     = ""c"", ""C"", ""f"", ""h"", ""k"", ""p"", ""s"", ""S"", ""t""
    ""vowels"" = ""a"", ""A"", ""e"", ""i"", ""o"", ""O"", ""u"", ""U""

normalize:
    ""á"" = ""Á""
    ""ü"" = ""ű"", ""Ű"", ""Ü""
    ""ö"" = ""ő"", ""Ő"", ""Ö""

rewrite:
    ""á""          -> ""A""
    ""ö""          -> ""O""
    ""ü""          -> ""U""
    ""j""          -> ""y""
    ""cc""         -> ""c""
    ""cs""         -> ""C""
    ""ch""         -> ""C""
    ""cz""         -> ""c""
    ""dd""         -> ""d""
    ""dy""         -> ""D""
    ""dzs""        -> ""D""
    ""gg""         -> ""g""
    ""gy""         -> ""D""
    ""ny{@}""      -> ""nJ""
    ""ny""         -> ""ni""
    ""qq""         -> ""q""
    ""q{@}""       -> ""kv""
    ""q""          -> ""k""
    ""xx""         -> ""x""
    ""x""          -> ""kS""
    ""ss""         -> ""s""
    ""sz""         -> ""S""
    ""tt""         -> ""t""
    ""th""         -> ""t""
    ""ts""         -> ""C""
    ""ty""         -> ""C""
    ""tz""         -> ""c""
    ""zz""         -> ""z""
    ""zs""         -> ""Z""
    ""ll""         -> ""l""
    ""ly{@}""      -> ""J""
    ""ly""         -> ""i""
    ""^y{@}""      -> ""J""
    ""{@}y{@}""    -> ""J""
    ""y""          -> ""i""
    ""^Je""        -> ""Ye""
    ""{@|s|S}Je""  -> ""Ye""
    ""Je""         -> ""e""
    ""Y""          -> ""J""
    ""aa""         -> ""a""
    ""bb""         -> ""b""
    ""ee""         -> ""e""
    ""eO""         -> ""O""
    ""ew""         -> ""O""
    ""ff""         -> ""f""
    ""hh""         -> ""h""
    ""ii""         -> ""i""
    ""kk""         -> ""k""
    ""{@}mm{@}""   -> ""m,m""
    ""mm""         -> ""m""
    ""{@}nn{@|J}"" -> ""n,n""
    ""nn""         -> ""n""
    ""oo""         -> ""o""
    ""OO""         -> ""O""
    ""pp""         -> ""p""
    ""rr""         -> ""r""
    ""s{@}""       -> ""SJ""
    ""s$""         -> ""Si""
    ""s""          -> ""SJu""
    ""uu""         -> ""u""
    ""UU""         -> ""U""
    ""w""          -> ""v""
    ""vv""         -> ""v""
    ""C{<cs>}""    -> ""Ci""
    ""C$""         -> ""Ci""
    ""D{<cs>}""    -> ""Di""
    ""D$""         -> ""Di""
    ""Z{<cs>}""    -> ""Zu""
    ""Z$""         -> ""Zu""
    ""^l""         -> ""l;""
    ""^m""         -> ""m;""
    ""^n""         -> ""n;""
    ""l$""         -> ""l,""
    ""m$""         -> ""m,""
    ""n$""         -> ""n,""
    ""l{@|m,|n,}"" -> ""l;""
    ""{,}l""       -> ""l;""
    ""m{@}""       -> ""m;""
    ""n{@|J}""     -> ""n;""
    ""l""          -> ""l,""
    ""m""          -> ""m,""
    ""n""          -> ""n,""
    "",,""         -> "",""
    "",;""         -> """"
    "",l,""        -> ""l,""
    "",m,""        -> ""m,""
    "",n,""        -> ""n,""
    ""l{m;|n;}""   -> ""l,""
    "";""          -> """"
    ""{@}k{<vl>}"" -> ""k,""
    ""{@}p{<vl>}"" -> ""p,""

transcribe:
    ""b""    -> ""ㅂ""
    ""c""    -> ""ㅊ""
    ""C""    -> ""ㅊ""
    ""d""    -> ""ㄷ""
    ""D""    -> ""ㅈ""
    ""f""    -> ""ㅍ""
    ""g""    -> ""ㄱ""
    ""h""    -> ""ㅎ""
    ""k,""   -> ""-ㄱ""
    ""k""    -> ""ㅋ""
    ""^l""   -> ""ㄹ""
    ""{,}l"" -> ""ㄹ""
    ""l,""   -> ""-ㄹ""
    ""l""    -> ""-ㄹㄹ""
    ""m,""   -> ""-ㅁ""
    ""m""    -> ""ㅁ""
    ""n,""   -> ""-ㄴ""
    ""n""    -> ""ㄴ""
    ""p,""   -> ""-ㅂ""
    ""p""    -> ""ㅍ""
    ""r""    -> ""ㄹ""
    ""S""    -> ""ㅅ""
    ""t""    -> ""ㅌ""
    ""v""    -> ""ㅂ""
    ""z""    -> ""ㅈ""
    ""Z""    -> ""ㅈ""
    ""Ja""   -> ""ㅕ""
    ""JA""   -> ""ㅑ""
    ""Je""   -> ""ㅖ""
    ""Ji""   -> ""ㅣ""
    ""Jo""   -> ""ㅛ""
    ""JO""   -> ""ㅚ""
    ""Ju""   -> ""ㅠ""
    ""JU""   -> ""ㅟ""
    ""a""    -> ""ㅓ""
    ""A""    -> ""ㅏ""
    ""e""    -> ""ㅔ""
    ""i""    -> ""ㅣ""
    ""o""    -> ""ㅗ""
    ""O""    -> ""ㅚ""
    ""u""    -> ""ㅜ""
    ""U""    -> ""ㅟ""

test:
    ""csomag""   -> ""초머그""
    ""citrom""   -> ""치트롬""
    ""róka""     -> ""로커""
    ""sál""      -> ""샬""
    ""mert""     -> ""메르트""
    ""zsák""     -> ""자크""
    ""nagy""     -> ""너지""
    ""hónap""    -> ""호너프""
    ""blúz""     -> ""블루즈""
    ""ár""       -> ""아르""
    ""rozs""     -> ""로주""
    ""január""   -> ""여누아르""
    ""húsz""     -> ""후스""
    ""hal""      -> ""헐""
    ""torna""    -> ""토르너""
    ""fej""      -> ""페이""
    ""évszázad"" -> ""에브사저드""
    ""tőzsde""   -> ""퇴주데""
    ""nyer""     -> ""네르""
    ""lakat""    -> ""러커트""
    ""hányszor"" -> ""하니소르""
    ""nyak""     -> ""녀크""
    ""isten""    -> ""이슈텐""
    ""selyem""   -> ""셰옘""
    ""juh""      -> ""유흐""
    ""daru""     -> ""더루""
    ""csont""    -> ""촌트""
    ""máj""      -> ""마이""
    ""lapos""    -> ""러포시""
    ""kezd""     -> ""케즈드""
    ""bomba""    -> ""봄버""
    ""király""   -> ""키라이""
    ""olaj""     -> ""올러이""
    ""lyuk""     -> ""유크""
    ""ablak""    -> ""어블러크""
    ""borotva""  -> ""보로트버""
    ""álom""     -> ""알롬""
    ""nyugta""   -> ""뉴그터""
    ""meleg""    -> ""멜레그""
    ""bab""      -> ""버브""
    ""sí""       -> ""시""
    ""asztal""   -> ""어스털""
    ""kulcs""    -> ""쿨치""
    ""sör""      -> ""쇠르""
    ""gond""     -> ""곤드""
    ""elfog""    -> ""엘포그""
    ""ajak""     -> ""어여크""
    ""dzsem""    -> ""젬""
    ""vesz""     -> ""베스""
    ""atya""     -> ""어처""
    ""arc""      -> ""어르츠""
    ""nyolcvan"" -> ""뇰츠번""
    ""mész""     -> ""메스""
    ""nő""       -> ""뇌""
    ""pihen""    -> ""피헨""
    ""medve""    -> ""메드베""
    ""ajto""     -> ""어이토""
    ""néma""     -> ""네머""
    ""bunda""    -> ""분더""
    ""árpa""     -> ""아르퍼""
    ""között""   -> ""쾨죄트""
    ""alszik""   -> ""얼시크""
    ""béka""     -> ""베커""
    ""málna""    -> ""말너""
    ""dinnye""   -> ""딘네""
    ""irány""    -> ""이라니""
    ""mélység""  -> ""메이셰그""
    ""aratás""   -> ""어러타시""
    ""fű""       -> ""퓌""
    ""csavar""   -> ""처버르""
    ""zab""      -> ""저브""
    ""keksz""    -> ""켁스""
    ""len""      -> ""렌""
    ""csipke""   -> ""칩케""
    ""Pest""     -> ""페슈트""
    ""gyár""     -> ""자르""
    ""puska""    -> ""푸슈커""
    ""enyv""     -> ""에니브""
    ""dél""      -> ""델""
    ""hagyma""   -> ""허지머""
    ""gumi""     -> ""구미""
    ""szék""     -> ""세크""
    ""barna""    -> ""버르너""
    ""hús""      -> ""후시""
    ""nulla""    -> ""눌러""
    ""füst""     -> ""퓌슈트""

"%bstr.

Definition src_hun : list bstr := [src_hun_1].

Definition src_isl_1 : bstr := "lang:
    id      = ""isl""
    codes   = ""is"", ""isl""
    english = ""Icelandic""
    korean  = ""아이슬란드어""
    script  = ""Latn""

config:
    author = ""Brian Jongseong Park <iceager@gmail.com>""
    stage  = ""draft""

macros:
    ""@"" = ""<vowels>""

vars:
    ""cs""     = ""b"", ""d"", ""D"", ""f"", ""F"", ""g"", ""h"", ""H"", ""j"", ""J"", ""k"", ""l"", ""m"", ""n"", ""N"", ""p"", ""r"", ""s"", ""S"", ""t"", ""T"", ""v"", ""Z""
    ""ld""     = ""A"", ""E"", ""I"", ""O"", ""U"", ""Y"", ""W"", ""X""
    ""pl""     = ""b"", ""d"", ""g"", ""k"", ""p"", ""t""
    ""vowels"" = ""a"", ""A"", ""e"", ""E"", ""i"", ""I"", ""o"", ""O"", ""u"", ""U"", ""y"", ""W"", ""X"", ""Y"", ""Q""

normalize:
    ""á"" = ""Á""
    ""æ"" = ""Æ""
    ""é"" = ""É""
    ""í"" = ""Í""
    ""ð"" = ""Ð""
    ""ó"" = ""Ó""
    ""ö"" = ""Ö""
    ""ú"" = ""Ú""
    ""ý"" = ""Ý""
    ""þ"" = ""Þ""

rewrite:
    ""ð""                                -> ""D""
    ""þ""                                -> ""T""
    ""á""                                -> ""A""
    ""é""                                -> ""E""
    ""í""                                -> ""I""
    ""ó""                                -> ""O""
    ""ú""                                -> ""U""
    ""æ""                                -> ""Y""
    ""ö""                                -> ""Q""
    ""^alli$""                           -> ""ali""
    ""^bolla""                           -> ""bola""
    ""^cilla""                           -> ""cila""
    ""^dalla""                           -> ""dala""
    ""^ella""                            -> ""ela""
    ""^elli""                            -> ""eli""
    ""erlend""                           -> ""er-lend""
    ""faDir""                            -> ""FaDir""
    ""fall""                             -> ""Fall""
    ""feD{ur|ra}""                       -> ""FeD""
    ""fell""                             -> ""Fell""
    ""firDi""                            -> ""FirDi""
    ""fjarlYg""                          -> ""fjar-lYg""
    ""foss""                             -> ""Foss""
    ""fOlk""                             -> ""FOlk""
    ""fugl""                             -> ""Fugl""
    ""fylk{i|j}""                        -> ""Fylk""
    ""fQDur""                            -> ""FQDur""
    ""fQll""                             -> ""FQll""
    ""gud{brand|jon|laug|mund|rid|run}"" -> ""guD""
    ""guD""                              -> ""gvuD""
    ""^halla""                           -> ""hala""
    ""^halli""                           -> ""hali""
    ""^hella""                           -> ""hela""
    ""^helli""                           -> ""heli""
    ""^hilla""                           -> ""hila""
    ""jQkull""                           -> ""%jQkull""
    ""^kalla""                           -> ""kala""
    ""^kamilla""                         -> ""kamila""
    ""^kalli""                           -> ""kali""
    ""^malla""                           -> ""mala""
    ""^malli""                           -> ""mali""
    ""^milla""                           -> ""mila""
    ""^nella""                           -> ""nela""
    ""^palli""                           -> ""pali""
    ""^silla""                           -> ""sila""
    ""stefAn""                           -> ""steFAn""
    ""sumarn{Ott|Yt}""                   -> ""sumar-n""
    ""^thor""                            -> ""Tor""
    ""^Tor""                             -> ""Tor-""
    ""^tolla""                           -> ""tola""
    ""varleg""                           -> ""var-leg""
    ""^villi""                           -> ""vili""
    ""nni$""                             -> ""n,ni""
    ""y""                                -> ""i""
    ""ý""                                -> ""I""
    ""au""                               -> ""W""
    ""ei""                               -> ""X""
    ""c{e|E|i|I}""                       -> ""s""
    ""c""                                -> ""k""
    ""qu""                               -> ""kv""
    ""q""                                -> ""k""
    ""w""                                -> ""v""
    ""xx""                               -> ""x""
    ""x""                                -> ""ks""
    ""tss{@}""                           -> ""Ss""
    ""ss""                               -> ""s""
    ""ds""                               -> ""s""
    ""ds{<cs>}""                         -> ""Z""
    ""ds$""                              -> ""Z""
    ""Ds""                               -> ""s""
    ""fn{d|t}""                          -> ""m""
    ""ff""                               -> ""F""
    ""f$""                               -> ""v""
    ""{@|l}f{@}""                        -> ""v""
    ""f""                                -> ""F""
    ""{@}g$""                            -> ""H""
    ""{@}g{s|S|t}""                      -> ""k,""
    ""{a|e|o|u|Q}g{i|I|j}""              -> ""i""
    ""{@}g{i|I|j}""                      -> ""J""
    ""{g|h|k|s}j""                       -> ""J""
    ""{g|k}Y""                           -> ""JY""
    ""hv""                               -> ""kv""
    ""{@}k{s|S|t}""                      -> ""k,""
    ""ll{d|s|t}""                        -> ""l""
    ""ll""                               -> ""dl""
    ""{@}mm{@}""                         -> ""m,m""
    ""mm""                               -> ""m""
    ""an{g|k}""                          -> ""An""
    ""en{g|k}""                          -> ""ein""
    ""un{g|k}""                          -> ""Un""
    ""Qn{g|k}""                          -> ""Qin""
    ""ng{s|<pl>}""                       -> ""N""
    ""{@}ngl{@}""                        -> ""Nl""
    ""ng""                               -> ""Ng""
    ""{@}nkl{@}""                        -> ""Nl""
    ""nk""                               -> ""Nk""
    ""{<ld>}nn""                         -> ""dn""
    ""{@}nn{@}""                         -> ""n,n""
    ""nn""                               -> ""n""
    ""pp""                               -> ""p""
    ""r{l|n}""                           -> ""rd""
    ""z""                                -> ""s""
    ""ts{<cs>}""                         -> ""S""
    ""ts$""                              -> ""S""
    ""^j{@}""                            -> ""J""
    ""{@|%}j{@}""                        -> ""J""
    ""Dj""                               -> ""D%J""
    ""j""                                -> ""i""
    ""A""                                -> ""aU""
    ""I""                                -> ""i""
    ""O""                                -> ""o""
    ""W""                                -> ""Qi""
    ""X""                                -> ""ei""
    ""^E""                               -> ""Je""
    ""{@|h}E""                           -> ""Je""
    ""E""                                -> ""ie""
    ""Y""                                -> ""ai""
    ""bb""                               -> ""b""
    ""dd""                               -> ""d""
    ""gg""                               -> ""g""
    ""hh""                               -> ""h""
    ""kk""                               -> ""k""
    ""pp""                               -> ""p""
    ""rr""                               -> ""r""
    ""tt""                               -> ""t""
    ""vv""                               -> ""v""
    ""h{@|J|l|n|r}""                     -> ""H""
    ""h""                                -> """"
    ""^l""                               -> ""l;""
    ""^m""                               -> ""m;""
    ""^n""                               -> ""n;""
    ""l$""                               -> ""l,""
    ""m$""                               -> ""m,""
    ""n$""                               -> ""n,""
    ""l{@|m,|n,|N}""                     -> ""l;""
    ""{,}l""                             -> ""l;""
    ""m{@}""                             -> ""m;""
    ""n{@}""                             -> ""n;""
    ""l""                                -> ""l,""
    ""m""                                -> ""m,""
    ""n""                                -> ""n,""
    ""N""                                -> ""N,""
    "",,""                               -> "",""
    "",;""                               -> """"
    "",l,""                              -> ""l,""
    "",m,""                              -> ""m,""
    "",n,""                              -> ""n,""
    "",N,""                              -> ""N,""
    ""l{m;|n;}""                         -> ""l,""
    "";""                                -> """"
    ""-""                                -> """"

transcribe:
    ""b""    -> ""ㅂ""
    ""d""    -> ""ㄷ""
    ""D""    -> ""ㄷ""
"%bstr.

Definition src_isl_2 : bstr := "    ""F""    -> ""ㅍ""
    ""g""    -> ""ㄱ""
    ""H""    -> ""ㅎ""
    ""k,""   -> ""-ㄱ""
    ""k""    -> ""ㅋ""
    ""^l""   -> ""ㄹ""
    ""{,}l"" -> ""ㄹ""
    ""l,""   -> ""-ㄹ""
    ""l""    -> ""-ㄹㄹ""
    ""m,""   -> ""-ㅁ""
    ""m""    -> ""ㅁ""
    ""n,""   -> ""-ㄴ""
    ""n""    -> ""ㄴ""
    ""N""    -> ""-ㅇ""
    ""p""    -> ""ㅍ""
    ""r""    -> ""ㄹ""
    ""s""    -> ""ㅅ""
    ""S""    -> ""ㅊ""
    ""t""    -> ""ㅌ""
    ""T""    -> ""ㅅ""
    ""v""    -> ""ㅂ""
    ""Z""    -> ""ㅈ""
    ""%""    -> ""ㅇ""
    ""Ja""   -> ""ㅑ""
    ""Je""   -> ""ㅖ""
    ""Ji""   -> ""ㅣ""
    ""Jo""   -> ""ㅛ""
    ""Ju""   -> ""ㅠ""
    ""JU""   -> ""ㅠ""
    ""JQ""   -> ""ㅖ""
    ""a""    -> ""ㅏ""
    ""e""    -> ""ㅔ""
    ""i""    -> ""ㅣ""
    ""o""    -> ""ㅗ""
    ""u""    -> ""ㅟ""
    ""U""    -> ""ㅜ""
    ""Q""    -> ""ㅚ""

test:
    ""Geir Hilmar""                          -> ""게이르 힐마르""
    ""Hermann Hreiðarsson""                  -> ""헤르만 흐레이다르손""
    ""Ólafur Darri Ólafsson""                -> ""올라뷔르 다리 올라프손""
    ""Þjórsá""                               -> ""시오르사우""
    ""Gunnfríður Jónsdóttir""                -> ""귄프리뒤르 욘스도티르""
    ""Ísafjörður""                           -> ""이사피외르뒤르""
    ""Davíð Stefánsson""                     -> ""다비드 스테파운손""
    ""Ari Þorgilsson""                       -> ""아리 소르길손""
    ""Seyðisfjörður""                        -> ""세이디스피외르뒤르""
    ""Tómas Guðmundsson""                    -> ""토마스 그뷔드뮌손""
    ""Eiríkur rauði""                        -> ""에이리퀴르 뢰이디""
    ""Gisli Gudjonsson""                     -> ""기슬리 그뷔드욘손""
    ""Bragi Ólafsson""                       -> ""브라이이 올라프손""
    ""Eyjafjallajökull""                     -> ""에이야피아들라예퀴들""
    ""Einar Kárason""                        -> ""에이나르 카우라손""
    ""Hafnarfjörður""                        -> ""하프나르피외르뒤르""
    ""Þorsteinn Gylfason""                   -> ""소르스테이든 길바손""
    ""Kolbeinn Tumason""                     -> ""콜베이든 튀마손""
    ""Kjartan Ólafsson""                     -> ""캬르탄 올라프손""
    ""Eiður Smári Guðjohnsen""               -> ""에이뒤르 스마우리 그뷔드요흔센""
    ""Ásgeir Sigurvinsson""                  -> ""아우스게이르 시귀르빈손""
    ""Einar Bárðarson""                      -> ""에이나르 바우르다르손""
    ""Þorlákshöfn""                          -> ""소를라욱스회픈""
    ""Hvolsvöllur""                          -> ""크볼스뵈들뤼르""
    ""Hannibal Valdimarsson""                -> ""한니발 발디마르손""
    ""Mosfellsbær""                          -> ""모스펠스바이르""
    ""Steingrímur Hermannsson""              -> ""스테잉그리뮈르 헤르만손""
    ""Viktor Arnar Ingólfsson""              -> ""빅토르 아르드나르 잉골프손""
    ""Gísli Pálsson""                        -> ""기슬리 파울손""
    ""Guðmundur Hagalín""                    -> ""그뷔드뮌뒤르 하갈린""
    ""Neskaupstaður""                        -> ""네스쾨이프스타뒤르""
    ""Einar Már Guðmundsson""                -> ""에이나르 마우르 그뷔드뮌손""
    ""Goðafoss""                             -> ""고다포스""
    ""Halldór Ásgrímsson""                   -> ""할도르 아우스그림손""
    ""Björk Guðmundsdóttir""                 -> ""비외르크 그뷔드뮌스도티르""
    ""Arnaldur Indriðason""                  -> ""아르드날뒤르 인드리다손""
    ""Vík""                                  -> ""비크""
    ""Jón Páll Sigmarsson""                  -> ""욘 파우들 시그마르손""
    ""Thorkell Atlason""                     -> ""소르케들 아틀라손""
    ""Jóhannes Karl Gudjonsson""             -> ""요한네스 카르들 그뷔드욘손""
    ""Stefán Guðmundur Guðmundsson""         -> ""스테파운 그뷔드뮌뒤르 그뷔드뮌손""
    ""Unnur Birna Vilhjálmsdóttir""          -> ""윈뉘르 비르드나 빌햐울름스도티르""
    ""Einar Örn Benediktsson""               -> ""에이나르 외르든 베네딕츠손""
    ""Keflavík""                             -> ""케플라비크""
    ""Ásmundur Sveinsson""                   -> ""아우스뮌뒤르 스베인손""
    ""Sigurður Helgason""                    -> ""시귀르뒤르 헬가손""
    ""Einar Hjörleifsson Kvaran""            -> ""에이나르 혜르들레이프손 크바란""
    ""Jón Loftsson""                         -> ""욘 로프츠손""
    ""Húsavík""                              -> ""후사비크""
    ""Kópavogur""                            -> ""코파보귀르""
    ""Garðar""                               -> ""가르다르""
    ""Helgi Valdimarsson""                   -> ""헬기 발디마르손""
    ""Þorgeirr Þorkelsson Ljósvetningagoði"" -> ""소르게이르 소르켈손 리오스베트닝가고디""
    ""Silvía Nótt""                          -> ""실비아 노트""
    ""Ragnheiður Gröndal""                   -> ""라근헤이뒤르 그뢴달""
    ""Hreiðar Már Sigurðsson""               -> ""흐레이다르 마우르 시귀르손""
    ""Emilíana Torrini Davíðsdóttir""        -> ""에밀리아나 토리니 다비스도티르""
    ""Ívar Ingimarsson""                     -> ""이바르 잉기마르손""
    ""Ólafsvík""                             -> ""올라프스비크""
    ""Reykjanes""                            -> ""레이캬네스""
    ""Eggert Pálsson""                       -> ""에게르트 파울손""
    ""Haukur Tómasson""                      -> ""회이퀴르 토마손""
    ""Tinna Gunnlaugsdóttir""                -> ""틴나 귄뢰익스도티르""
    ""Þórisvatn""                            -> ""소리스바튼""
    ""Agnar Helgason""                       -> ""아그나르 헬가손""
    ""Blöndós""                              -> ""블뢴도스""
    ""Sveinn Björnsson""                     -> ""스베이든 비외르든손""
    ""Vigdís Grímsdóttir""                   -> ""비그디스 그림스도티르""
    ""Markús Örn Antonsson""                 -> ""마르쿠스 외르든 안톤손""
    ""Kári Stefánsson""                      -> ""카우리 스테파운손""
    ""Freydís Eiríksdóttir""                 -> ""프레이디스 에이릭스도티르""
    ""Hannes Hafstein""                      -> ""한네스 하프스테인""
    ""Borganes""                             -> ""보르가네스""
    ""Siglufjörður""                         -> ""시글뤼피외르뒤르""
    ""Jón Kalman Stefánsson""                -> ""욘 칼만 스테파운손""
    ""Ragnar Bjarnason""                     -> ""라그나르 비아르드나손""
    ""Snorri Hjartarson""                    -> ""스노리 햐르타르손""
    ""Ingólfur Arnarson""                    -> ""잉골뷔르 아르드나르손""
    ""Björgólfur Guðmundsson""               -> ""비외르골뷔르 그뷔드뮌손""
    ""Vatnajökull""                          -> ""바트나예퀴들""
    ""Njarðvík""                             -> ""니아르드비크""
    ""Dalvík""                               -> ""달비크""
    ""Ásgeir Ásgeirsson""                    -> ""아우스게이르 아우스게이르손""
    ""Friðrik Þór Friðriksson""              -> ""프리드리크 소르 프리드릭손""
    ""Surtsey""                              -> ""쉬르트세이""
    ""Ásgeir Helgason""                      -> ""아우스게이르 헬가손""
    ""Jón Ásgeir Jóhannesson""               -> ""욘 아우스게이르 요한네손""
    ""Vilhjálmur Stefánsson""                -> ""빌햐울뮈르 스테파운손""
    ""Jón Leifs""                            -> ""욘 레이프스""
    ""Halldór Kiljan Laxness""               -> ""할도르 킬리안 락스네스""
    ""Jón Thoroddsen""                       -> ""욘 소로드센""
    ""Árni Sigfússon""                       -> ""아우르드니 시그푸손""
    ""Þórarinn Eldjárn""                     -> ""소라린 엘디아우르든""
    ""Magnús Magnússon""                     -> ""마그누스 마그누손""
"%bstr.

Definition src_isl_3 : bstr := "    ""Hvammstangi""                          -> ""크밤스타웅기""
    ""Kristín Marja Baldursdóttir""          -> ""크리스틴 마리아 발뒤르스도티르""
    ""Þingvellir""                           -> ""싱그베들리르""
    ""Margrét Vilhjálmsdóttir""              -> ""마르그리에트 빌햐울름스도티르""
    ""Baltasar Kormákur""                    -> ""발타사르 코르마우퀴르""
    ""Akranes""                              -> ""아크라네스""
    ""Langjökull""                           -> ""라웅그예퀴들""
    ""Þorfinnur Karlsefni""                  -> ""소르핀뉘르 카르들세프니""
    ""Þorvaldur Eiríksson""                  -> ""소르발뒤르 에이릭손""
    ""Loftur Sæmundsson""                    -> ""로프튀르 사이뮌손""
    ""Borgafjörður""                         -> ""보르가피외르뒤르""
    ""Eiríkur Hauksson""                     -> ""에이리퀴르 회익손""
    ""Skjálfandafljót""                      -> ""스캬울반다플리오트""
    ""Albert Guðmundsson""                   -> ""알베르트 그뷔드뮌손""
    ""Ísleifur Gissurarson""                 -> ""이슬레이뷔르 기쉬라르손""
    ""Friðrik Ólafsson""                     -> ""프리드리크 올라프손""
    ""Gísli Örn Garðarsson""                 -> ""기슬리 외르든 가르다르손""
    ""Jóhannes úr Kötlum""                   -> ""요한네스 우르 쾨틀륌""
    ""Sjón""                                 -> ""숀""
    ""Vigdís Finnbogadóttir""                -> ""비그디스 핀보가도티르""
    ""Halldór Blöndal""                      -> ""할도르 블뢴달""
    ""Ólafsfjörður""                         -> ""올라프스피외르뒤르""
    ""Kristján Eldjárn""                     -> ""크리스티아운 엘디아우르든""
    ""Stykkishólmur""                        -> ""스티키스홀뮈르""
    ""Nína Dögg Filippusdóttir""             -> ""니나 되그 필리퓌스도티르""
    ""Hannes Hólmsteinn Gissurarson""        -> ""한네스 홀름스테이든 기쉬라르손""
    ""Margrét Hermanns Auðardóttir""         -> ""마르그리에트 헤르만스 외이다르도티르""
    ""Djúpivogur""                           -> ""디우피보귀르""
    ""Sigurður Nordal""                      -> ""시귀르뒤르 노르달""
    ""Hofsjökull""                           -> ""호프스예퀴들""
    ""Guðmundur Arason""                     -> ""그뷔드뮌뒤르 아라손""
    ""Ólafur Egill Ólafsson""                -> ""올라뷔르 에이이들 올라프손""
    ""Hafdís Huld""                          -> ""하프디스 휠드""
    ""Leifur Eiríksson""                     -> ""레이뷔르 에이릭손""
    ""Grímsey""                              -> ""그림세이""
    ""Björn Hlynur Haraldsson""              -> ""비외르든 흘리뉘르 하랄손""
    ""Einar Benediktsson""                   -> ""에이나르 베네딕츠손""
    ""Selfoss""                              -> ""셀포스""
    ""Ágústa Eva Erlendsdóttir""             -> ""아우구스타 에바 에를렌스도티르""
    ""Árni Magnússon""                       -> ""아우르드니 마그누손""
    ""Björgólfur Thor Björgólfsson""         -> ""비외르골뷔르 소르 비외르골프손""
    ""Steinunn Sigurðardóttir""              -> ""스테이뉜 시귀르다르도티르""
    ""Raufarhöfn""                           -> ""뢰이바르회픈""
    ""Höfn í Hornafirði""                    -> ""회픈 이 호르드나피르디""
    ""Ólafur Jóhann Ólafsson""               -> ""올라뷔르 요한 올라프손""
    ""Magnús Ver Magnússon""                 -> ""마그누스 베르 마그누손""
    ""Vilhjálmur Árnason""                   -> ""빌햐울뮈르 아우르드나손""
    ""Hallgrímur Helgason""                  -> ""하들그리뮈르 헬가손""
    ""Heiðar Helguson""                      -> ""헤이다르 헬귀손""
    ""Hilmir Snær Guðnason""                 -> ""힐미르 스나이르 그뷔드나손""
    ""Björn Bjarnason""                      -> ""비외르든 비아르드나손""
    ""Davíð Oddsson""                        -> ""다비드 오드손""
    ""Jón Baldvin Hannibalsson""             -> ""욘 발드빈 한니발손""
    ""Mugison""                              -> ""뮈이이손""
    ""Akureyri""                             -> ""아퀴레이리""
    ""Mývatn""                               -> ""미바튼""
    ""Hólmavík""                             -> ""홀마비크""
    ""Einar Jónsson""                        -> ""에이나르 욘손""
    ""Bolungarvík""                          -> ""볼룽가르비크""
    ""Lagarfljólt""                          -> ""라가르플리올트""
    ""Mýrdalsjökull""                        -> ""미르달스예퀴들""
    ""Þorsteinn Pálsson""                    -> ""소르스테이든 파울손""
    ""Ragnar Bragason""                      -> ""라그나르 브라가손""
    ""Magnús Þorsteinsson""                  -> ""마그누스 소르스테인손""
    ""Þórbergur Þórðarson""                  -> ""소르베르귀르 소르다르손""
    ""Egilsstaðir""                          -> ""에이일스타디르""
    ""Grindavík""                            -> ""그린다비크""
    ""Hrafn Gunnlaugsson""                   -> ""흐라픈 귄뢰익손""
    ""Páll Skúlason""                        -> ""파우들 스쿨라손""
    ""Jón Sigurðsson""                       -> ""욘 시귀르손""
    ""Sauðárkrókur""                         -> ""쇠이다우르크로퀴르""
    ""Örvar Þóreyjarson Smárason""           -> ""외르바르 소레이야르손 스마우라손""
    ""Sigurður Þórarinsson""                 -> ""시귀르뒤르 소라린손""
    ""Jónas Hallgrímsson""                   -> ""요나스 하들그림손""
    ""Hilmar Örn Hilmarsson""                -> ""힐마르 외르든 힐마르손""
    ""Þóra Magnúsdóttir""                    -> ""소라 마그누스도티르""
    ""Vopnafjörður""                         -> ""보프나피외르뒤르""
    ""Ólafur Ragnar Grímsson""               -> ""올라뷔르 라그나르 그림손""
    ""Linda Pétursdóttir""                   -> ""린다 피에튀르스도티르""
    ""Vala Flosadottir""                     -> ""발라 플로사도티르""
    ""Jóhanna Sigurðardóttir""               -> ""요한나 시귀르다르도티르""
    ""Hvíta""                                -> ""크비타""
    ""Reykjavík""                            -> ""레이캬비크""
    ""Hólmfríður Karlsdóttir""               -> ""홀름프리뒤르 카르들스도티르""
    ""Guðríður Þorbjarnardóttir""            -> ""그뷔드리뒤르 소르비아르드나르도티르""
    ""Einar Hákonarson""                     -> ""에이나르 하우코나르손""
    ""Þórshöfn""                             -> ""소르스회픈""
    ""Björgvin Halldórsson""                 -> ""비외르그빈 할도르손""
    ""Snorri Sturluson""                     -> ""스노리 스튀르들뤼손""

"%bstr.

Definition src_isl : list bstr := [src_isl_1; src_isl_2; src_isl_3].

Definition src_ita_1 : bstr := "lang:
    id      = ""ita""
    codes   = ""it"", ""ita""
    english = ""Italian""
    korean  = ""이탈리아어""
    script  = ""Latn""

config:
    author = ""Brian Jongseong Park <iceager@gmail.com>""
    stage  = ""draft""

macros:
    ""@"" = ""<vowels>""

vars:
    ""vowels"" = ""a"", ""e"", ""i"", ""o"", ""u""

rewrite:
    ""'""             -> """"
    ""^gli$""         -> ""li""
    ""^glia$""        -> ""g{}lia""
    ""^glioma$""      -> ""g{}lioma""
    ""^gli{@}""       -> ""li""
    ""{@}gli""        -> ""li""
    ""gn{@}""         -> ""nJ""
    ""gn""            -> ""n""
    ""gg""            -> ""g""
    ""gi{a|o|u}""     -> ""G""
    ""g{e|i}""        -> ""G""
    ""ss""            -> ""s""
    ""sce""           -> ""sJe""
    ""sci""           -> ""si""
    ""cc""            -> ""c""
    ""ci{a|o|u}""     -> ""z""
    ""c{e|i}""        -> ""z""
    ""c""             -> ""k""
    ""qq""            -> ""q""
    ""quo""           -> ""kuo""
    ""qu{a|e|i}""     -> ""kW""
    ""quy""           -> ""kWi""
    ""q""             -> ""k""
    ""xx""            -> ""x""
    ""x""             -> ""ks""
    ""tt""            -> ""t""
    ""ts""            -> ""z""
    ""w""             -> ""v""
    ""aa""            -> ""a""
    ""bb""            -> ""b""
    ""dd""            -> ""d""
    ""ee""            -> ""e""
    ""ff""            -> ""f""
    ""hh""            -> ""h""
    ""{@}h{@}""       -> ""{}""
    ""h""             -> """"
    ""ii""            -> ""i""
    ""jj""            -> ""j""
    ""^j{@}""         -> ""J""
    ""{@}j{@}""       -> ""J""
    ""j""             -> ""i""
    ""kk""            -> ""k""
    ""ll""            -> ""l""
    ""{@}mm{@}""      -> ""m,m""
    ""mm""            -> ""m""
    ""{@}nn{@}""      -> ""n,n""
    ""nn""            -> ""n""
    ""oo""            -> ""o""
    ""pp""            -> ""p""
    ""rr""            -> ""r""
    ""tt""            -> ""t""
    ""uu""            -> ""u""
    ""vv""            -> ""v""
    ""^y{@}""         -> ""J""
    ""yy""            -> ""y""
    ""y""             -> ""i""
    ""zz""            -> ""z""
    ""{@}k{p|s|t|z}"" -> ""k,""
    ""{@}p{k|s|t|z}"" -> ""p,""
    ""^l""            -> ""l;""
    ""^m""            -> ""m;""
    ""^n""            -> ""n;""
    ""l$""            -> ""l,""
    ""m$""            -> ""m,""
    ""n$""            -> ""n,""
    ""l{@|m,|n,}""    -> ""l;""
    ""{,}l""          -> ""l;""
    ""m{@}""          -> ""m;""
    ""n{@|J}""        -> ""n;""
    ""l""             -> ""l,""
    ""m""             -> ""m,""
    ""n""             -> ""n,""
    "",,""            -> "",""
    "",;""            -> """"
    "",l,""           -> ""l,""
    "",m,""           -> ""m,""
    "",n,""           -> ""n,""
    ""l{mn}""         -> ""l,""
    "";""             -> """"

transcribe:
    ""b""    -> ""ㅂ""
    ""d""    -> ""ㄷ""
    ""f""    -> ""ㅍ""
    ""g""    -> ""ㄱ""
    ""G""    -> ""ㅈ""
    ""k,""   -> ""-ㄱ""
    ""k""    -> ""ㅋ""
    ""^l""   -> ""ㄹ""
    ""{,}l"" -> ""ㄹ""
    ""l,""   -> ""-ㄹ""
    ""l""    -> ""-ㄹㄹ""
    ""m,""   -> ""-ㅁ""
    ""m""    -> ""ㅁ""
    ""n,""   -> ""-ㄴ""
    ""n""    -> ""ㄴ""
    ""p,""   -> ""-ㅂ""
    ""p""    -> ""ㅍ""
    ""r""    -> ""ㄹ""
    ""s""    -> ""ㅅ""
    ""t""    -> ""ㅌ""
    ""v""    -> ""ㅂ""
    ""z""    -> ""ㅊ""
    ""Ja""   -> ""ㅑ""
    ""Je""   -> ""ㅖ""
    ""Ji""   -> ""ㅣ""
    ""Jo""   -> ""ㅛ""
    ""Ju""   -> ""ㅠ""
    ""Wa""   -> ""ㅘ""
    ""We""   -> ""ㅞ""
    ""Wi""   -> ""ㅟ""
    ""a""    -> ""ㅏ""
    ""e""    -> ""ㅔ""
    ""i""    -> ""ㅣ""
    ""o""    -> ""ㅗ""
    ""u""    -> ""ㅜ""

test:
    ""allegretto""              -> ""알레그레토""
    ""gita""                    -> ""지타""
    ""bisnonno""                -> ""비스논노""
    ""Pinocchio""               -> ""피노키오""
    ""Bologna""                 -> ""볼로냐""
    ""Torino""                  -> ""토리노""
    ""sol""                     -> ""솔""
    ""carro""                   -> ""카로""
    ""poetica""                 -> ""포에티카""
    ""Vivace""                  -> ""비바체""
    ""uva""                     -> ""우바""
    ""rosso""                   -> ""로소""
    ""micio""                   -> ""미초""
    ""Anna""                    -> ""안나""
    ""mezzo""                   -> ""메초""
    ""gomma""                   -> ""곰마""
    ""quello""                  -> ""퀠로""
    ""Firenze""                 -> ""피렌체""
    ""palco""                   -> ""팔코""
    ""italia""                  -> ""이탈리아""
    ""soqquadro""               -> ""소콰드로""
    ""Caravaggio""              -> ""카라바조""
    ""per l'avvenire d'Italia"" -> ""페르 라베니레 디탈리아""
    ""capra""                   -> ""카프라""
    ""Como""                    -> ""코모""
    ""erta""                    -> ""에르타""
    ""quando""                  -> ""콴도""
    ""Fognini""                 -> ""포니니""
    ""Milano""                  -> ""밀라노""
    ""Dante""                   -> ""단테""
    ""genere""                  -> ""제네레""
    ""Pisa""                    -> ""피사""
    ""gnocco""                  -> ""뇨코""
    ""Fabrizio""                -> ""파브리치오""
    ""Tosca""                   -> ""토스카""
    ""polca""                   -> ""폴카""
    ""Juventus""                -> ""유벤투스""
    ""Roma""                    -> ""로마""
    ""Giro d'Italia""           -> ""지로 디탈리아""
    ""cherubino""               -> ""케루비노""
    ""prima""                   -> ""프리마""
    ""freddo""                  -> ""프레도""
    ""gnu""                     -> ""뉴""
    ""Innocenti""               -> ""인노첸티""
    ""oh""                      -> ""오""
    ""glossa""                  -> ""글로사""
    ""nozze""                   -> ""노체""
    ""gneiss""                  -> ""녜이스""
    ""oblio""                   -> ""오블리오""
    ""hanno""                   -> ""안노""
    ""caccia""                  -> ""카차""
    ""Carlo""                   -> ""카를로""
    ""gloria""                  -> ""글로리아""
    ""crescendo""               -> ""크레셴도""
    ""Rex""                     -> ""렉스""
    ""sbozzacchisce""           -> ""스보차키셰""
    ""bravo""                   -> ""브라보""
    ""tranne""                  -> ""트란네""
    ""paglia""                  -> ""팔리아""
    ""padrone""                 -> ""파드로네""
    ""manovra""                 -> ""마노브라""
    ""buffa""                   -> ""부파""
    ""infamia""                 -> ""인파미아""
    ""Campanella""              -> ""캄파넬라""
    ""manica""                  -> ""마니카""
    ""ogni""                    -> ""오니""
    ""drizza""                  -> ""드리차""
    ""Scalenghe""               -> ""스칼렌게""
    ""nephos""                  -> ""네포스""
    ""spuma""                   -> ""스푸마""
    ""cenere""                  -> ""체네레""
    ""egli""                    -> ""엘리""
    ""asma""                    -> ""아스마""
    ""Galileo""                 -> ""갈릴레오""
    ""queto""                   -> ""퀘토""
    ""Marconi""                 -> ""마르코니""
    ""Cerigotto""               -> ""체리고토""
    ""mancanza""                -> ""만칸차""
    ""Puccini""                 -> ""푸치니""
    ""credo""                   -> ""크레도""
    ""montagna""                -> ""몬타냐""
    ""sasso""                   -> ""사소""
    ""quota""                   -> ""쿠오타""
    ""Anghiari""                -> ""안기아리""
    ""quieto""                  -> ""퀴에토""
    ""scivolo""                 -> ""시볼로""
    ""Ignazio""                 -> ""이냐치오""
    ""Macchiavelli""            -> ""마키아벨리""
    ""largo""                   -> ""라르고""
    ""cima""                    -> ""치마""
    ""Sorrento""                -> ""소렌토""
    ""Sicilia""                 -> ""시칠리아""
    ""Genova""                  -> ""제노바""
    ""abituro""                 -> ""아비투로""
    ""Schiavonia""              -> ""스키아보니아""
    ""divertimento""            -> ""디베르티멘토""
    ""mamma""                   -> ""맘마""
    ""scudo""                   -> ""스쿠도""
    ""Nero""                    -> ""네로""
    ""Fogli""                   -> ""폴리""

    # Adopted Loanwords
    ""tiramisù""    -> ""티라미수""
    ""pizza""       -> ""피차""
    ""spaghetti""   -> ""스파게티""
    ""pasta""       -> ""파스타""
    ""nutella""     -> ""누텔라""
    ""vongole""     -> ""본골레""
"%bstr.

Definition src_ita_2 : bstr := "    ""gelato""      -> ""젤라토""
    ""maccheroni""  -> ""마케로니""
    ""dólce""       -> ""돌체""
    ""ciabatta""    -> ""차바타""
    ""Salami""      -> ""살라미""
    ""broccoli""    -> ""브로콜리""
    ""Gnocchi""     -> ""뇨키""
    ""bruschetta""  -> ""브루스케타""
    ""gorgonzola""  -> ""고르곤촐라""
    ""mozzarella""  -> ""모차렐라""
    ""mascarpone""  -> ""마스카르포네""
    ""carbonara""   -> ""카르보나라""
    ""ricotta""     -> ""리코타""
    ""macchiato""   -> ""마키아토""
    ""affogato""    -> ""아포가토""
    ""caffè latte"" -> ""카페 라테""
    ""cappuccino""  -> ""카푸치노""
    ""espresso""    -> ""에스프레소""
    ""barista""     -> ""바리스타""
    ""cantata""     -> ""칸타타""
    ""madonna""     -> ""마돈나""
    ""Prima Donna"" -> ""프리마 돈나""
    ""bolero""      -> ""볼레로""
    ""da capo""     -> ""다 카포""
    ""ocarina""     -> ""오카리나""
    ""piccolo""     -> ""피콜로""
    ""bravo""       -> ""브라보""
    ""a cappella""  -> ""아 카펠라""
    ""Fuga""        -> ""푸가""
    ""Aria""        -> ""아리아""
    ""soprano""     -> ""소프라노""
    ""alto""        -> ""알토""
    ""Maestro""     -> ""마에스트로""
    ""cantabile""   -> ""칸타빌레""
    ""forte""       -> ""포르테""
    ""piano""       -> ""피아노""
    ""fortissimo""  -> ""포르티시모""
    ""pianissimo""  -> ""피아니시모""
    ""staccato""    -> ""스타카토""
    ""diminuendo""  -> ""디미누엔도""
    ""andante""     -> ""안단테""
    ""andantino""   -> ""안단티노""
    ""moderato""    -> ""모데라토""
    ""allegreto""   -> ""알레그레토""
    ""allegro""     -> ""알레그로""
    ""vivace""      -> ""비바체""
    ""biennale""    -> ""비엔날레""
    ""torso""       -> ""토르소""
    ""graffiti""    -> ""그라피티""
    ""terra cotta"" -> ""테라 코타""
    ""fresco""      -> ""프레스코""
    ""libero""      -> ""리베로""
    ""ballerina""   -> ""발레리나""
    ""ballerino""   -> ""발레리노""
    ""paparazzi""   -> ""파파라치""
    ""terra rossa"" -> ""테라 로사""
    ""mafia""       -> ""마피아""
    ""Amore""       -> ""아모레""
    ""Tosca""       -> ""토스카""
    ""prèsto""      -> ""프레스토""
    ""la vita""     -> ""라 비타""
"%bstr.

Definition src_ita : list bstr := [src_ita_1; src_ita_2].

Definition src_jpn_1 : bstr := "lang:
    id       = ""jpn""
    codes    = ""ja"", ""jpn""
    english  = ""Japanese""
    korean   = ""일본어""
    script   = ""Hrkt""
    translit = ""furigana""

config:
    author = ""Heungsub Lee <heungsub@subl.ee>""
    stage  = ""draft""

rewrite:
    ""ー"" -> """"
    ""・"" -> ""{}""

    ""ァ"" -> ""'a""
    ""ィ"" -> ""'i""
    ""ゥ"" -> ""'u""
    ""ェ"" -> ""'e""
    ""ォ"" -> ""'o""

    ""ウ'"" -> ""w""
    ""フ'"" -> ""f""
    ""ブ'"" -> ""v""

    ""ア"" -> ""a""
    ""イ"" -> ""i""
    ""ウ"" -> ""u""
    ""エ"" -> ""e""
    ""オ"" -> ""o""

    ""カ"" -> ""ka""
    ""キ"" -> ""ki""
    ""ク"" -> ""ku""
    ""ケ"" -> ""ke""
    ""コ"" -> ""ko""

    ""ガ"" -> ""ga""
    ""ギ"" -> ""gi""
    ""グ"" -> ""gu""
    ""ゲ"" -> ""ge""
    ""ゴ"" -> ""go""

    ""サ"" -> ""sa""
    ""シ"" -> ""si""
    ""ス"" -> ""su""
    ""セ"" -> ""se""
    ""ソ"" -> ""so""

    ""ザ"" -> ""za""
    ""ジ"" -> ""zi""
    ""ズ"" -> ""zu""
    ""ゼ"" -> ""ze""
    ""ゾ"" -> ""zo""

    ""タ"" -> ""ta""
    ""チ"" -> ""ci""
    ""ツ"" -> ""cu""
    ""テ"" -> ""te""
    ""ト"" -> ""to""

    ""ダ"" -> ""da""
    ""ヂ"" -> ""zi""
    ""ヅ"" -> ""zu""
    ""デ"" -> ""de""
    ""ド"" -> ""do""

    ""ナ"" -> ""na""
    ""ニ"" -> ""ni""
    ""ヌ"" -> ""nu""
    ""ネ"" -> ""ne""
    ""ノ"" -> ""no""

    ""ハ"" -> ""ha""
    ""ヒ"" -> ""hi""
    ""フ"" -> ""hu""
    ""ヘ"" -> ""he""
    ""ホ"" -> ""ho""

    ""バ"" -> ""ba""
    ""ビ"" -> ""bi""
    ""ブ"" -> ""bu""
    ""ベ"" -> ""be""
    ""ボ"" -> ""bo""

    ""パ"" -> ""pa""
    ""ピ"" -> ""pi""
    ""プ"" -> ""pu""
    ""ペ"" -> ""pe""
    ""ポ"" -> ""po""

    ""マ"" -> ""ma""
    ""ミ"" -> ""mi""
    ""ム"" -> ""mu""
    ""メ"" -> ""me""
    ""モ"" -> ""mo""

    ""ヤ"" -> ""ya""
    ""ユ"" -> ""yu""
    ""ヨ"" -> ""yo""

    ""ャ"" -> ""ja""
    ""ュ"" -> ""ju""
    ""ョ"" -> ""jo""

    ""ラ"" -> ""la""
    ""リ"" -> ""li""
    ""ル"" -> ""lu""
    ""レ"" -> ""le""
    ""ロ"" -> ""lo""

    ""ワ"" -> ""wa""
    ""ヰ"" -> ""i""
    ""ヱ"" -> ""e""
    ""ヲ"" -> ""o""

    ""ン"" -> ""N""
    ""ッ"" -> ""T""
    ""ヴ"" -> ""b""

    # Plosive at Beginning
    ""^k""      -> ""g""
    ""^t""      -> ""d""
    ""^c{a|i}"" -> ""z""

    # Small Vowels
    ""{t|d}o'u"" -> ""u""
    ""o'u""      -> ""o""
    ""u'o""      -> ""o""
    ""i'e""      -> ""je""
    ""(u|e)'i""  -> ""i""

    # Diphthong after ""ㅈ"" and ""ㅊ""
    ""{c|z}ija"" -> ""a""
    ""{c|z}ijo"" -> ""o""

transcribe:
    ""{c|z}iju"" -> ""ㅜ""

    ""cu"" -> ""쓰""
    ""wa"" -> ""ㅘ""

    ""{s|z}u"" -> ""ㅡ""
    ""{s}je""  -> ""ㅖ""

    ""k"" -> ""ㅋ""
    ""g"" -> ""ㄱ""
    ""s"" -> ""ㅅ""
    ""z"" -> ""ㅈ""
    ""t"" -> ""ㅌ""
    ""c"" -> ""ㅊ""
    ""d"" -> ""ㄷ""
    ""n"" -> ""ㄴ""
    ""h"" -> ""ㅎ""
    ""b"" -> ""ㅂ""
    ""v"" -> ""ㅂ""
    ""p"" -> ""ㅍ""
    ""f"" -> ""ㅍ""
    ""m"" -> ""ㅁ""
    ""l"" -> ""ㄹ""

    ""ya"" -> ""야""
    ""yu"" -> ""유""
    ""yo"" -> ""요""

    ""ija"" -> ""ㅑ""
    ""iju"" -> ""ㅠ""
    ""ijo"" -> ""ㅛ""

    ""wa"" -> ""ㅘ""
    ""wi"" -> ""ㅟ""
    ""we"" -> ""ㅞ""
    ""wo"" -> ""ㅝ""

    ""a"" -> ""ㅏ""
    ""i"" -> ""ㅣ""
    ""u"" -> ""ㅜ""
    ""e"" -> ""ㅔ""
    ""o"" -> ""ㅗ""

    ""N"" -> ""-ㄴ""
    ""T"" -> ""-ㅅ""

test:
    # Person names
    ""木村拓哉""    -> ""기무라 다쿠야""
    ""新海誠""      -> ""신카이 마코토""
    ""鈴木大地""    -> ""스즈키 다이치""
    ""加藤勝信""    -> ""가토 가쓰노부""
    ""山本幸三""    -> ""야마모토 고조""
    ""今村雅弘""    -> ""이마무라 마사히로""
    ""宮本茂""      -> ""미야모토 시게루""
    ""こうだ くみ"" -> ""고다 구미""
    ""田中雪男""    -> ""다나카 유키오""

    # Ambiguous person names
    ""妹尾あいこ"" -> ""세노오 아이코""
    ""上条当麻""   -> ""가미조 도마""
    ""小泉純一郎"" -> ""고이즈미 준이치로""
    ""東條希""     -> ""도조 노조미""
    ""遠藤正明""   -> ""엔도 마사아키""
    ""是枝裕和""   -> ""고레에다 히로카즈""
    ""井上敏樹""   -> ""이노우에 도시키""
    ""麻生太郎""   -> ""아소 다로""

    # Place names
    ""東京""   -> ""도쿄""
    ""九州""   -> ""규슈""
    ""新潟""   -> ""니가타""
    ""大阪""   -> ""오사카""
    ""秋葉原"" -> ""아키하바라""
    ""北海道"" -> ""홋카이도""
    ""京都""   -> ""교토""
    ""神戸""   -> ""고베""
    ""姫路""   -> ""히메지""
    ""嵐山""   -> ""아라시야마""
    ""西表""   -> ""이리오모테""
    ""渋谷""   -> ""시부야""
    ""東北""   -> ""도호쿠""

    # Place names with ""ヶ""
    ""自由ヶ丘"" -> ""지유가오카""
    ""鳩ヶ谷""   -> ""하토가야""
    ""茅ヶ崎""   -> ""지가사키""
    ""関ヶ原""   -> ""세키가하라""

    # Companies
    ""兼松""             -> ""가네마쓰""
    ""カルビー""         -> ""가루비""
    ""京セラ""           -> ""교세라""
    ""九州おぎはら産業"" -> ""규슈오기하라산교""
    ""任天堂""           -> ""닌텐도""
    ""日産""             -> ""닛산""
    ""ダイソー""         -> ""다이소""
    ""東芝""             -> ""도시바""
    ""三菱""             -> ""미쓰비시""
    ""三洋""             -> ""산요""
    ""セガ""             -> ""세가""
    ""ソニー""           -> ""소니""
    ""日立""             -> ""히타치""
    ""スタジオジブリ""   -> ""스타지오지부리""

    # Dishes
    ""寿司""     -> ""스시""
    ""丼""       -> ""돈부리""
    ""麺類""     -> ""멘루이""
    ""刺身""     -> ""사시미""
    ""山葵""     -> ""와사비""
    ""焼き蕎麦"" -> ""야키소바""
    ""たこやき"" -> ""다코야키""

    # Movie, animation, or game titles
    ""天空の城ラピュタ""         -> ""덴쿠노시로라퓨타""
    ""風の谷のナウシカ""         -> ""가제노타니노나우시카""
    ""新世紀エヴァンゲリオン""   -> ""신세이키에반게리온""
    ""嫌われ松子の一生""         -> ""기라와레마쓰코노잇쇼""
    ""世界の中心で、愛をさけぶ"" -> ""세카이노추신데, 아이오사케부""
    ""いま、会いにゆきます""     -> ""이마, 아이니유키마스""
    ""スレイヤーズ""             -> ""스레이야즈""
    ""美少女戦士セーラームーン"" -> ""비쇼조센시세라문""
    ""ポケットモンスター""       -> ""포켓토몬스타""
    ""デジタルモンスター""       -> ""데지타루몬스타""
    ""魔女の宅急便""             -> ""마조노탓큐빈""
    ""神秘の世界エルハザード""   -> ""신피노세카이에루하자도""
    ""天地無用""                 -> ""덴치무요""
    ""ああっ女神さまっ""         -> ""아앗메가미사맛""
    ""ハウルの動く城""           -> ""하우루노우고쿠시로""
    ""言の葉の庭""               -> ""고토노하노니와""
    ""魔界戦記ディスガイア""     -> ""마카이센키디스가이아""
    ""スーパーマリオ""           -> ""스파마리오""
    ""犬夜叉""                   -> ""이누야샤""
    ""君の名は。""               -> ""기미노나하.""
    ""歴史への招待""             -> ""레키시헤노쇼타이""
    ""温泉へ行こう!""            -> ""온센헤이코!""

    # Loanwords
    ""パソコン""     -> ""파소콘""
    ""トイレット""   -> ""도이렛토""
    ""バス""         -> ""바스""
    ""タクシー""     -> ""다쿠시""
    ""キーボード""   -> ""기보도""
    ""マクドナルド"" -> ""마쿠도나루도""

    # Loanwords with small Katakana letters
    ""ディーブイディー"" -> ""디부이디""

    # Loanwords with ""ヴ""
    ""ヴァイオリン"" -> ""바이오린""
    ""ヴナロード""   -> ""브나로도""
    ""ニヴヒ""       -> ""니브히""
    ""ネゲヴ""       -> ""네게브""
    ""モルジヴ""     -> ""모루지브""
    ""テルアヴィヴヤッフォ"" -> ""데루아비브얏포""

    # Iteration mark for Kanji
    ""時々""   -> ""도키도키""
    ""人々""   -> ""히토비토""
    ""山々""   -> ""야마야마""
    ""個々""   -> ""고코""
    ""翌々日"" -> ""요쿠요쿠지쓰""
    ""代々木"" -> ""요요기""

    # Iteration mark for Kana
    ""さゝき"" -> ""사사키""
    ""いすゞ"" -> ""이스즈""
    ""バナヽ"" -> ""바나나""
    ""いすゞ自動車"" -> ""이스즈지도샤""

    # Long vowels
    ""いいえ"" -> ""이에""

    # Ambiguous linked short vowels
    ""かわいい"" -> ""가와이이""
    ""思う""     -> ""오모우""
    ""縫う""     -> ""누우""
    ""聞いて""   -> ""기이테""

    # Sentences with an auxiliary verb
"%bstr.

Definition src_jpn_2 : bstr := "    # https://www.kokugobunpou.com/助動詞/
    ""青森は寒かろう""   -> ""아오모리하사무카로""
    ""ごはんを食べよう"" -> ""고한오타베요""
    ""きれいだろう""     -> ""기레이다로""
    ""起きよう""         -> ""오키요""
    ""話さなかろう""     -> ""하나사나카로""
    ""起きさせよう""     -> ""오키사세요""
    ""本物らしい""       -> ""혼모노라시""

    # Pokemon
    ""アーボ""     -> ""아보""
    ""ピカチュウ"" -> ""피카추""
    ""ライチュウ"" -> ""라이추""
    ""プリン""     -> ""푸린""
    ""パラス""     -> ""파라스""
    ""ディグダ""   -> ""디구다""
    ""ガーディ""   -> ""가디""
    ""ケーシィ""   -> ""게시""
    ""ヤドン""     -> ""야돈""
    ""ヤドラン""   -> ""야도란""
    ""ゴース""     -> ""고스""
    ""ゴースト""   -> ""고스토""
    ""ルージュラ"" -> ""루주라""
    ""ラプラス""   -> ""라푸라스""
    ""メタモン""   -> ""메타몬""
    ""イーブイ""   -> ""이부이""
    ""プテラ""     -> ""푸테라""
    ""ミュウ""     -> ""뮤""
"%bstr.

Definition src_jpn : list bstr := [src_jpn_1; src_jpn_2].

