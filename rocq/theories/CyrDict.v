(** translit/cyrillic/dict.json: the member tocyrillic of every country, in the order
    of the file. Generated by tools/gen_cyrillic.py. *)
From Coq Require Import String.
From Verif Require Import GoBase.

Definition cyr_sr : list (bytes * bytes) := [
  (lit "A", lit "А");
  (lit "a", lit "а");
  (lit "B", lit "Б");
  (lit "b", lit "б");
  (lit "V", lit "В");
  (lit "v", lit "в");
  (lit "G", lit "Г");
  (lit "g", lit "г");
  (lit "D", lit "Д");
  (lit "d", lit "д");
  (lit "Đ", lit "Ђ");
  (lit "đ", lit "ђ");
  (lit "E", lit "Е");
  (lit "e", lit "е");
  (lit "Ž", lit "Ж");
  (lit "ž", lit "ж");
  (lit "Z", lit "З");
  (lit "z", lit "з");
  (lit "I", lit "И");
  (lit "i", lit "и");
  (lit "J", lit "Ј");
  (lit "j", lit "ј");
  (lit "K", lit "К");
  (lit "k", lit "к");
  (lit "L", lit "Л");
  (lit "l", lit "л");
  (lit "Lj", lit "Љ");
  (lit "lj", lit "љ");
  (lit "M", lit "М");
  (lit "m", lit "м");
  (lit "N", lit "Н");
  (lit "n", lit "н");
  (lit "Nj", lit "Њ");
  (lit "nj", lit "њ");
  (lit "O", lit "О");
  (lit "o", lit "о");
  (lit "P", lit "П");
  (lit "p", lit "п");
  (lit "R", lit "Р");
  (lit "r", lit "р");
  (lit "S", lit "С");
  (lit "s", lit "с");
  (lit "T", lit "Т");
  (lit "t", lit "т");
  (lit "Ć", lit "Ћ");
  (lit "ć", lit "ћ");
  (lit "U", lit "У");
  (lit "u", lit "у");
  (lit "F", lit "Ф");
  (lit "f", lit "ф");
  (lit "H", lit "Х");
  (lit "h", lit "х");
  (lit "C", lit "Ц");
  (lit "c", lit "ц");
  (lit "Č", lit "Ч");
  (lit "č", lit "ч");
  (lit "Dž", lit "Џ");
  (lit "dž", lit "џ");
  (lit "Š", lit "Ш");
  (lit "š", lit "ш")
].
Definition cyr_me : list (bytes * bytes) := [
  (lit "A", lit "А");
  (lit "a", lit "а");
  (lit "B", lit "Б");
  (lit "b", lit "б");
  (lit "V", lit "В");
  (lit "v", lit "в");
  (lit "G", lit "Г");
  (lit "g", lit "г");
  (lit "D", lit "Д");
  (lit "d", lit "д");
  (lit "Đ", lit "Ђ");
  (lit "đ", lit "ђ");
  (lit "E", lit "Е");
  (lit "e", lit "е");
  (lit "Ž", lit "Ж");
  (lit "ž", lit "ж");
  (lit "Z", lit "З");
  (lit "z", lit "з");
  (lit "I", lit "И");
  (lit "i", lit "и");
  (lit "J", lit "Ј");
  (lit "j", lit "ј");
  (lit "K", lit "К");
  (lit "k", lit "к");
  (lit "L", lit "Л");
  (lit "l", lit "л");
  (lit "Lj", lit "Љ");
  (lit "lj", lit "љ");
  (lit "M", lit "М");
  (lit "m", lit "м");
  (lit "N", lit "Н");
  (lit "n", lit "н");
  (lit "Nj", lit "Њ");
  (lit "nj", lit "њ");
  (lit "O", lit "О");
  (lit "o", lit "о");
  (lit "P", lit "П");
  (lit "p", lit "п");
  (lit "R", lit "Р");
  (lit "r", lit "р");
  (lit "S", lit "С");
  (lit "s", lit "с");
  (lit "T", lit "Т");
  (lit "t", lit "т");
  (lit "Ć", lit "Ћ");
  (lit "ć", lit "ћ");
  (lit "U", lit "У");
  (lit "u", lit "у");
  (lit "F", lit "Ф");
  (lit "f", lit "ф");
  (lit "H", lit "Х");
  (lit "h", lit "х");
  (lit "C", lit "Ц");
  (lit "c", lit "ц");
  (lit "Č", lit "Ч");
  (lit "č", lit "ч");
  (lit "Dž", lit "Џ");
  (lit "dž", lit "џ");
  (lit "Š", lit "Ш");
  (lit "š", lit "ш");
  (lit "Ś", lit "С́");
  (lit "ś", lit "с́");
  (lit "Ź", lit "З́");
  (lit "ź", lit "з́")
].
Definition cyr_mk : list (bytes * bytes) := [
  (lit "A", lit "А");
  (lit "a", lit "а");
  (lit "B", lit "Б");
  (lit "b", lit "б");
  (lit "V", lit "В");
  (lit "v", lit "в");
  (lit "G", lit "Г");
  (lit "g", lit "г");
  (lit "D", lit "Д");
  (lit "d", lit "д");
  (lit "E", lit "Е");
  (lit "e", lit "е");
  (lit "Ž", lit "Ж");
  (lit "ž", lit "ж");
  (lit "Z", lit "З");
  (lit "z", lit "з");
  (lit "I", lit "И");
  (lit "i", lit "и");
  (lit "J", lit "Ј");
  (lit "j", lit "ј");
  (lit "K", lit "К");
  (lit "k", lit "к");
  (lit "L", lit "Л");
  (lit "l", lit "л");
  (lit "Lj", lit "Љ");
  (lit "lj", lit "љ");
  (lit "M", lit "М");
  (lit "m", lit "м");
  (lit "N", lit "Н");
  (lit "n", lit "н");
  (lit "Nj", lit "Њ");
  (lit "nj", lit "њ");
  (lit "O", lit "О");
  (lit "o", lit "о");
  (lit "P", lit "П");
  (lit "p", lit "п");
  (lit "R", lit "Р");
  (lit "r", lit "р");
  (lit "S", lit "С");
  (lit "s", lit "с");
  (lit "T", lit "Т");
  (lit "t", lit "т");
  (lit "U", lit "У");
  (lit "u", lit "у");
  (lit "F", lit "Ф");
  (lit "f", lit "ф");
  (lit "H", lit "Х");
  (lit "h", lit "х");
  (lit "C", lit "Ц");
  (lit "c", lit "ц");
  (lit "Č", lit "Ч");
  (lit "č", lit "ч");
  (lit "Dž", lit "Џ");
  (lit "dž", lit "џ");
  (lit "Š", lit "Ш");
  (lit "š", lit "ш");
  (lit "Dz", lit "Ѕ");
  (lit "dz", lit "ѕ");
  (lit "Ǵ", lit "Ѓ");
  (lit "ǵ", lit "ѓ");
  (lit "Ḱ", lit "Ќ");
  (lit "ḱ", lit "ќ")
].
Definition cyr_ru : list (bytes * bytes) := [
  (lit "A", lit "А");
  (lit "a", lit "а");
  (lit "B", lit "Б");
  (lit "b", lit "б");
  (lit "V", lit "В");
  (lit "v", lit "в");
  (lit "G", lit "Г");
  (lit "g", lit "г");
  (lit "D", lit "Д");
  (lit "d", lit "д");
  (lit "E", lit "Е");
  (lit "e", lit "е");
  (lit "YO", lit "Ё");
  (lit "yo", lit "ё");
  (lit "ZH", lit "Ж");
  (lit "zh", lit "ж");
  (lit "Z", lit "З");
  (lit "z", lit "з");
  (lit "I", lit "И");
  (lit "i", lit "и");
  (lit "J", lit "Й");
  (lit "j", lit "й");
  (lit "K", lit "К");
  (lit "k", lit "к");
  (lit "L", lit "Л");
  (lit "l", lit "л");
  (lit "M", lit "М");
  (lit "m", lit "м");
  (lit "N", lit "Н");
  (lit "n", lit "н");
  (lit "O", lit "О");
  (lit "o", lit "о");
  (lit "P", lit "П");
  (lit "p", lit "п");
  (lit "R", lit "Р");
  (lit "r", lit "р");
  (lit "S", lit "С");
  (lit "s", lit "с");
  (lit "T", lit "Т");
  (lit "t", lit "т");
  (lit "U", lit "У");
  (lit "u", lit "у");
  (lit "F", lit "Ф");
  (lit "f", lit "ф");
  (lit "X", lit "Х");
  (lit "x", lit "х");
  (lit "CZ", lit "Ц");
  (lit "cz", lit "ц");
  (lit "CH", lit "Ч");
  (lit "ch", lit "ч");
  (lit "SH", lit "Ш");
  (lit "sh", lit "ш");
  (lit "SHH", lit "Щ");
  (lit "shh", lit "щ");
  (lit "''", lit "ъ");
  (lit "Y'", lit "ы");
  (lit "y'", lit "ы");
  (lit "'", lit "ь");
  (lit "E'", lit "Э");
  (lit "e'", lit "э");
  (lit "YU", lit "Ю");
  (lit "yu", lit "ю");
  (lit "YA", lit "Я");
  (lit "ya", lit "я");
  (lit "C", lit "К");
  (lit "c", lit "к");
  (lit "CK", lit "К");
  (lit "Ck", lit "К");
  (lit "ck", lit "к");
  (lit "JA", lit "ЖА");
  (lit "Ja", lit "Жа");
  (lit "ja", lit "жа");
  (lit "JE", lit "ЖЕ");
  (lit "Je", lit "Же");
  (lit "je", lit "же");
  (lit "JI", lit "ЖИ");
  (lit "Ji", lit "Жи");
  (lit "ji", lit "жи");
  (lit "JO", lit "ЖО");
  (lit "Jo", lit "Жо");
  (lit "jo", lit "жо");
  (lit "JU", lit "ЖУ");
  (lit "Ju", lit "Жу");
  (lit "ju", lit "жу");
  (lit "PH", lit "Ф");
  (lit "Ph", lit "Ф");
  (lit "ph", lit "ф");
  (lit "TH", lit "З");
  (lit "Th", lit "З");
  (lit "th", lit "з");
  (lit "W", lit "В");
  (lit "w", lit "в");
  (lit "Q", lit "К");
  (lit "q", lit "к");
  (lit "WH", lit "В");
  (lit "Wh", lit "В");
  (lit "wh", lit "в");
  (lit "Y", lit "И");
  (lit "y", lit "и");
  (lit "Ya", lit "я");
  (lit "YE", lit "Е");
  (lit "Ye", lit "е");
  (lit "ye", lit "е");
  (lit "YI", lit "И");
  (lit "Yi", lit "и");
  (lit "yi", lit "и");
  (lit "Yo", lit "ё");
  (lit "Yu", lit "ю");
  (lit "iy", lit "ый");
  (lit "ij", lit "ый")
].
Definition cyr_tj : list (bytes * bytes) := [
  (lit "A", lit "А");
  (lit "a", lit "а");
  (lit "B", lit "Б");
  (lit "b", lit "б");
  (lit "V", lit "В");
  (lit "v", lit "в");
  (lit "G", lit "Г");
  (lit "g", lit "г");
  (lit "D", lit "Д");
  (lit "d", lit "д");
  (lit "E", lit "Е");
  (lit "e", lit "е");
  (lit "Ë", lit "Ё");
  (lit "ë", lit "ё");
  (lit "Ž", lit "Ж");
  (lit "ž", lit "ж");
  (lit "Z", lit "З");
  (lit "z", lit "з");
  (lit "I", lit "И");
  (lit "i", lit "и");
  (lit "J", lit "Й");
  (lit "j", lit "й");
  (lit "K", lit "К");
  (lit "k", lit "к");
  (lit "L", lit "Л");
  (lit "l", lit "л");
  (lit "M", lit "М");
  (lit "m", lit "м");
  (lit "N", lit "Н");
  (lit "n", lit "н");
  (lit "O", lit "О");
  (lit "o", lit "о");
  (lit "P", lit "П");
  (lit "p", lit "п");
  (lit "R", lit "Р");
  (lit "r", lit "р");
  (lit "S", lit "С");
  (lit "s", lit "с");
  (lit "T", lit "Т");
  (lit "t", lit "т");
  (lit "U", lit "У");
  (lit "u", lit "у");
  (lit "F", lit "Ф");
  (lit "f", lit "ф");
  (lit "H", lit "Х");
  (lit "h", lit "х");
  (lit "Č", lit "Ч");
  (lit "č", lit "ч");
  (lit "Š", lit "Ш");
  (lit "š", lit "ш");
  (lit "''", lit "Ъ");
  (lit "’", lit "ъ");
  (lit "'", lit "ь");
  (lit "È", lit "Э");
  (lit "è", lit "э");
  (lit "Û", lit "Ю");
  (lit "û", lit "ю");
  (lit "Â", lit "Я");
  (lit "â", lit "я");
  (lit "Ǧ", lit "Ғ");
  (lit "ǧ", lit "ғ");
  (lit "Ī", lit "Ӣ");
  (lit "ī", lit "ӣ");
  (lit "Q", lit "Қ");
  (lit "q", lit "қ");
  (lit "Ū", lit "Ӯ");
  (lit "ū", lit "ӯ");
  (lit "Ḩ", lit "Ҳ");
  (lit "ḩ", lit "ҳ");
  (lit "Ç", lit "Ҷ");
  (lit "ç", lit "ҷ")
].
Definition cyr_bg : list (bytes * bytes) := [
  (lit "A", lit "А");
  (lit "a", lit "а");
  (lit "B", lit "Б");
  (lit "b", lit "б");
  (lit "V", lit "В");
  (lit "v", lit "в");
  (lit "G", lit "Г");
  (lit "g", lit "г");
  (lit "D", lit "Д");
  (lit "d", lit "д");
  (lit "E", lit "Е");
  (lit "e", lit "е");
  (lit "ZH", lit "Ж");
  (lit "zh", lit "ж");
  (lit "Z", lit "З");
  (lit "z", lit "з");
  (lit "I", lit "И");
  (lit "i", lit "и");
  (lit "Y", lit "Й");
  (lit "y", lit "й");
  (lit "K", lit "К");
  (lit "k", lit "к");
  (lit "L", lit "Л");
  (lit "l", lit "л");
  (lit "M", lit "М");
  (lit "m", lit "м");
  (lit "N", lit "Н");
  (lit "n", lit "н");
  (lit "O", lit "О");
  (lit "o", lit "о");
  (lit "P", lit "П");
  (lit "p", lit "п");
  (lit "R", lit "Р");
  (lit "r", lit "р");
  (lit "S", lit "С");
  (lit "s", lit "с");
  (lit "T", lit "Т");
  (lit "t", lit "т");
  (lit "U", lit "У");
  (lit "u", lit "у");
  (lit "F", lit "Ф");
  (lit "f", lit "ф");
  (lit "H", lit "Х");
  (lit "h", lit "х");
  (lit "TS", lit "Ц");
  (lit "ts", lit "ц");
  (lit "CH", lit "Ч");
  (lit "ch", lit "ч");
  (lit "SH", lit "Ш");
  (lit "sh", lit "ш");
  (lit "SHT", lit "Щ");
  (lit "sht", lit "щ");
  (lit "Ă", lit "Ъ");
  (lit "ă", lit "ъ");
  (lit "J", lit "Ь");
  (lit "j", lit "ь");
  (lit "YU", lit "Ю");
  (lit "yu", lit "ю");
  (lit "YA", lit "Я");
  (lit "ya", lit "я");
  (lit "Zh", lit "Ж");
  (lit "Ts", lit "Ц");
  (lit "Ch", lit "Ч");
  (lit "Sh", lit "Ш");
  (lit "Sht", lit "Щ");
  (lit "Yu", lit "Ю");
  (lit "Ya", lit "Я")
].
Definition cyr_ua : list (bytes * bytes) := [
  (lit "A", lit "А");
  (lit "a", lit "а");
  (lit "B", lit "Б");
  (lit "b", lit "б");
  (lit "V", lit "В");
  (lit "v", lit "в");
  (lit "H", lit "Г");
  (lit "h", lit "г");
  (lit "D", lit "Д");
  (lit "d", lit "д");
  (lit "E", lit "Е");
  (lit "e", lit "е");
  (lit "Ž", lit "Ж");
  (lit "ž", lit "ж");
  (lit "Z", lit "З");
  (lit "z", lit "з");
  (lit "Y", lit "И");
  (lit "y", lit "и");
  (lit "J", lit "Й");
  (lit "j", lit "й");
  (lit "K", lit "К");
  (lit "k", lit "к");
  (lit "L", lit "Л");
  (lit "l", lit "л");
  (lit "M", lit "М");
  (lit "m", lit "м");
  (lit "N", lit "Н");
  (lit "n", lit "н");
  (lit "O", lit "О");
  (lit "o", lit "о");
  (lit "P", lit "П");
  (lit "p", lit "п");
  (lit "R", lit "Р");
  (lit "r", lit "р");
  (lit "S", lit "С");
  (lit "s", lit "с");
  (lit "T", lit "Т");
  (lit "t", lit "т");
  (lit "U", lit "У");
  (lit "u", lit "у");
  (lit "F", lit "Ф");
  (lit "f", lit "ф");
  (lit "X", lit "Х");
  (lit "x", lit "х");
  (lit "C", lit "Ц");
  (lit "c", lit "ц");
  (lit "Č", lit "Ч");
  (lit "č", lit "ч");
  (lit "Š", lit "Ш");
  (lit "š", lit "ш");
  (lit "Šč", lit "Щ");
  (lit "šč", lit "щ");
  (lit "'", lit "ь");
  (lit "Ju", lit "Ю");
  (lit "ju", lit "ю");
  (lit "Ja", lit "Я");
  (lit "ja", lit "я");
  (lit "G", lit "Ґ");
  (lit "g", lit "ґ");
  (lit "Je", lit "Є");
  (lit "je", lit "є");
  (lit "I", lit "І");
  (lit "i", lit "і");
  (lit "Ï", lit "Ї");
  (lit "ï", lit "ї")
].
Definition cyr_mn : list (bytes * bytes) := [
  (lit "ya", lit "я");
  (lit "Ya", lit "Я");
  (lit "yu", lit "ю");
  (lit "Yu", lit "Ю");
  (lit "i", lit "и");
  (lit "I", lit "И");
  (lit "y", lit "ы");
  (lit "Y", lit "Ы");
  (lit "sh", lit "ш");
  (lit "Sh", lit "Ш");
  (lit "yo", lit "ё");
  (lit "Yo", lit "Ё");
  (lit "ye", lit "е");
  (lit "Ye", lit "Е");
  (lit "b", lit "б");
  (lit "B", lit "Б");
  (lit "r", lit "р");
  (lit "R", lit "Р");
  (lit "j", lit "ж");
  (lit "J", lit "Ж");
  (lit "z", lit "з");
  (lit "Z", lit "З");
  (lit "ch", lit "ч");
  (lit "Ch", lit "Ч");
  (lit "ts", lit "ц");
  (lit "Ts", lit "Ц");
  (lit "d", lit "д");
  (lit "D", lit "Д");
  (lit "t", lit "т");
  (lit "T", lit "Т");
  (lit "s", lit "с");
  (lit "S", lit "С");
  (lit "g", lit "г");
  (lit "G", lit "Г");
  (lit "kh", lit "х");
  (lit "Kh", lit "Х");
  (lit "k", lit "к");
  (lit "K", lit "К");
  (lit "f", lit "ф");
  (lit "F", lit "Ф");
  (lit "p", lit "п");
  (lit "P", lit "П");
  (lit "v", lit "в");
  (lit "V", lit "В");
  (lit "l", lit "л");
  (lit "L", lit "Л");
  (lit "m", lit "м");
  (lit "M", lit "М");
  (lit "n", lit "н");
  (lit "N", lit "Н");
  (lit "ü", lit "ү");
  (lit "Ü", lit "Ү");
  (lit "ö", lit "ө");
  (lit "Ö", lit "Ө");
  (lit "u", lit "у");
  (lit "U", lit "У");
  (lit "o", lit "о");
  (lit "O", lit "О");
  (lit "e", lit "э");
  (lit "E", lit "Э");
  (lit "a", lit "а");
  (lit "A", lit "А")
].

Definition cyr_dict : list (bytes * list (bytes * bytes)) := [
  (lit "sr", cyr_sr);
  (lit "me", cyr_me);
  (lit "mk", cyr_mk);
  (lit "ru", cyr_ru);
  (lit "tj", cyr_tj);
  (lit "bg", cyr_bg);
  (lit "ua", cyr_ua);
  (lit "mn", cyr_mn)
].
