(** Package internal/scripts, script.go and space.go. *)
From Coq Require Import String.
From Verif Require Import GoBase Utf8 UniTables Unicode.
Open Scope N_scope.

(** The implementations of the interface script (script.go:8-12). *)
Inductive script := Latn | Cyrl | Geor | Grek | Hrkt.

(** script.go:15-33 getScript *)
Definition get_script (name : bytes) : option script :=
  if beqb name (lit "") then Some Latn
  else if beqb name (lit "Latn") then Some Latn
  else if beqb name (lit "Cyrl") then Some Cyrl
  else if beqb name (lit "Geor") then Some Geor
  else if beqb name (lit "Grek") then Some Grek
  else if beqb name (lit "Hrkt") then Some Hrkt
  else None.

(** Is: latn.go:14-16, cyrl.go:11-13, geor.go:11-13, grek.go:11-13, hrkt.go:11-15. *)
Definition script_is (s : script) (ch : rune) : bool :=
  match s with
  | Latn => in_ranges tab_latin ch
  | Cyrl => in_ranges tab_cyrillic ch || is_mark ch
  | Geor => in_ranges tab_georgian ch
  | Grek => in_ranges tab_greek ch
  | Hrkt => (ch =? 0x30FC) || in_ranges tab_hiragana ch || in_ranges tab_katakana ch
  end.

(** Normalize: latn.go:22-29, cyrl.go:16-18, geor.go:17-19, grek.go:16-18, hrkt.go:18-29. *)
Definition script_normalize (s : script) (ch : rune) : rune :=
  match s with
  | Latn => to_lower (match nfd_first ch with Some b => b | None => ch end)
  | Cyrl | Grek => to_lower ch
  | Geor => ch
  | Hrkt => if (0x3040 <=? ch) && (ch <=? 0x309F) then ch + 96 else ch
  end.

(** LocalizePunct: latn.go:32-34, cyrl.go:21-23, geor.go:22-24, grek.go:21-23,
    hrkt.go:32-57; the characters of the returned string. *)
Definition localize_punct (s : script) (punct : rune) : list rune :=
  match s with
  | Hrkt =>
    if punct =? 0x3002 then [0x2E; 0x20]
    else if punct =? 0x3001 then [0x2C; 0x20]
    else if punct =? 0xFF1A then [0x3A; 0x20]
    else if punct =? 0xFF01 then [0x21; 0x20]
    else if punct =? 0xFF1F then [0x3F; 0x20]
    else if punct =? 0x301C then [0x7E]
    else if punct =? 0x300C then [0x20; 0x27]
    else if punct =? 0x300D then [0x27; 0x20]
    else if punct =? 0x300E then [0x20; 0x22]
    else if punct =? 0x300F then [0x22; 0x20]
    else [punct]
  | _ => [punct]
  end.

(** space.go:9-12 hasSpace *)
Definition has_space (word : bytes) : bool := existsb is_space (runes word).

(** space.go:16-26 hasSpaceOnly *)
Definition has_space_only (word : bytes) : bool :=
  match word with
  | [] => false
  | _ => forallb is_space (runes word)
  end.
