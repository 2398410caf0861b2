(** Package unicode of the Go standard library (and the one use of
    golang.org/x/text/unicode/norm), over the generated tables. *)
From Verif Require Import GoBase Utf8 UniTables.
Open Scope N_scope.

(** unicode.Is on a sorted range table. *)
Fixpoint in_ranges (tab : list (N * N)) (r : rune) : bool :=
  match tab with
  | [] => false
  | (lo, hi) :: tab' => if r <? lo then false else if r <=? hi then true else in_ranges tab' r
  end.

(** unicode.IsSpace (space.go:10,21, procedure.go:277,300,306, pkg/hsl/lexer.go:71,203). *)
Definition is_space (r : rune) : bool :=
  if r <=? 0xFF then
    ((9 <=? r) && (r <=? 13)) || (r =? 32) || (r =? 0x85) || (r =? 0xA0)
  else (r =? 0x1680) || ((0x2000 <=? r) && (r <=? 0x200A)) || (r =? 0x2028)
       || (r =? 0x2029) || (r =? 0x202F) || (r =? 0x205F) || (r =? 0x3000).

(** unicode.IsPunct (procedure.go:276, spec.go:314). *)
Definition is_punct (r : rune) : bool := in_ranges tab_punct r.
(** unicode.IsMark (internal/scripts/cyrl.go:12). *)
Definition is_mark (r : rune) : bool := in_ranges tab_mark r.
(** unicode.IsLetter (pkg/hsl/lexer.go:132). *)
Definition is_uletter (r : rune) : bool := in_ranges tab_letter r.
(** unicode.IsDigit (pkg/hsl/lexer.go:136). *)
Definition is_digit (r : rune) : bool := in_ranges tab_digit r.

(** unicode.ToLower (internal/scripts/cyrl.go:17, grek.go:17, latn.go:28). *)
Fixpoint to_lower_in (tab : list (N * N * N * Z)) (r : rune) : rune :=
  match tab with
  | [] => r
  | (lo, hi, step, d) :: tab' =>
    if r <? lo then r
    else if (r <=? hi) && ((r - lo) mod step =? 0) then Z.to_N (Z.of_N r + d)
    else to_lower_in tab' r
  end.
Definition to_lower (r : rune) : rune := to_lower_in tab_lower r.

(** norm.NFD.PropertiesString(string(ch)).Decomposition(): the full decomposition,
    if there is one (internal/scripts/latn.go:23-24). Only Latin characters are
    tabulated: Normalize is called on them only (procedure.go:90-93). *)
Fixpoint nlookup {A} (tab : list (N * A)) (r : rune) : option A :=
  match tab with
  | [] => None
  | (k, v) :: tab' => if r <? k then None else if r =? k then Some v else nlookup tab' r
  end.
Definition nfd (r : rune) : option (list rune) := nlookup tab_nfd r.
(** latn.go:25-27: the first byte of its UTF-8 form. *)
Definition nfd_first (r : rune) : option N :=
  match nfd r with
  | Some d => match encode d with b :: _ => Some b | [] => None end
  | None => None
  end.
