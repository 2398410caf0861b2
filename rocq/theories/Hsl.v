(** Package pkg/hsl. The reader is the list of the remaining characters with
    their byte widths: bufio.Reader.ReadRune yields U+FFFD of width 1 for an
    invalid byte, and UnreadRune gives the last character back. *)
From Coq Require Import String.
From Verif Require Import GoBase Utf8 Unicode Replacer.
Open Scope N_scope.

Definition reader := list (rune * nat).

(** tokens.go:8-40. Tokens carry their literal where the parser uses it. *)
Inductive token :=
| TIllegal (s : bytes)
| TEOF
| TSpace
| TComment
| TNewline
| TString (s : bytes)
| TColon
| TComma
| TEqual
| TArrow.

(** ** lexer.go *)

(** lexer.go:24. A NUL character is taken for the end of the file. *)
Definition eof : rune := 0.

(** lexer.go:12-17: the reader and the line number. prevLine is only used by
    unread, which here returns to the state before the read. *)
Record lexer := { lx_rest : reader; lx_line : Z }.

(** lexer.go:32-45 read. At the end of the input nothing changes. *)
Definition read (l : lexer) : rune * lexer :=
  match lx_rest l with
  | [] => (eof, l)
  | (ch, _) :: rest =>
    (ch, {| lx_rest := rest; lx_line := if ch =? 0x0A then (lx_line l + 1)%Z else lx_line l |})
  end.

(** lexer.go:57-66 readWhile: read, test, and unread the character that failed
    (at the end of the input unread fails without harm). *)
Fixpoint read_while_in (test : rune -> bool) (rest : reader) (line : Z) : bytes * lexer :=
  match rest with
  | [] => ([], {| lx_rest := []; lx_line := line |})
  | (ch, w) :: rest' =>
    if negb (ch =? eof) && test ch
    then let '(s, l) := read_while_in test rest'
                          (if ch =? 0x0A then (line + 1)%Z else line) in
         (encode_rune ch ++ s, l)
    else ([], {| lx_rest := rest; lx_line := line |})
  end.
Definition read_while (test : rune -> bool) (l : lexer) : bytes * lexer :=
  read_while_in test (lx_rest l) (lx_line l).

(** lexer.go:70-72 isSpace *)
Definition is_sp (ch : rune) : bool := negb (ch =? 0x0A) && is_space ch.
(** lexer.go:84-86 isInLine *)
Definition is_in_line (ch : rune) : bool := negb (ch =? 0x0A) && negb (ch =? eof).
(** lexer.go:131-133 isInitialLetter *)
Definition is_initial_letter (ch : rune) : bool := (ch =? 0x5F) || is_uletter ch.
(** lexer.go:135-137 isLetter *)
Definition is_lex_letter (ch : rune) : bool := is_initial_letter ch || is_digit ch.

(** lexer.go:88-127 scanComment. The text of the comment is dropped by the
    parser and is not modelled. [fuel] bounds the number of comment lines. *)
Fixpoint scan_comment (fuel : nat) (l : lexer) : res lexer :=
  match fuel with
  | O => NoFuel
  | S fuel' =>
    let '(_, l1) := read_while is_sp l in
    let '(ch, l2) := read l1 in
    if ch =? 0x23 (* # *) then
      let '(_, l3) := read_while is_in_line l2 in
      let '(_, l4) := read l3 in
      scan_comment fuel' l4
    else Ok l1
  end.

(** lexer.go:143-177 scanQuotedString, after the opening quote. When the input
    ends before the closing quote the loop reads eof for ever. *)
Fixpoint scan_quoted (rest : reader) (line : Z) (escaped : bool) (buf : bytes)
  : res (bytes * lexer) :=
  match rest with
  | [] => Hang
  | (ch, _) :: rest' =>
    let line' := if ch =? 0x0A then (line + 1)%Z else line in
    if ch =? 0x22 (* quote *) then
      if escaped then scan_quoted rest' line' false (buf ++ encode_rune ch)
      else Ok (buf, {| lx_rest := rest'; lx_line := line' |})
    else if ch =? 0x5C (* backslash *) then scan_quoted rest' line' true buf
    else if escaped then scan_quoted rest' line' true buf
    else scan_quoted rest' line' false (buf ++ encode_rune ch)
  end.

(** lexer.go:193-236 Scan. Where the code unreads the first character and calls a
    scanX function, the function starts from [l]. *)
Definition scan (l : lexer) : res (token * lexer) :=
  let '(ch, l1) := read l in
  if ch =? eof then Ok (TEOF, l1)
  else if ch =? 0x0A then Ok (TNewline, l1)
  else if is_space ch then let '(_, l2) := read_while is_sp l in Ok (TSpace, l2)
  else if is_initial_letter ch then let '(s, l2) := read_while is_lex_letter l in Ok (TString s, l2)
  else if ch =? 0x22 then
    let! '(s, l2) := scan_quoted (lx_rest l1) (lx_line l1) false [] in Ok (TString s, l2)
  else if ch =? 0x23 then
    let! l2 := scan_comment (S (length (lx_rest l))) l in Ok (TComment, l2)
  else if ch =? 0x3A then Ok (TColon, l1)
  else if ch =? 0x2C then Ok (TComma, l1)
  else if ch =? 0x3D then Ok (TEqual, l1)
  else if ch =? 0x2D then (* lexer.go:181-190 scanArrow *)
    let '(ch2, l2) := read l1 in
    if ch2 =? 0x3E then Ok (TArrow, l2) else Panic PNotArrow
  else Ok (TIllegal (encode_rune ch), l1).

(** ** structures.go *)

(** structures.go:41-45 Pair *)
Record pair_ := { pr_left : bytes; pr_right : list bytes; pr_line : Z }.

(** structures.go:81-84,107-110 ListSection, DictSection. A dictionary is kept in
    insertion order; the order in which Go iterates over it is a parameter of
    the functions that iterate. *)
Inductive section :=
| ListSection (pairs : list pair_) (line : Z)
| DictSection (dict : list pair_) (line : Z).

(** structures.go:8 HSL *)
Definition hsl := list (bytes * section).

Fixpoint dict_get (d : list pair_) (left : bytes) : option pair_ :=
  match d with
  | [] => None
  | p :: d' => if beqb (pr_left p) left then Some p else dict_get d' left
  end.

(** structures.go:97-100,132-140 addPair; None is the duplicate key error. *)
Definition add_pair (s : section) (p : pair_) : option section :=
  match s with
  | ListSection pairs line => Some (ListSection (pairs ++ [p]) line)
  | DictSection d line =>
    match dict_get d (pr_left p) with
    | Some _ => None
    | None => Some (DictSection (d ++ [p]) line)
    end
  end.

(** structures.go:143-151 Map *)
Definition dict_map (d : list pair_) : list (bytes * list bytes) :=
  map (fun p => (pr_left p, pr_right p)) d.

(** structures.go:155-170 Injective *)
Fixpoint dict_injective (d : list pair_) : res (list (bytes * bytes)) :=
  match d with
  | [] => Ok []
  | p :: d' =>
    match pr_right p with
    | [v] => let! t := dict_injective d' in Ok ((pr_left p, v) :: t)
    | _ => Err ErrMultipleValues
    end
  end.

(** structures.go:174-188 One *)
Definition dict_one (d : list pair_) (left : bytes) : bytes :=
  match dict_get d left with
  | Some p => match pr_right p with [] => [] | v :: _ => v end
  | None => []
  end.

(** structures.go:191-199 All *)
Definition dict_all (d : list pair_) (left : bytes) : list bytes :=
  match dict_get d left with
  | Some p => pr_right p
  | None => []
  end.

(** ** parser.go *)

(** parser.go:113-145 parseValues *)
Fixpoint parse_values (fuel : nat) (l : lexer) (values : list bytes) : res (list bytes * lexer) :=
  match fuel with
  | O => NoFuel
  | S fuel' =>
    let! '(tok, l1) := scan l in
    match tok with
    | TIllegal _ => Err ErrIllegalToken
    | TEOF => Ok (values, l1)
    | TNewline => Ok (values, l1)
    | TString s => parse_values fuel' l1 (values ++ [s])
    | _ => parse_values fuel' l1 values
    end
  end.

(** Assignment to a map key. *)
Fixpoint hsl_set (h : hsl) (name : bytes) (s : section) : hsl :=
  match h with
  | [] => [(name, s)]
  | (n, s0) :: h' => if beqb n name then (n, s) :: h' else (n, s0) :: hsl_set h' name s
  end.

(** State of the loop of parse (parser.go:28-34). *)
Record pstate := { ps_hsl : hsl; ps_last : bytes; ps_name : bytes; ps_secline : Z }.

(** parser.go:67-107: an equals sign ([arrow] = false) or an arrow on [line]. *)
Definition add_to (st : pstate) (arrow : bool) (values : list bytes) (line : Z) : res pstate :=
  let sec := match lookup (ps_hsl st) (ps_name st) with
             | Some s => s
             | None => if arrow then ListSection [] (ps_secline st)
                       else DictSection [] (ps_secline st)
             end in
  match add_pair sec {| pr_left := ps_last st; pr_right := values; pr_line := line |} with
  | None => Panic PAddPair
  | Some sec' => Ok {| ps_hsl := hsl_set (ps_hsl st) (ps_name st) sec'; ps_last := ps_last st;
                       ps_name := ps_name st; ps_secline := ps_secline st |}
  end.

(** parser.go:27-111 parse; also returns the reader where parsing stopped. *)
Fixpoint parse_hsl_loop (fuel : nat) (l : lexer) (st : pstate) : res (hsl * reader) :=
  match fuel with
  | O => NoFuel
  | S fuel' =>
    let! '(tok, l1) := scan l in
    match tok with
    | TIllegal _ => Err ErrIllegalToken
    | TEOF => Ok (ps_hsl st, lx_rest l1)
    | TString s =>
      parse_hsl_loop fuel' l1 {| ps_hsl := ps_hsl st; ps_last := s; ps_name := ps_name st;
                                 ps_secline := ps_secline st |}
    | TColon =>
      parse_hsl_loop fuel' l1 {| ps_hsl := ps_hsl st; ps_last := ps_last st;
                                 ps_name := ps_last st; ps_secline := lx_line l1 |}
    | TEqual | TArrow =>
      match ps_name st with
      | [] => Err ErrPairNotInSection
      | _ =>
        let! '(values, l2) := parse_values (S (length (lx_rest l1))) l1 [] in
        let! st' := add_to st (match tok with TArrow => true | _ => false end)
                              values (lx_line l1) in
        parse_hsl_loop fuel' l2 st'
      end
    | _ => parse_hsl_loop fuel' l1 st
    end
  end.

Definition pstate0 : pstate := {| ps_hsl := []; ps_last := []; ps_name := []; ps_secline := 0%Z |}.

(** pkg/hsl/hsl.go:38-41 Parse *)
Definition parse_hsl_src (src : bytes) : res (hsl * reader) :=
  let r := glyphs src in
  parse_hsl_loop (S (length r)) {| lx_rest := r; lx_line := 1%Z |} pstate0.
Definition parse_hsl (src : bytes) : res hsl :=
  let! '(h, _) := parse_hsl_src src in Ok h.
