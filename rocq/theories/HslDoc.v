(** What an HSL document is, independently of the lexer and the parser: how
    strings, values, entries and sections are written. *)
From Coq Require Import String.
From Verif Require Import GoBase Utf8 Unicode Hsl.
Open Scope N_scope.

(** White space inside a line; a letter, a digit or an underscore. *)
Definition blank (c : rune) : Prop := is_space c = true /\ c <> 0x0A.
Definition letter (c : rune) : Prop := c = 0x5F \/ is_uletter c = true.
Definition letter_or_digit (c : rune) : Prop := letter c \/ is_digit c = true.

Definition spaces (t : list rune) : Prop := Forall blank t.
(** The rest of a comment line. *)
Definition comment_text (t : list rune) : Prop := Forall (fun c => c <> 0x0A /\ c <> 0) t.

(** Blank lines, comment lines and indentation, in any amount. *)
Inductive filler : list rune -> Prop :=
| filler_nil : filler []
| filler_space c t : blank c -> filler t -> filler (c :: t)
| filler_newline t : filler t -> filler (0x0A :: t)
| filler_comment b t : comment_text b -> filler t -> filler (0x23 :: b ++ 0x0A :: t).

(** Inside quotes a quote is written with a backslash. *)
Definition escape (c : rune) : list rune := if c =? 0x22 then [0x5C; 0x22] else [c].

(** [spells s t]: the string [s] is written as [t]. *)
Inductive spells : bytes -> list rune -> Prop :=
| spells_quoted rs : Forall (fun c => c <> 0x5C) rs ->
    spells (encode rs) (0x22 :: flat_map escape rs ++ [0x22])
| spells_word c rs : letter c -> Forall letter_or_digit rs -> spells (encode (c :: rs)) (c :: rs).

(** The values of an entry, separated by commas. *)
Inductive values_text : list bytes -> list rune -> Prop :=
| values_none sp : spaces sp -> values_text [] sp
| values_one v t sp1 sp2 : spells v t -> spaces sp1 -> spaces sp2 -> values_text [v] (sp1 ++ t ++ sp2)
| values_more v t sp1 sp2 v' vs r : spells v t -> spaces sp1 -> spaces sp2 -> values_text (v' :: vs) r ->
    values_text (v :: v' :: vs) (sp1 ++ t ++ sp2 ++ 0x2C :: r).

(** The end of an entry: a newline, or a comment followed by a blank line. *)
Inductive line_end : list rune -> Prop :=
| end_newline : line_end [0x0A]
| end_comment b sp : comment_text b -> spaces sp -> line_end (0x23 :: b ++ 0x0A :: sp ++ [0x0A]).

(** A section is written with arrows (an ordered list) or with equals signs (a
    dictionary). *)
Inductive kind := Pairs | Dict.
Definition operator (k : kind) : list rune :=
  match k with Pairs => [0x2D; 0x3E] | Dict => [0x3D] end.

Definition entry := (bytes * list bytes)%type.
Record sect := { sec_name : bytes; sec_kind : kind; sec_entries : list entry }.
Definition document := list sect.

Inductive entry_text (k : kind) : entry -> list rune -> Prop :=
| entry_intro key values f1 kt f2 vt e :
    filler f1 -> spells key kt -> filler f2 -> values_text values vt -> line_end e ->
    entry_text k (key, values) (f1 ++ kt ++ f2 ++ operator k ++ vt ++ e).

Inductive entries_text (k : kind) : list entry -> list rune -> Prop :=
| entries_nil : entries_text k [] []
| entries_cons e es t ts : entry_text k e t -> entries_text k es ts -> entries_text k (e :: es) (t ++ ts).

Inductive section_text : sect -> list rune -> Prop :=
| section_intro name k es f1 nt f2 ts :
    filler f1 -> spells name nt -> filler f2 -> entries_text k es ts -> name <> [] ->
    section_text {| sec_name := name; sec_kind := k; sec_entries := es |}
                 (f1 ++ nt ++ f2 ++ 0x3A :: ts).

(** After the last section: anything that carries no meaning, and perhaps an
    unfinished comment. *)
Inductive document_text : document -> list rune -> Prop :=
| document_end f : filler f -> document_text [] f
| document_end_comment f b : filler f -> comment_text b -> document_text [] (f ++ 0x23 :: b)
| document_cons s d t ts : section_text s t -> document_text d ts -> document_text (s :: d) (t ++ ts).

(** Section names are used once; keys of a dictionary are used once. *)
Definition proper (d : document) : Prop :=
  NoDup (map sec_name d) /\
  Forall (fun s => sec_kind s = Dict -> NoDup (map fst (sec_entries s))) d.

(** What a parsed document says, without line numbers. *)
Definition pair_says (p : pair_) : entry := (pr_left p, pr_right p).
Definition section_says (p : bytes * section) : sect :=
  match snd p with
  | ListSection l _ => {| sec_name := fst p; sec_kind := Pairs; sec_entries := map pair_says l |}
  | DictSection d _ => {| sec_name := fst p; sec_kind := Dict; sec_entries := map pair_says d |}
  end.
Definition says (h : hsl) : document := map section_says h.

(** A section without entries leaves no trace. *)
Definition nonempty (s : sect) : bool := match sec_entries s with [] => false | _ => true end.

(** The usual layout: every string quoted, one entry per line. *)
Definition quoted (s : bytes) : list rune := 0x22 :: flat_map escape (runes s) ++ [0x22].
Fixpoint print_values (vs : list bytes) : list rune :=
  match vs with
  | [] => []
  | [v] => 0x20 :: quoted v
  | v :: vs' => 0x20 :: quoted v ++ 0x2C :: print_values vs'
  end.
Definition print_entry (k : kind) (e : entry) : list rune :=
  0x20 :: quoted (fst e) ++ 0x20 :: operator k ++ print_values (snd e) ++ [0x0A].
Definition print_section (s : sect) : list rune :=
  quoted (sec_name s) ++ 0x3A :: 0x0A :: flat_map (print_entry (sec_kind s)) (sec_entries s).
Definition print_document (d : document) : list rune := flat_map print_section d.
