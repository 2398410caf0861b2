(** Package internal/subword. *)
From Verif Require Import GoBase Utf8.
Open Scope Z_scope.

(** subword.go:8-16 Subword, New *)
Record subword := { sw_word : bytes; sw_level : Z }.

(** ** builder.go *)

(** A Builder is the list of its buffered subwords (builder.go:6-13); Write
    (25-27) appends, Reset (30-32) empties. *)

(** builder.go:16-22 String *)
Definition builder_string (b : list subword) : bytes := concat (map sw_word b).

(** builder.go:48-60: the merging loop, with [buf] and [mergingLevel]; returns the
    finished subwords (the last one included, 62-63). *)
Fixpoint merge_loop (sws : list subword) (buf : bytes) (level : Z) : list subword :=
  match sws with
  | [] => [{| sw_word := buf; sw_level := level |}]
  | sw :: sws' =>
    if negb (sw_level sw =? level) && negb (level =? -1)
    then {| sw_word := buf; sw_level := level |} :: merge_loop sws' (sw_word sw) (sw_level sw)
    else merge_loop sws' (buf ++ sw_word sw) (sw_level sw)
  end.

(** builder.go:36-66 Subwords *)
Definition builder_subwords (b : list subword) : list subword :=
  match b with
  | [] => []
  | _ => merge_loop b [] (-1)
  end.

(** ** replace.go *)

(** replace.go:9-13 Replacement *)
Record replacement := { rp_start : Z; rp_stop : Z; rp_word : bytes }.

(** replace.go:26-36 Replacer *)
Record replacer := { rr_word : bytes; rr_repls : list replacement; rr_levels : list Z;
                     rr_next : Z }.

(** replace.go:39-48 NewReplacer *)
Definition new_replacer (word : bytes) (prevLevel nextLevel : Z) : replacer :=
  {| rr_word := word; rr_repls := []; rr_levels := repeat prevLevel (length word);
     rr_next := nextLevel |}.

(** replace.go:56-58 ReplaceBy *)
Definition replace_by (r : replacer) (repls : list replacement) : replacer :=
  {| rr_word := rr_word r; rr_repls := rr_repls r ++ repls; rr_levels := rr_levels r;
     rr_next := rr_next r |}.

(** replace.go:61-90 commit: the loop from [offset]; returns the new word and levels. *)
Fixpoint commit_loop (repls : list replacement) (r : replacer) (offset : Z)
  : res (bytes * list Z) :=
  match repls with
  | [] =>
    let! w := slice (rr_word r) offset (len (rr_word r)) in
    let! l := slice (rr_levels r) offset (len (rr_levels r)) in
    Ok (w, l)
  | x :: repls' =>
    let! w := slice (rr_word r) offset (rp_start x) in
    let! l := slice (rr_levels r) offset (rp_start x) in
    let! '(w', l') := commit_loop repls' r (rp_stop x) in
    Ok (w ++ rp_word x ++ w', l ++ repeat (rr_next r) (length (rp_word x)) ++ l')
  end.
Definition commit (r : replacer) : res replacer :=
  let! '(w, l) := commit_loop (rr_repls r) r 0 in
  Ok {| rr_word := w; rr_repls := []; rr_levels := l; rr_next := rr_next r |}.

(** replace.go:93-96 String *)
Definition replacer_string (r : replacer) : res (replacer * bytes) :=
  let! r' := commit r in Ok (r', rr_word r').

(** replace.go:113-120: the loop over the characters of the word. [rs] is the
    list of characters with their widths, [i] the byte index. *)
Fixpoint subwords_loop (gs : list (rune * nat)) (i : nat) (levels : list Z) (level : Z)
         (buf : bytes) : res (list subword) :=
  match gs with
  | [] => Ok [{| sw_word := buf; sw_level := level |}]
  | (ch, w) :: gs' =>
    let! l := index levels (Z.of_nat i) in
    if l =? level
    then subwords_loop gs' (i + w)%nat levels level (buf ++ encode_rune ch)
    else
      let! t := subwords_loop gs' (i + w)%nat levels l (encode_rune ch) in
      Ok ({| sw_word := buf; sw_level := level |} :: t)
  end.

(** replace.go:100-124 Subwords *)
Definition replacer_subwords (r : replacer) : res (replacer * list subword) :=
  let! r' := commit r in
  match rr_levels r' with
  | [] => Ok (r', [])
  | level :: _ =>
    let! sws := subwords_loop (glyphs (rr_word r')) 0 (rr_levels r') level [] in
    Ok (r', sws)
  end.
