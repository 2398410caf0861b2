(** cmd/hangulize/test.go and cmd/hangulize/cover.go: the command test. The flags are
    cobra's and not modelled. The files do not change while the command runs. *)
From Coq Require Import String.
From Verif Require Import GoBase Utf8 Hre Rule Hsl Spec Jamo Procedure Api Tracefmt.
Open Scope Z_scope.

(** ** cover.go *)

(** cover.go:13-17 cov *)
Definition cov := (bytes * bytes * Z)%type.
Definition cov_eqb (a b : cov) : bool :=
  let '(n, s, i) := a in let '(n', s', i') := b in beqb n n' && beqb s s' && (i =? i').
(** cover.go:20-23 cover: the keys of the two maps; a nil pointer is None. *)
Record cover := { cv_covered : list cov; cv_names : list bytes }.
(** cover.go:26-28 newCover *)
Definition new_cover : cover := {| cv_covered := []; cv_names := [] |}.
(** cover.go:31-37 Visit *)
Definition visit (c : option cover) (name : bytes) : option cover :=
  match c with
  | None => None
  | Some c => Some {| cv_covered := cv_covered c;
                      cv_names := if existsb (beqb name) (cv_names c) then cv_names c else cv_names c ++ [name] |}
  end.
(** cover.go:50-56 Covered *)
Definition covered (c : option cover) (name step : bytes) (id : Z) : bool :=
  match c with None => false | Some c => existsb (cov_eqb (name, step, id)) (cv_covered c) end.
(** cover.go:40-47 Cover *)
Definition cover_rule (c : option cover) (name step : bytes) (id : Z) : option cover :=
  match c with
  | None => None
  | Some c0 =>
    visit (Some {| cv_covered := if covered c name step id then cv_covered c0
                                 else cv_covered c0 ++ [(name, step, id)];
                   cv_names := cv_names c0 |}) name
  end.

(** os.Open: the contents, None on an error. *)
Definition opened := bytes -> option bytes.

(** cover.go:59-83 Coverage: both terms of the quotient. [c] are the choices of the Go
    runtime while a file is parsed. The order of the names matters for panics only. *)
Fixpoint total_rules (fs : opened) (c : bytes -> choices) (names : list bytes) : res nat :=
  match names with
  | [] => Ok O
  | name :: names' =>
    match fs name with
    | None => Panic PCover
    | Some src =>
      match parse_spec (c name) src with
      | Ok s => let! t := total_rules fs c names' in
                Ok (length (s_rewrite s) + length (s_transcribe s) + t)%nat
      | Err _ => Panic PCover
      | Panic p => Panic p
      | Hang => Hang
      | NoFuel => NoFuel
      | Unmodelled => Unmodelled
      end
    end
  end.
Definition coverage (fs : opened) (c : bytes -> choices) (cv : cover) : res (nat * nat) :=
  let! total := total_rules fs c (cv_names cv) in Ok (length (cv_covered cv), total).

(** cover.go:124-129, package bufio: the lengths of the lines, each without a last CR, plus
    one. The scanner gives up at a line of 64 KiB. *)
Fixpoint split_lines (s line : bytes) : list bytes :=     (* [line]: the line so far, reversed *)
  match s with
  | [] => match line with [] => [] | _ => [rev line] end
  | b :: s' => if (b =? 10)%N then rev line :: split_lines s' [] else split_lines s' (b :: line)
  end.
Definition drop_cr (line : bytes) : bytes :=
  match rev line with (13%N) :: l => rev l | _ => line end.
Fixpoint scan_cols (lines : list bytes) : list Z :=
  match lines with
  | [] => []
  | l :: lines' => if 65536 <=? len l then [] else len (drop_cr l) + 1 :: scan_cols lines'
  end.

(** cover.go:131-145: one line of the profile for each rule: the file, the line, its
    length and whether the rule is covered. *)
Record profile_line := { pl_name : bytes; pl_line : Z; pl_col : Z; pl_covered : bool }.
Fixpoint profile_rules (cv : cover) (name step : bytes) (pairs : list pair_) (cols : list Z) (rules : list rule)
  : res (list profile_line) :=
  match rules with
  | [] => Ok []
  | r :: rules' =>
    let! p := index pairs (rule_id r) in
    let! col := index cols (pr_line p - 1) in
    let! rest := profile_rules cv name step pairs cols rules' in
    Ok ({| pl_name := name; pl_line := pr_line p; pl_col := col;
           pl_covered := covered (Some cv) name step (rule_id r) |} :: rest)
  end.
(** hsl[name].Pairs(): a missing section is a nil interface. A DictSection would give the
    pairs in any order, but ParseSpec has panicked on it before (spec.go:113, 126). *)
Definition section_pairs_of (h : hsl) (name : bytes) : res (list pair_) :=
  match lookup h name with
  | None => Panic PNil
  | Some (ListSection l _) => Ok l
  | Some (DictSection d _) => Ok d
  end.
(** cover.go:101-145: the body of the loop. An ignored error of ParseSpec leaves a nil
    Spec. *)
Definition profile_file (fs : opened) (c : choices) (cv : cover) (name : bytes) : res (list profile_line) :=
  match fs name with
  | None => Err ErrOpen
  | Some src =>
    let! h := parse_hsl src in
    match parse_spec c src with
    | Ok s =>
      let cols := scan_cols (split_lines src []) in
      let! rewritePairs := section_pairs_of h (lit "rewrite") in
      let! a := profile_rules cv name (lit "Rewrite") rewritePairs cols (s_rewrite s) in
      let! transcribePairs := section_pairs_of h (lit "transcribe") in
      let! b := profile_rules cv name (lit "Transcribe") transcribePairs cols (s_transcribe s) in
      Ok (a ++ b)
    | Err _ => Panic PNil
    | Panic p => Panic p
    | Hang => Hang
    | NoFuel => NoFuel
    | Unmodelled => Unmodelled
    end
  end.
(** cover.go:93-149 WriteProfile, to a writer that never fails; [order] is the order of
    the iteration over the names. *)
Fixpoint write_profile (fs : opened) (c : bytes -> choices) (cv : cover) (order : list bytes) : res (list profile_line) :=
  match order with
  | [] => Ok []
  | name :: order' =>
    let! a := profile_file fs (c name) cv name in
    let! b := write_profile fs c cv order' in
    Ok (a ++ b)
  end.

(** fmt's verb %d *)
Fixpoint digits (u : Decimal.uint) : bytes :=
  match u with
  | Decimal.Nil => []
  | Decimal.D0 u => 48%N :: digits u
  | Decimal.D1 u => 49%N :: digits u
  | Decimal.D2 u => 50%N :: digits u
  | Decimal.D3 u => 51%N :: digits u
  | Decimal.D4 u => 52%N :: digits u
  | Decimal.D5 u => 53%N :: digits u
  | Decimal.D6 u => 54%N :: digits u
  | Decimal.D7 u => 55%N :: digits u
  | Decimal.D8 u => 56%N :: digits u
  | Decimal.D9 u => 57%N :: digits u
  end.
Definition decimal (z : Z) : bytes :=
  match Z.to_int z with Decimal.Pos u => digits u | Decimal.Neg u => 45%N :: digits u end.
(** cover.go:94, 136, 144, 151-156: the text of a line, with its newline, in two steps. *)
Definition line_text (l : profile_line) : bytes :=
  pl_name l ++ lit ":" ++ decimal (pl_line l) ++ lit ".1," ++ decimal (pl_line l) ++ lit "." ++ decimal (pl_col l) ++
  lit " 1 " ++ decimal (if pl_covered l then 1 else 0).
(** cover.go:96: and of all of them. *)
Definition profile_text (lines : list profile_line) : bytes :=
  lit "mode: count" ++ [10%N] ++ concat (map (fun l => line_text l ++ [10%N]) lines).
(** test.go:111-122: the content of the file afterwards. It is opened without O_TRUNC, so
    that the bytes of an [old] file beyond the text stay. *)
Definition save_profile (old : option bytes) (lines : list profile_line) : bytes :=
  profile_text lines ++ match old with None => [] | Some b => skipn (length (profile_text lines)) b end.

(** ** test.go *)

(** test.go:77, 87, 96-99: what is printed. *)
Inductive report :=
| Failure (e : gerror)
| Differs (name word result expected : bytes).

(** test.go:79-83: the rules of all traces collected so far in this file. *)
Definition cover_traces (c : option cover) (name : bytes) (traces : list trace) : option cover :=
  fold_left (fun c t => match t_rule t with
                        | Some r => cover_rule c name (step_text (t_step t)) (rule_id r)
                        | None => c
                        end) traces c.

(** test.go:58-101: the examples of a file. The registry of the new Hangulizer is empty. *)
Fixpoint test_examples (H : hangul_lib) (s : spec) (name : bytes) (c : option cover) (traces : list trace)
         (examples : list (bytes * bytes)) : res (option cover * list report) :=
  match examples with
  | [] => Ok (c, [])
  | (word, expected) :: examples' =>
    let on := match c with Some _ => true | None => false end in
    let '(_, tr, r) := run_hangulizer (W := unit) H s [] on tt word in
    let! '(result, err) := r in
    let traces1 := traces ++ match tr with Some (_, evs) => rev evs | None => [] end in
    let c1 := if on then cover_traces c name traces1 else c in
    let! '(c2, reports) := test_examples H s name c1 traces1 examples' in
    Ok (c2, match err with Some e => [Failure e] | None => [] end ++
            (if beqb result expected then [] else [Differs name word result expected]) ++ reports)
  end.

(** test.go:42-102: the files; [cs] are the choices while each is parsed. An error ends
    the command: None. *)
Fixpoint test_files (H : hangul_lib) (fs : opened) (cs : nat -> choices) (i : nat) (c : option cover)
         (args : list bytes) : res (option cover * list report * bool) :=
  match args with
  | [] => Ok (c, [], true)
  | name :: args' =>
    match fs name with
    | None => Ok (c, [], false)
    | Some src =>
      match parse_spec (cs i) src with
      | Ok s =>
        let! '(c1, reports1) := test_examples H s name (visit c name) [] (s_test s) in
        let! '(c2, reports2, done) := test_files H fs cs (S i) c1 args' in
        Ok (c2, reports1 ++ reports2, done)
      | Err _ => Ok (c, [], false)
      | Panic p => Panic p
      | Hang => Hang
      | NoFuel => NoFuel
      | Unmodelled => Unmodelled
      end
    end
  end.

(** test.go:30-135 RunE, without --coverprofile. The command is over with an error (1),
    with exit code 1 (105-107), or well, and the coverage printed. *)
Inductive test_end := TestError | TestFailed | TestPassed (coverage : option (nat * nat)).
Definition is_differs (r : report) : bool := match r with Differs _ _ _ _ => true | Failure _ => false end.
Definition run_test (H : hangul_lib) (fs : opened) (cs : nat -> choices) (cs' : bytes -> choices) (cover : bool)
           (args : list bytes) : res (list report * test_end) :=
  let! '(c, reports, done) := test_files H fs cs 0 (if cover then Some new_cover else None) args in
  if negb done then Ok (reports, TestError)
  else if existsb is_differs reports then Ok (reports, TestFailed)
  else match c with
       | None => Ok (reports, TestPassed None)
       | Some cv => let! q := coverage fs cs' cv in Ok (reports, TestPassed (Some q))
       end.
(** test.go:104-132 with --coverprofile: the profile, when all examples passed. *)
Definition run_profile (H : hangul_lib) (fs : opened) (cs : nat -> choices) (cs' : bytes -> choices)
           (order : list bytes -> list bytes) (args : list bytes) : res (option (list profile_line)) :=
  let! '(c, reports, done) := test_files H fs cs 0 (Some new_cover) args in
  if negb done || existsb is_differs reports then Ok None
  else match c with
       | None => Ok None
       | Some cv => let! p := write_profile fs cs' cv (order (cv_names cv)) in Ok (Some p)
       end.
