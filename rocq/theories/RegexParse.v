(** regexp/syntax.Parse(s, Perl), restricted: flags groups (?i), named groups,
    \Q..\E, \b, \B, \p, [[:posix:]], octal and hexadecimal escapes are outside of
    the modelled subset ([Unmodelled]). The limits on nesting depth (1000) and on
    the total size of repetitions are not modelled. *)
From Verif Require Import GoBase Utf8 Regex.
Open Scope N_scope.

(** An open group: its capture number (None for a non-capturing group), the
    finished alternatives (latest first) and the current concatenation (latest first).
    Models parser.stack with its opLeftParen and opVerticalBar markers. *)
Record frame := { f_cap : option nat; f_alts : list re; f_cur : list re }.

Definition mk_cat (rev_items : list re) : re :=
  match rev_items with
  | [] => REmpty
  | [r] => r
  | _ => RCat (rev rev_items)
  end.

(** parser.concat, parser.alternate: close the group. *)
Definition finish (f : frame) : re :=
  match f_alts f with
  | [] => mk_cat (f_cur f)
  | alts => RAlt (rev (mk_cat (f_cur f) :: alts))
  end.

Definition push (f : frame) (r : re) : frame :=
  {| f_cap := f_cap f; f_alts := f_alts f; f_cur := r :: f_cur f |}.

(** perl_groups.go *)
Definition cls_d : list (N * N) := [(0x30, 0x39)].
Definition cls_s : list (N * N) := [(0x9, 0xA); (0xC, 0xD); (0x20, 0x20)].
Definition cls_w : list (N * N) := [(0x30, 0x39); (0x41, 0x5A); (0x5F, 0x5F); (0x61, 0x7A)].
Definition ncls_d : list (N * N) := [(0, 0x2F); (0x3A, 0x10FFFF)].
Definition ncls_s : list (N * N) := [(0, 0x8); (0xB, 0xB); (0xE, 0x1F); (0x21, 0x10FFFF)].
Definition ncls_w : list (N * N) := [(0, 0x2F); (0x3A, 0x40); (0x5B, 0x5E); (0x60, 0x60); (0x7B, 0x10FFFF)].

(** parser.parsePerlClassEscape *)
Definition perl_class (c : rune) : option (list (N * N)) :=
  if c =? 0x64 then Some cls_d else if c =? 0x73 then Some cls_s
  else if c =? 0x77 then Some cls_w else if c =? 0x44 then Some ncls_d
  else if c =? 0x53 then Some ncls_s else if c =? 0x57 then Some ncls_w else None.

Definition is_alnum (c : rune) : bool :=
  ((0x30 <=? c) && (c <=? 0x39)) || ((0x41 <=? c) && (c <=? 0x5A)) || ((0x61 <=? c) && (c <=? 0x7A)).

(** parser.parseEscape after the backslash: one literal character. *)
Definition parse_escape (t : list rune) : res (rune * list rune) :=
  match t with
  | [] => Err ErrRegexp                                        (* trailing backslash *)
  | c :: t' =>
    if (0x30 <=? c) && (c <=? 0x37) then Unmodelled            (* octal *)
    else if c =? 0x78 then Unmodelled                          (* hexadecimal *)
    else if c =? 0x61 then Ok (7, t') else if c =? 0x66 then Ok (12, t')
    else if c =? 0x6E then Ok (10, t') else if c =? 0x72 then Ok (13, t')
    else if c =? 0x74 then Ok (9, t') else if c =? 0x76 then Ok (11, t')
    else if (c <? 0x80) && negb (is_alnum c) then Ok (c, t')
    else Err ErrRegexp                                         (* invalid escape *)
  end.

(** parser.parseClassChar *)
Definition parse_class_char (t : list rune) : res (rune * list rune) :=
  match t with
  | [] => Err ErrRegexp
  | c :: t' => if c =? 0x5C then parse_escape t' else Ok (c, t')
  end.

(** Complement of a list of ranges within [0, 0x10FFFF], one range at a time. *)
Definition subtract_range (lo hi : N) (acc : list (N * N)) : list (N * N) :=
  flat_map (fun p => let '(a, b) := p in
    (if (a <? lo) then [(a, N.min b (lo - 1))] else [])
    ++ (if (hi <? b) then [(N.max a (hi + 1), b)] else [])) acc.
Definition negate_ranges (l : list (N * N)) : list (N * N) :=
  fold_left (fun acc p => subtract_range (fst p) (snd p) acc) l [(0, 0x10FFFF)].

(** parser.parseClass after "[" and "^". *)
Fixpoint parse_class (fuel : nat) (t : list rune) (first : bool) (acc : list (N * N))
  : res (list (N * N) * list rune) :=
  match fuel with
  | O => NoFuel
  | S fuel' =>
    match t with
    | [] => Err ErrRegexp                                      (* missing ] *)
    | c :: t1 =>
      if (c =? 0x5D) && negb first then Ok (rev acc, t1)
      else if (c =? 0x5B) && (match t1 with c1 :: _ :: _ => c1 =? 0x3A | _ => false end)
      then Unmodelled                                          (* [:posix:] *)
      else
        match (if c =? 0x5C then match t1 with c1 :: t2 => match perl_class c1 with
                                               | Some k => Some (k, t2) | None => None end
                                             | [] => None end
               else None) with
        | Some (k, t2) => parse_class fuel' t2 false (rev k ++ acc)
        | None =>
          if (c =? 0x5C) && (match t1 with c1 :: _ => (c1 =? 0x70) || (c1 =? 0x50) | [] => false end)
          then Unmodelled                                      (* \p *)
          else
            let! '(lo, t2) := parse_class_char t in
            match t2 with
            | d :: t3 =>
              if (d =? 0x2D) && (match t3 with e :: _ => negb (e =? 0x5D) | [] => false end)
              then let! '(hi, t4) := parse_class_char t3 in
                   if hi <? lo then Err ErrRegexp
                   else parse_class fuel' t4 false ((lo, hi) :: acc)
              else parse_class fuel' t2 false ((lo, lo) :: acc)
            | [] => parse_class fuel' t2 false ((lo, lo) :: acc)
            end
        end
    end
  end.

(** parser.parseInt: decimal digits without leading zeros. *)
Definition is_dig (c : rune) : bool := (0x30 <=? c) && (c <=? 0x39).
Fixpoint take_digits (t : list rune) : list rune * list rune :=
  match t with
  | c :: t' => if is_dig c then let '(ds, r) := take_digits t' in (c :: ds, r) else ([], t)
  | [] => ([], [])
  end.
Definition parse_int (t : list rune) : option (N * list rune) :=
  let '(ds, r) := take_digits t in
  match ds with
  | [] => None
  | d :: _ :: _ => if d =? 0x30 then None
                   else Some (fold_left (fun a d => a * 10 + (d - 0x30)) ds 0, r)
  | _ => Some (fold_left (fun a d => a * 10 + (d - 0x30)) ds 0, r)
  end.

(** parser.repeat after "{": (min, max, rest); None means "treat { as a literal". *)
Definition parse_repeat (t : list rune) : option (N * option N * list rune) :=
  match parse_int t with
  | None => None
  | Some (mn, t1) =>
    match t1 with
    | c :: t2 =>
      if c =? 0x7D then Some (mn, Some mn, t2)
      else if c =? 0x2C then
        match t2 with
        | c2 :: t3 =>
          if c2 =? 0x7D then Some (mn, None, t3)
          else match parse_int t2 with
               | Some (mx, c4 :: t5) => if c4 =? 0x7D then Some (mn, Some mx, t5) else None
               | _ => None
               end
        | [] => None
        end
      else None
    | [] => None
    end
  end.

(** parser.repeat(op, ...): apply a repetition to the last item. *)
Definition apply_repeat (f : frame) (op : re -> re) : res frame :=
  match f_cur f with
  | [] => Err ErrRegexp                                        (* missing argument *)
  | r :: cur => Ok {| f_cap := f_cap f; f_alts := f_alts f; f_cur := op r :: cur |}
  end.

(** A following "?" makes a repetition non-greedy. *)
Definition lazy_suffix (t : list rune) : bool * list rune :=
  match t with
  | c :: t' => if c =? 0x3F then (false, t') else (true, t)
  | [] => (true, t)
  end.

(** Main loop of syntax.parse. [last_rep]: the previous token was a repetition
    operator (stacking them is an error). Returns the tree and the number of
    capturing groups. *)
Fixpoint parse_loop (fuel : nat) (t : list rune) (outer : list frame) (cur : frame)
         (ncap : nat) (last_rep : bool) : res (re * nat) :=
  match fuel with
  | O => NoFuel
  | S fuel' =>
    match t with
    | [] =>
      match outer with
      | [] => Ok (finish cur, ncap)
      | _ :: _ => Err ErrRegexp                                (* missing closing ) *)
      end
    | c :: t1 =>
      if c =? 0x28 then (* ( *)
        match t1 with
        | q :: t2 =>
          if q =? 0x3F then (* (? *)
            match t2 with
            | d :: t3 =>
              if d =? 0x3A
              then parse_loop fuel' t3 (cur :: outer)
                     {| f_cap := None; f_alts := []; f_cur := [] |} ncap false
              else Unmodelled
            | [] => Err ErrRegexp
            end
          else parse_loop fuel' t1 (cur :: outer)
                 {| f_cap := Some (S ncap); f_alts := []; f_cur := [] |} (S ncap) false
        | [] => Err ErrRegexp                                  (* missing closing ) *)
        end
      else if c =? 0x7C then (* | *)
        parse_loop fuel' t1 outer
          {| f_cap := f_cap cur; f_alts := mk_cat (f_cur cur) :: f_alts cur; f_cur := [] |}
          ncap false
      else if c =? 0x29 then (* ) *)
        match outer with
        | [] => Err ErrRegexp                                  (* unexpected ) *)
        | f :: outer' =>
          let r := match f_cap cur with
                   | Some i => RCap i (finish cur)
                   | None => finish cur
                   end in
          parse_loop fuel' t1 outer' (push f r) ncap false
        end
      else if c =? 0x5E then parse_loop fuel' t1 outer (push cur RBegin) ncap false (* ^ *)
      else if c =? 0x24 then parse_loop fuel' t1 outer (push cur REnd) ncap false   (* $ *)
      else if c =? 0x2E then parse_loop fuel' t1 outer (push cur RAnyNotNL) ncap false (* . *)
      else if c =? 0x5B then (* [ *)
        let '(neg, t2) := match t1 with
                          | d :: t2 => if d =? 0x5E then (true, t2) else (false, t1)
                          | [] => (false, t1)
                          end in
        let! '(ranges, t3) := parse_class (S (length t2)) t2 true [] in
        parse_loop fuel' t3 outer
          (push cur (RClass (if neg then negate_ranges ranges else ranges))) ncap false
      else if (c =? 0x2A) || (c =? 0x2B) || (c =? 0x3F) then (* * + ? *)
        let '(g, t2) := lazy_suffix t1 in
        if last_rep then Err ErrRegexp
        else
          let! cur' := apply_repeat cur (if c =? 0x2A then RStar g
                                         else if c =? 0x2B then RPlus g else RQuest g) in
          parse_loop fuel' t2 outer cur' ncap true
      else if c =? 0x7B then (* { *)
        match parse_repeat t1 with
        | None => parse_loop fuel' t1 outer (push cur (RLit [c])) ncap false
        | Some (mn, mx, t2) =>
          if (1000 <? mn) || (match mx with Some m => (1000 <? m) || (m <? mn) | None => false end)
          then Err ErrRegexp
          else
            let '(g, t3) := lazy_suffix t2 in
            if last_rep then Err ErrRegexp
            else
              let! cur' := apply_repeat cur
                (RRepeat g (N.to_nat mn) (match mx with Some m => Some (N.to_nat m) | None => None end)) in
              parse_loop fuel' t3 outer cur' ncap true
        end
      else if c =? 0x5C then (* \ *)
        match t1 with
        | d :: t2 =>
          if d =? 0x41 then parse_loop fuel' t2 outer (push cur RBegin) ncap false       (* \A *)
          else if d =? 0x7A then parse_loop fuel' t2 outer (push cur REnd) ncap false    (* \z *)
          else if nmem d [0x62; 0x42; 0x51; 0x70; 0x50] then Unmodelled         (* \b \B \Q \p \P *)
          else match perl_class d with
               | Some k => parse_loop fuel' t2 outer (push cur (RClass k)) ncap false
               | None =>
                 let! '(ch, t3) := parse_escape t1 in
                 parse_loop fuel' t3 outer (push cur (RLit [ch])) ncap false
               end
        | [] => Err ErrRegexp
        end
      else parse_loop fuel' t1 outer (push cur (RLit [c])) ncap false
    end
  end.

Definition frame0 : frame := {| f_cap := None; f_alts := []; f_cur := [] |}.

(** syntax.Parse(s, syntax.Perl): also rejects text that is not UTF-8. *)
Definition parse_re (s : bytes) : res (re * nat) :=
  if valid_utf8 s
  then let rs := runes s in parse_loop (S (length rs)) rs [] frame0 0 false
  else Err ErrRegexp.

(** regexp.Compile *)
Definition compile_re (s : bytes) : res regexp :=
  let! '(r, n) := parse_re s in Ok {| source := s; tree := r; prog := simplify r; numcap := n |}.

(** regexp.MustCompile on the literal expressions of /repo (known to compile). *)
Definition must_compile (s : bytes) : regexp :=
  match compile_re s with
  | Ok e => e
  | _ => {| source := s; tree := RNoMatch; prog := XFail; numcap := 0 |}
  end.
