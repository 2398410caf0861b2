(** Package pkg/hre. Go maps are association lists whose order is the iteration
    order chosen by the runtime. *)
From Coq Require Import String.
From Verif Require Import GoBase Utf8 Replacer Regex RegexParse.
Open Scope N_scope.

Definition macros_map := list (bytes * bytes).
Definition vars_map := list (bytes * list bytes).

(** ** Regular expressions of the package *)

(** util.go:62-94: the verbose expressions below with comments and white space
    removed, as [re] removes them. *)
Definition reLeftEdge : regexp := must_compile (lit "\^+").          (* assertions.go:11 *)
Definition reRightEdge : regexp := must_compile (lit "\$+").         (* assertions.go:14 *)
Definition reZeroWidth : regexp := must_compile (lit "\{([^}]+)\}"). (* assertions.go:18-27 *)
Definition reLookahead : regexp :=
  must_compile (lit "(?:\{([^}]+)\})?(\$*)$").                       (* assertions.go:32-45 *)
Definition reLookbehind : regexp :=
  must_compile (lit "^(\^*)(?:\{([^}]+)\})?").                       (* assertions.go:50-63 *)
Definition reVar : regexp := must_compile (lit "<(.+?)>").           (* var.go:12 *)
Definition reSpace : regexp := must_compile (lit "\s").              (* util.go:100 *)
Definition reGroup : regexp := must_compile (lit "\(\?(:|P<.+?>)").  (* util.go:101 *)
Definition reMeta : regexp := must_compile (lit "/").                (* util.go:102 *)
Definition reQuoted : regexp := must_compile (lit "\\.").            (* util.go:103 *)

(** ** util.go *)

(** util.go:10-17 indexOf *)
Fixpoint index_of (val : bytes) (vals : list bytes) : Z :=
  match vals with
  | [] => (-1)%Z
  | v :: vals' =>
    if beqb v val then 0%Z
    else let i := index_of val vals' in if (i =? -1)%Z then (-1)%Z else (i + 1)%Z
  end.

(** util.go:21-38 substr *)
Definition substr (s : bytes) (start stop : Z) : bytes :=
  (if (start <? 0) || (stop <? 0) then []
   else let n := len s in
        if n <=? start then []
        else let stop := if n <? stop then n else stop in
             if 0 <? stop - start
             then firstn (Z.to_nat (stop - start)) (skipn (Z.to_nat start) s)
             else [])%Z.

(** util.go:41-44 captured *)
Definition captured (s : bytes) (m : list Z) (n : Z) : res bytes :=
  let! a := index m (n * 2)%Z in
  let! b := index m (n * 2 + 1)%Z in
  Ok (substr s a b).

(** util.go:47-49 noCapture *)
Definition no_capture (expr : bytes) : bytes := replace_byte 0x28 (lit "(?:") expr.

(** util.go:106-128 regexpLetters *)
Definition regexp_letters (expr : bytes) : bytes :=
  remove_all reQuoted (quote_meta
    (remove_all reQuoted (remove_all reMeta (remove_all reGroup (remove_all reSpace expr))))).

(** util.go:130-136 splitLetters *)
Definition split_letters (word : bytes) : list rune := runes word.

(** map[rune]bool built by insertion (pattern.go:88-91): the set of its keys, in
    some order. *)
Definition letter_set (ls : list rune) : list rune := nodup N.eq_dec ls.

(** sort.Slice (pattern.go:132-134, rpattern.go:143-145) *)
Fixpoint insert_rune (r : rune) (l : list rune) : list rune :=
  match l with
  | [] => [r]
  | x :: l' => if r <=? x then r :: l else x :: insert_rune r l'
  end.
Definition sort_runes (l : list rune) : list rune := fold_right insert_rune [] l.

(** ** macro.go:8-21 expandMacros *)
Definition expand_macros (expr : bytes) (macros : macros_map) : bytes :=
  replacer_replace macros expr.

(** ** var.go *)

(** var.go:38-43 getVar: an unknown name has no values (nil). *)
Definition get_var (expr : bytes) (vars : vars_map) : list bytes :=
  match lookup vars (trim_bytes (lit "<>") expr) with
  | Some vals => vals
  | None => []
  end.

(** strings.Join *)
Fixpoint join (sep : bytes) (l : list bytes) : bytes :=
  match l with
  | [] => []
  | [x] => x
  | x :: l' => x ++ sep ++ join sep l'
  end.

(** var.go:24-30: the values as an expression like (a|b|c). *)
Definition var_group (vals : list bytes) : bytes :=
  lit "(" ++ join (lit "|") (map quote_meta vals) ++ lit ")".

(** var.go:15-34 expandVars *)
Definition expand_vars (expr : bytes) (vars : vars_map) : bytes * list (list bytes) :=
  let '(used, expr') :=
    replace_all_func reVar
      (fun used varExpr => let vals := get_var varExpr vars in (used ++ [vals], var_group vals))
      [] expr in
  (expr', used).

(** ** width.go:8-96 RegexpMaxWidth *)
Fixpoint max_width (r : re) : Z :=
  match r with
  | RNoMatch | REmpty => 0
  | RLit rs => len rs
  | RClass _ | RAnyNotNL | RAny => 1
  | RBegin | REnd => 0
  | RCap _ r => max_width r
  | RStar _ _ | RPlus _ _ => -1
  | RQuest _ r => max_width r
  | RRepeat _ _ mx r =>
    match mx with
    | None => -1
    | Some m => Z.of_nat m * max_width r
    end
  | RCat l => (fix go (l : list re) (total : Z) : Z :=
                 match l with
                 | [] => total
                 | r :: l' => let n := max_width r in
                              if n =? -1 then -1 else go l' (total + n)
                 end) l 0
  | RAlt l => (fix go (l : list re) (mx : Z) : Z :=
                 match l with
                 | [] => mx
                 | r :: l' => let n := max_width r in
                              if n =? -1 then -1 else go l' (if mx <? n then n else mx)
                 end) l 0
  end%Z.

(** ** assertions.go *)

(** assertions.go:78-119 dissolveLookaround: (lookExpr, negExpr, negWidth, ok). *)
Definition dissolve_lookaround (format : bytes -> bytes) (lookExpr : bytes) (hasEdge : bool)
  : res (bytes * bytes * Z * bool) :=
  match lookExpr with
  | [] => Ok ([], [], 0%Z, true)
  | c :: rest =>
    if c =? 0x7E (* ~ *) then
      if hasEdge then Ok ([], [], 0%Z, true)
      else
        let negExpr := format rest in
        match parse_re negExpr with
        | Ok (r, _) => Ok ([], negExpr, max_width r, true)
        | Err _ => Ok ([], [], 0%Z, false)
        | Panic p => Panic p
        | Hang => Hang
        | NoFuel => NoFuel
        | Unmodelled => Unmodelled
        end
    else if hasEdge then Ok ([], [], 0%Z, false)
    else Ok (lookExpr, [], 0%Z, true)
  end.

Definition nonempty (s : bytes) : bool := match s with [] => false | _ => true end.

(** What an impossible lookaround becomes (assertions.go:148,184). *)
Definition paradox : bytes := lit ".^^".

(** assertions.go:123-156 expandLookahead *)
Definition expand_lookahead (expr : bytes) : res (bytes * bytes * Z) :=
  let m := find_submatch_index reLookahead expr in
  let! start := index m 0%Z in
  let! otherExpr := slice expr 0%Z start in
  let! edge := captured expr m 2%Z in
  let! look := captured expr m 1%Z in
  let edgeExpr := no_capture edge in
  let! '(lookExpr, negA, negAWidth, ok) :=
    dissolve_lookaround (fun s => lit "^(" ++ s ++ lit ")") (no_capture look) (nonempty edgeExpr) in
  if ok
  then Ok (otherExpr ++ lit "(" ++ lookExpr ++ lit ")(" ++ edgeExpr ++ lit ")", negA, negAWidth)
  else Ok (paradox, [], 0%Z).

(** assertions.go:159-192 expandLookbehind *)
Definition expand_lookbehind (expr : bytes) : res (bytes * bytes * Z) :=
  let m := find_submatch_index reLookbehind expr in
  let! stop := index m 1%Z in
  let! otherExpr := slice expr stop (len expr) in
  let! edge := captured expr m 1%Z in
  let! look := captured expr m 2%Z in
  let edgeExpr := no_capture edge in
  let! '(lookExpr, negB, negBWidth, ok) :=
    dissolve_lookaround (fun s => lit "(" ++ s ++ lit ")$") (no_capture look) (nonempty edgeExpr) in
  if ok
  then Ok (lit "(" ++ edgeExpr ++ lit ")(" ++ lookExpr ++ lit ")" ++ otherExpr, negB, negBWidth)
  else Ok (paradox, [], 0%Z).

(** assertions.go:66-76 expandLookaround (with mustNoZeroWidth, 194-199):
    (posExpr, negAExpr, negBExpr, negAWidth, negBWidth) *)
Definition expand_lookaround (expr : bytes) : res (bytes * bytes * bytes * Z * Z) :=
  let! '(pos1, negA, negAWidth) := expand_lookahead expr in
  let! '(pos2, negB, negBWidth) := expand_lookbehind pos1 in
  if match_string reZeroWidth pos2 then Err ErrZeroWidthMiddle
  else Ok (pos2, negA, negB, negAWidth, negBWidth).

(** assertions.go:201-219 expandEdges *)
Definition expand_edges (expr : bytes) : bytes :=
  let expr1 := snd (replace_all_func reLeftEdge
    (fun (_ : unit) e => (tt, if beqb e (lit "^") then lit "(?:^|\s+|{})" else lit "^")) tt expr) in
  snd (replace_all_func reRightEdge
    (fun (_ : unit) e => (tt, if beqb e (lit "$") then lit "(?:$|\s+|{})" else lit "$")) tt expr1).

(** ** pattern.go *)

(** pattern.go:37-52 Pattern *)
Record pattern := {
  p_expr : bytes;
  p_re : regexp;
  p_negA : option regexp;
  p_negB : option regexp;
  p_negAWidth : Z;
  p_negBWidth : Z;
  p_letters : list rune;
  p_usedVars : list (list bytes)
}.

(** regexp.Compile of an optional expression (pattern.go:103-117). *)
Definition compile_opt (expr : bytes) : res (option regexp) :=
  match expr with
  | [] => Ok None
  | _ => let! e := compile_re expr in Ok (Some e)
  end.

(** pattern.go:61-121 NewPattern. Error values keep only their kind. *)
Definition new_pattern (expr : bytes) (macros : macros_map) (vars : vars_map) : res pattern :=
  match expr with
  | [] => Err ErrEmptyPattern
  | _ =>
    let '(reExpr, usedVars) := expand_vars (expand_macros expr macros) vars in
    let! '(reExpr, negAExpr, negBExpr, negAWidth, negBWidth) := expand_lookaround reExpr in
    let reExpr := expand_edges reExpr in
    let letters := letter_set (split_letters (regexp_letters (reExpr ++ negAExpr ++ negBExpr))) in
    let! e := compile_re reExpr in
    let! negA := compile_opt negAExpr in
    let! negB := compile_opt negBExpr in
    Ok {| p_expr := expr; p_re := e; p_negA := negA; p_negB := negB;
          p_negAWidth := negAWidth; p_negBWidth := negBWidth;
          p_letters := letters; p_usedVars := usedVars |}
  end.

(** pattern.go:127-136 Letters *)
Definition pattern_letters (p : pattern) : list rune := sort_runes (p_letters p).

(** pattern.go:155-158 NegativeLookaroundWidths *)
Definition negative_lookaround_widths (p : pattern) : Z * Z := (p_negAWidth p, p_negBWidth p).

(** pattern.go:162-174 pickStartStop *)
Definition pick_start_stop (m : list Z) : res (Z * Z) :=
  let! m5 := index m 5%Z in
  let! start := if (m5 =? -1)%Z then index m 0%Z else Ok m5 in
  let! m4 := index m (len m - 4)%Z in
  let! stop := if (m4 =? -1)%Z then index m 1%Z else Ok m4 in
  Ok (start, stop).

(** pattern.go:187-191 *)
Definition shift (offset : Z) (m : list Z) : list Z :=
  map (fun x => if (x =? -1)%Z then x else (x + offset)%Z) m.

(** pattern.go:222-252: do the negative lookarounds allow the match? *)
Definition negatives_allow (p : pattern) (word : bytes) (m : list Z) : res bool :=
  let! a := match p_negA p with
            | None => Ok true
            | Some e =>
              let! st := index m (len m - 4)%Z in
              let stop := if (p_negAWidth p =? -1)%Z then len word else (st + p_negAWidth p)%Z in
              Ok (negb (match_string e (substr word st stop)))
            end in
  if a
  then match p_negB p with
       | None => Ok true
       | Some e =>
         let! stop := index m 5%Z in
         let st := if (p_negBWidth p =? -1)%Z then 0%Z else (stop - p_negBWidth p)%Z in
         Ok (negb (match_string e (substr word st stop)))
       end
  else Ok false.

(** pattern.go:178-264 Find: the loop with [fuel] iterations left, from [offset],
    [acc] being the matches so far (latest first). *)
Fixpoint find_loop (fuel : nat) (p : pattern) (word : bytes) (n : Z) (offset : Z)
         (acc : list (list Z)) : res (list (list Z)) :=
  match fuel with
  | O => NoFuel
  | S fuel' =>
    if (offset <? len word)%Z && ((n <? 0)%Z || (len acc <? n)%Z) then
      let! rest := slice word offset (len word) in
      let m := shift offset (find_submatch_index (p_re p) rest) in
      let lenM := len m in
      if (lenM =? 0)%Z then Ok (rev acc)
      else if (lenM <? 10)%Z then Panic PSubmatches
      else
        let! '(start, stop) := pick_start_stop m in
        if (stop - start =? 0)%Z then Panic PZeroWidth
        else
          let! ok := negatives_allow p word m in
          if ok
          then
            let! core := slice m 6%Z (lenM - 4)%Z in
            find_loop fuel' p word n stop ((start :: stop :: core) :: acc)
          else find_loop fuel' p word n stop acc
    else Ok (rev acc)
  end.

(** Every iteration but the last leaves the cursor where it is (which repeats
    forever, or up to [n] times when matches are accepted) or advances it: when
    this many iterations do not suffice, no number does (see HreFacts). *)
Definition find (p : pattern) (word : bytes) (n : Z) : res (list (list Z)) :=
  match find_loop (S (length word + Z.to_nat n)) p word n 0%Z [] with
  | NoFuel => Hang
  | r => r
  end.

(** ** rpattern.go *)

(** rpattern.go:33-47 *)
Inductive rpart :=
| Plain (s : bytes)
| ToVar (s : bytes) (usedVar : list bytes).

(** rpattern.go:18-25 RPattern *)
Record rpattern := { r_expr : bytes; r_parts : list rpart; r_letters : list rune }.

Definition plain_part (s : bytes) : list rpart :=
  match s with [] => [] | _ => [Plain s] end.

(** rpattern.go:63-85: splitting at the variables. *)
Fixpoint split_parts (ms : list (nat * nat * caps)) (expr : bytes) (vars : vars_map) (offset : nat)
  : list rpart :=
  match ms with
  | [] => plain_part (skipn offset expr)
  | (a, b, _) :: ms' =>
    plain_part (sub expr offset a)
    ++ ToVar (sub expr a b) (get_var (sub expr a b) vars)
    :: split_parts ms' expr vars b
  end.

(** rpattern.go:52-94 NewRPattern *)
Definition new_rpattern (expr : bytes) (macros : macros_map) (vars : vars_map) : rpattern :=
  let e := expand_macros expr macros in
  {| r_expr := expr;
     r_parts := split_parts (find_all_index reVar e) e vars 0;
     r_letters := letter_set (split_letters (regexp_letters expr)) |}.

(** rpattern.go:138-147 Letters *)
Definition rpattern_letters (rp : rpattern) : list rune := sort_runes (r_letters rp).

(** Go's i % n for i >= -1: the sign follows the dividend; n = 0 panics. *)
Definition go_mod (i n : Z) : res Z :=
  if (n =? 0)%Z then Panic PDivZero else Ok (Z.rem i n).

(** rpattern.go:99-134 Interpolate *)
Fixpoint interpolate_parts (parts : list rpart) (varIndex : Z) (p : pattern) (word : bytes)
         (m : list Z) : res bytes :=
  match parts with
  | [] => Ok []
  | Plain s :: parts' =>
    let! r := interpolate_parts parts' varIndex p word m in Ok (s ++ r)
  | ToVar _ usedVar :: parts' =>
    if (len (p_usedVars p) - 1 <? varIndex)%Z then Err ErrMappedVars
    else
      let! fromVar := index (p_usedVars p) varIndex in
      let! fromVal := captured word m (varIndex + 1)%Z in
      let! i := go_mod (index_of fromVal fromVar) (len usedVar) in
      let! toVal := index usedVar i in
      let! r := interpolate_parts parts' (varIndex + 1)%Z p word m in
      Ok (toVal ++ r)
  end.
Definition interpolate (rp : rpattern) (p : pattern) (word : bytes) (m : list Z) : res bytes :=
  interpolate_parts (r_parts rp) 0%Z p word m.

(** pattern.go:267-288 Replace: the loop over the matches. *)
Fixpoint replace_loop (ms : list (list Z)) (p : pattern) (rp : rpattern) (word : bytes)
         (cur : Z) (buf : bytes) : res bytes :=
  match ms with
  | [] => let! t := slice word cur (len word) in Ok (buf ++ t)
  | m :: ms' =>
    let! start := index m 0%Z in
    let! stop := index m 1%Z in
    let! before := slice word cur start in
    let! mid := match interpolate rp p word m with
                | Err _ => slice word start stop
                | r => r
                end in
    replace_loop ms' p rp word stop (buf ++ before ++ mid)
  end.
Definition pattern_replace (p : pattern) (word : bytes) (rp : rpattern) (n : Z) : res bytes :=
  let! ms := find p word n in replace_loop ms p rp word 0%Z [].
