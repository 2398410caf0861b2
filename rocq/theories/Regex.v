(** Go's package regexp, restricted to what HRE produces: syntax trees, their
    simplification into a core language, and leftmost-first matching with
    submatches. *)
From Verif Require Import GoBase Utf8.
Open Scope N_scope.

(** regexp/syntax.Regexp. [g] is "greedy" (the NonGreedy flag is not set). Runs
    of literal characters are not merged and common prefixes of alternatives are
    not factored as regexp/syntax does: neither changes what matches, nor widths. *)
Inductive re :=
| RNoMatch                                        (* OpNoMatch *)
| REmpty                                          (* OpEmptyMatch *)
| RLit (rs : list rune)                           (* OpLiteral *)
| RClass (ranges : list (N * N))                  (* OpCharClass *)
| RAnyNotNL                                       (* OpAnyCharNotNL *)
| RAny                                            (* OpAnyChar *)
| RBegin                                          (* OpBeginText *)
| REnd                                            (* OpEndText *)
| RCap (i : nat) (r : re)                         (* OpCapture *)
| RStar (g : bool) (r : re)                       (* OpStar *)
| RPlus (g : bool) (r : re)                       (* OpPlus *)
| RQuest (g : bool) (r : re)                      (* OpQuest *)
| RRepeat (g : bool) (min : nat) (max : option nat) (r : re) (* OpRepeat *)
| RCat (l : list re)                              (* OpConcat *)
| RAlt (l : list re).                             (* OpAlternate *)

(** Core language executed by the matcher (regexp/syntax.Prog in tree form). *)
Inductive rx :=
| XFail
| XEps
| XSet (ranges : list (N * N))
| XBegin
| XEnd
| XCap (i : nat) (r : rx)
| XCat (a b : rx)
| XAlt (a b : rx)
| XStar (g : bool) (r : rx).  (* compiler.loop: iterations that make progress *)

(** Membership in a (not necessarily sorted) list of inclusive ranges. *)
Definition in_set (ranges : list (N * N)) (r : rune) : bool :=
  existsb (fun p => (fst p <=? r) && (r <=? snd p)) ranges.

(** frag.nullable of regexp/syntax/compile.go. *)
Fixpoint nullable (r : rx) : bool :=
  match r with
  | XFail => false
  | XEps => true
  | XSet _ => false
  | XBegin => true
  | XEnd => true
  | XCap _ r => nullable r
  | XCat a b => nullable a && nullable b
  | XAlt a b => nullable a || nullable b
  | XStar _ _ => true
  end.

Definition xquest (g : bool) (r : rx) : rx := if g then XAlt r XEps else XAlt XEps r.
Definition xplus (g : bool) (r : rx) : rx := XCat r (XStar g r).
(** compiler.star: (x+)? when x can match the empty text. *)
Definition xstar (g : bool) (r : rx) : rx :=
  if nullable r then xquest g (xplus g r) else XStar g r.

Fixpoint xpow (n : nat) (r : rx) (tail : rx) : rx :=
  match n with O => tail | S n' => XCat r (xpow n' r tail) end.
(** x{0,m} = (x(x(x)?)?)? *)
Fixpoint xupto (g : bool) (m : nat) (r : rx) : rx :=
  match m with
  | O => XEps
  | S O => xquest g r
  | S m' => xquest g (XCat r (xupto g m' r))
  end.

(** syntax.Regexp.Simplify followed by compilation. *)
Fixpoint simplify (r : re) : rx :=
  match r with
  | RNoMatch => XFail
  | REmpty => XEps
  | RLit rs => (fix go (rs : list rune) : rx :=
                  match rs with
                  | [] => XEps
                  | [c] => XSet [(c, c)]
                  | c :: rs' => XCat (XSet [(c, c)]) (go rs')
                  end) rs
  | RClass ranges => XSet ranges
  | RAnyNotNL => XSet [(0, 9); (11, 0x10FFFF)]
  | RAny => XSet [(0, 0x10FFFF)]
  | RBegin => XBegin
  | REnd => XEnd
  | RCap i r => XCap i (simplify r)
  | RStar g r => xstar g (simplify r)
  | RPlus g r => xplus g (simplify r)
  | RQuest g r => xquest g (simplify r)
  | RRepeat g mn mx r =>
    let x := simplify r in
    match mx with
    | None => match mn with
              | O => xstar g x
              | S n => xpow n x (xplus g x)
              end
    | Some m => xpow mn x (xupto g (m - mn) x)
    end
  | RCat l => (fix go (l : list re) : rx :=
                 match l with
                 | [] => XEps
                 | [r] => simplify r
                 | r :: l' => XCat (simplify r) (go l')
                 end) l
  | RAlt l => (fix go (l : list re) : rx :=
                 match l with
                 | [] => XFail
                 | [r] => simplify r
                 | r :: l' => XAlt (simplify r) (go l')
                 end) l
  end.

(** Text still to be matched, as characters with their byte widths. *)
Definition text := list (rune * nat).
(** Captured groups, latest first: (group, (start, stop)). *)
Definition caps := list (nat * (nat * nat)).

(** Leftmost-first backtracking: the first way (in priority order) to match [r]
    at byte position [p] of a text whose remainder is [s], such that [k] accepts
    the rest. Go's regexp promises this result ("the one that a search would
    have found first"). Exact for loop bodies that do not match the empty text;
    an empty iteration of a later round is dropped, as in regexp.backtrack where
    a (pc, position) pair is visited once. *)
Fixpoint mt {A} (r : rx) (s : text) (p : nat) (c : caps)
         (k : text -> nat -> caps -> option A) {struct r} : option A :=
  match r with
  | XFail => None
  | XEps => k s p c
  | XSet ranges =>
    match s with
    | [] => None
    | (ch, w) :: s' => if in_set ranges ch then k s' (p + w)%nat c else None
    end
  | XBegin => match p with O => k s p c | S _ => None end
  | XEnd => match s with [] => k s p c | _ :: _ => None end
  | XCap i r => mt r s p c (fun s' p' c' => k s' p' ((i, (p, p')) :: c'))
  | XCat a b => mt a s p c (fun s' p' c' => mt b s' p' c' k)
  | XAlt a b =>
    match mt a s p c k with
    | Some x => Some x
    | None => mt b s p c k
    end
  | XStar g r =>
    (* [n]: as many rounds as there are characters left *)
    (fix loop (n : text) (s : text) (p : nat) (c : caps) : option A :=
       match n with
       | [] => k s p c
       | _ :: n' =>
         if g then
           match mt r s p c (fun s' p' c' => if (p' <=? p)%nat then None else loop n' s' p' c') with
           | Some x => Some x
           | None => k s p c
           end
         else
           match k s p c with
           | Some x => Some x
           | None =>
             mt r s p c (fun s' p' c' => if (p' <=? p)%nat then None else loop n' s' p' c')
           end
       end) s s p c
  end.

(** Unanchored search from byte position [p]: the leftmost start wins. *)
Fixpoint search (r : rx) (s : text) (p : nat) : option (nat * nat * caps) :=
  match mt r s p [] (fun _ p' c => Some (p', c)) with
  | Some (p', c) => Some (p, p', c)
  | None =>
    match s with
    | [] => None
    | (_, w) :: s' => search r s' (p + w)%nat
    end
  end.

(** A compiled regexp.Regexp: its source text, syntax tree, program and number of
    capturing groups. *)
Record regexp := { source : bytes; tree : re; prog : rx; numcap : nat }.

Fixpoint cap_lookup (c : caps) (i : nat) : option (nat * nat) :=
  match c with
  | [] => None
  | (j, se) :: c' => if (j =? i)%nat then Some se else cap_lookup c' i
  end.

(** The index pairs of groups [i .. i+n-1]; -1 for a group that did not take part. *)
Fixpoint cap_array (c : caps) (i n : nat) : list Z :=
  match n with
  | O => []
  | S n' =>
    match cap_lookup c i with
    | Some (a, b) => [Z.of_nat a; Z.of_nat b]
    | None => [(-1)%Z; (-1)%Z]
    end ++ cap_array c (S i) n'
  end.

(** regexp.(Regexp).FindStringSubmatchIndex; [] is Go's nil. *)
Definition find_submatch_index (e : regexp) (s : bytes) : list Z :=
  match search (prog e) (glyphs s) 0 with
  | None => []
  | Some (a, b, c) => Z.of_nat a :: Z.of_nat b :: cap_array c 1 (numcap e)
  end.

(** regexp.(Regexp).MatchString *)
Definition match_string (e : regexp) (s : bytes) : bool :=
  match search (prog e) (glyphs s) 0 with None => false | Some _ => true end.

(** Skip characters of a text up to byte position [stop]. *)
Fixpoint drop_to (stop : nat) (s : text) (p : nat) : text * nat :=
  match s with
  | [] => ([], p)
  | (_, w) :: s' => if (stop <=? p)%nat then (s, p) else drop_to stop s' (p + w)%nat
  end.

(** All successive non-overlapping matches with captures, for expressions that
    never match the empty text (all uses in /repo: reVar, reLeftEdge, reRightEdge,
    reSpace, reGroup, reMeta, reQuoted). An empty match stops the model's loop. *)
Fixpoint find_all (fuel : nat) (r : rx) (s : text) (p : nat) : list (nat * nat * caps) :=
  match fuel with
  | O => []
  | S fuel' =>
    match search r s p with
    | None => []
    | Some (a, b, c) =>
      if (b <=? a)%nat then []
      else let '(s', p') := drop_to b s p in (a, b, c) :: find_all fuel' r s' p'
    end
  end.
Definition find_all_index (e : regexp) (s : bytes) : list (nat * nat * caps) :=
  find_all (length s) (prog e) (glyphs s) 0.

(** Byte range [a, b) of a string (indices known to be in range). *)
Definition sub (s : bytes) (a b : nat) : bytes := firstn (b - a) (skipn a s).

(** regexp.(Regexp).ReplaceAllStringFunc, threading a state through the function
    (the closures in pkg/hre/var.go:18 and assertions.go:202,210). *)
Fixpoint replace_matches {S} (ms : list (nat * nat * caps)) (f : S -> bytes -> S * bytes)
         (st : S) (s : bytes) (last : nat) : S * bytes :=
  match ms with
  | [] => (st, skipn last s)
  | (a, b, _) :: ms' =>
    let '(st1, new) := f st (sub s a b) in
    let '(st2, rest) := replace_matches ms' f st1 s b in
    (st2, sub s last a ++ new ++ rest)
  end.
Definition replace_all_func {S} (e : regexp) (f : S -> bytes -> S * bytes) (st : S) (s : bytes)
  : S * bytes := replace_matches (find_all_index e s) f st s 0.

(** regexp.(Regexp).ReplaceAllString(s, ``) *)
Definition remove_all (e : regexp) (s : bytes) : bytes :=
  snd (replace_all_func e (fun (_ : unit) _ => (tt, [])) tt s).

(** regexp.QuoteMeta: a backslash before each of \.+*?()|[]{}^$ *)
Definition is_meta (c : N) : bool :=
  nmem c [0x5C; 0x2E; 0x2B; 0x2A; 0x3F; 0x28; 0x29; 0x7C; 0x5B; 0x5D; 0x7B; 0x7D; 0x5E; 0x24].
Definition quote_meta (s : bytes) : bytes :=
  flat_map (fun c => if is_meta c then [0x5C; c] else [c]) s.
