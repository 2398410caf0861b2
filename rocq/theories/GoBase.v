(** Runtime conventions of the model: Go values, failures and slices.
    The Go runtime and standard library are not in /repo; definitions that model
    them name the Go function and the places in /repo that use it. *)
From Coq Require Import Ascii String.
From Coq Require Export List NArith ZArith Lia Bool Arith.
From Coq Require Export ZifyBool ZifyNat ZifyN.
Export ListNotations.

(** A Go string or []byte: bytes as natural numbers. *)
Definition bytes := list N.

(** A Go rune (non-negative in every place the code uses one). *)
Definition rune := N.

(** String literals of the Go source, as the UTF-8 bytes the Go compiler stores. *)
Definition lit (s : String.string) : bytes :=
  map N_of_ascii (list_ascii_of_string s).

(** Errors returned by the functions of /repo. *)
Inductive gerror :=
| ErrSpecNotFound (lang : bytes)          (* errors.go:6, specs.go:56 *)
| ErrTranslit (scheme : bytes)            (* errors.go:9, procedure.go:64 *)
| ErrTranslitNotImported (scheme : bytes) (* errors.go:13, procedure.go:58 *)
| ErrIllegalToken                         (* pkg/hsl/tokens.go:5 *)
| ErrPairNotInSection                     (* pkg/hsl/parser.go:69 *)
| ErrCodes                                (* spec.go:234 *)
| ErrMultipleValues                       (* pkg/hsl/structures.go:162 *)
| ErrScriptNotFound (name : bytes)        (* spec.go:163 *)
| ErrUnlimitedNegative                    (* spec.go:290 *)
| ErrEmptyPattern                         (* pkg/hre/pattern.go:69 *)
| ErrZeroWidthMiddle                      (* pkg/hre/assertions.go:196 *)
| ErrRegexp                               (* regexp.Compile errors *)
| ErrMappedVars                           (* pkg/hre/rpattern.go:115 *)
| ErrOpen                                 (* os.Open, cmd/hangulize/test.go:44, cover.go:101 *)
| ErrOther (msg : bytes).                 (* any error of an external Translit *)

(** Run-time panics the functions of /repo can raise. *)
Inductive gpanic :=
| PSlice          (* slice bounds out of range *)
| PIndex          (* index out of range *)
| PDivZero        (* integer divide by zero *)
| PTypeAssert     (* failed type assertion *)
| PNil            (* nil dereference *)
| PZeroWidth      (* pkg/hre/pattern.go:216 *)
| PSubmatches     (* pkg/hre/pattern.go:208 *)
| PNotQuote       (* pkg/hsl/lexer.go:149 *)
| PNotArrow       (* pkg/hsl/lexer.go:186 *)
| PAddPair        (* pkg/hsl/parser.go:103 *)
| PBundled        (* specs.go:62 *)
| PCountry        (* translit/cyrillic/cyrillic.go:25 *)
| PUsage          (* translit/translit.go:20 *)
| PRepeat         (* strings.Repeat with a negative count *)
| PCover          (* cmd/hangulize/cover.go:69,75 *)
| PJs             (* syscall/js: an exception, or a value of the wrong type *)
| PConcurrentMap. (* fatal error: concurrent map access *)

(** Outcome of running a Go function.
    [Hang]: the Go code loops for ever.
    [NoFuel]: the fuel of the Coq model ran out (an artefact, proved unreachable).
    [Unmodelled]: the code left the modelled subset of package regexp. *)
Inductive res (A : Type) :=
| Ok (a : A)
| Err (e : gerror)
| Panic (p : gpanic)
| Hang
| NoFuel
| Unmodelled.
Arguments Ok {A} a.
Arguments Err {A} e.
Arguments Panic {A} p.
Arguments Hang {A}.
Arguments NoFuel {A}.
Arguments Unmodelled {A}.

Definition bind {A B} (x : res A) (f : A -> res B) : res B :=
  match x with
  | Ok a => f a
  | Err e => Err e
  | Panic p => Panic p
  | Hang => Hang
  | NoFuel => NoFuel
  | Unmodelled => Unmodelled
  end.

Declare Scope res_scope.
Delimit Scope res_scope with res.
Notation "'let!' x ':=' a 'in' b" := (bind a (fun x => b))
  (at level 200, x name, a at level 100, b at level 200) : res_scope.
Notation "'let!' ' p ':=' a 'in' b" := (bind a (fun p => b))
  (at level 200, p pattern, a at level 100, b at level 200) : res_scope.
Open Scope res_scope.

(** [for _, x := range l { acc = f acc x }] where the body can fail. *)
Fixpoint rfold {A B} (f : A -> B -> res A) (l : list B) (a : A) : res A :=
  match l with
  | [] => Ok a
  | x :: l' => let! a' := f a x in rfold f l' a'
  end.

(** Go int. The code never gets near overflow on strings that fit in memory,
    so [int] is unbounded [Z]. *)
Definition len {A} (l : list A) : Z := Z.of_nat (length l).

(** Go [s[i:j]] with its bounds check. *)
Definition slice {A} (s : list A) (i j : Z) : res (list A) :=
  if ((0 <=? i) && (i <=? j) && (j <=? len s))%Z
  then Ok (firstn (Z.to_nat (j - i)) (skipn (Z.to_nat i) s))
  else Panic PSlice.

(** Go [s[i]] with its bounds check. *)
Definition index {A} (s : list A) (i : Z) : res A :=
  if (0 <=? i)%Z
  then match nth_error s (Z.to_nat i) with Some x => Ok x | None => Panic PIndex end
  else Panic PIndex.

(** Go [==] on strings. *)
Fixpoint beqb (a b : bytes) : bool :=
  match a, b with
  | [], [] => true
  | x :: a', y :: b' => (x =? y)%N && beqb a' b'
  | _, _ => false
  end.

(** strings.HasPrefix(s, p). *)
Fixpoint has_prefix (s p : bytes) : bool :=
  match p, s with
  | [], _ => true
  | y :: p', x :: s' => (x =? y)%N && has_prefix s' p'
  | _ :: _, [] => false
  end.

(** Go map: association list, distinct keys, list order = iteration order. *)
Fixpoint lookup {A} (m : list (bytes * A)) (k : bytes) : option A :=
  match m with
  | [] => None
  | (k', v) :: m' => if beqb k' k then Some v else lookup m' k
  end.

(** Go set of runes [map[rune]bool]. *)
Definition nmem (x : N) (l : list N) : bool := existsb (N.eqb x) l.
