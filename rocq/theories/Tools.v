(** cmd/hangulize/ls.go, cmd/hangulize/dev.go and cmd/manifest.json: the commands around the
    bundled languages. The flags are cobra's and not modelled, and of the text that
    manifest.json prints only the value that encoding/json writes is. *)
From Coq Require Import String.
From Verif Require Import GoBase Utf8 Hsl Spec Jamo Procedure Api TestCmd Cli.
Open Scope Z_scope.

(** ** cmd/hangulize/ls.go *)

(** package fmt, the verb %-Ns: spaces up to a width that counts characters. *)
Definition pad_right (width : nat) (s : bytes) : bytes := s ++ repeat 0x20%N (width - length (runes s)).
(** ls.go:20: the template *)
Definition ls_line (a b c d : bytes) : bytes :=
  pad_right 8 a ++ lit " " ++ pad_right 8 b ++ lit " " ++ pad_right 24 c ++ lit " " ++ pad_right 24 d ++ [10%N].

(** ls.go:40-43: the bundled languages, with the cache of LoadSpec. An ignored error
    leaves a nil Spec; reading its fields panics (ls.go:26-29). [c] are the choices of the
    Go runtime while a file is parsed. *)
Fixpoint list_bundled (fs : files) (c : bytes -> choices) (specs : cache) (langs : list bytes)
  : cache * res (list (option spec)) :=
  match langs with
  | [] => (specs, Ok [])
  | lang :: langs' =>
    match load_spec fs (c lang) specs lang with
    | (specs1, Ok s) =>
      let '(specs2, r) := list_bundled fs c specs1 langs' in (specs2, let! l := r in Ok (Some s :: l))
    | (specs1, Err _) =>
      let '(specs2, r) := list_bundled fs c specs1 langs' in (specs2, let! l := r in Ok (None :: l))
    | (specs1, Panic p) => (specs1, Panic p)
    | (specs1, Hang) => (specs1, Hang)
    | (specs1, NoFuel) => (specs1, NoFuel)
    | (specs1, Unmodelled) => (specs1, Unmodelled)
    end
  end.
(** ls.go:46-58: the files named as arguments; a file that cannot be read or is malformed
    is left out. *)
Fixpoint list_named (disk : opened) (c : bytes -> choices) (names : list bytes) : res (list (option spec)) :=
  match names with
  | [] => Ok []
  | name :: names' =>
    match disk name with
    | None => list_named disk c names'
    | Some src =>
      match parse_spec (c name) src with
      | Ok s => let! l := list_named disk c names' in Ok (Some s :: l)
      | Err _ => list_named disk c names'
      | Panic p => Panic p
      | Hang => Hang
      | NoFuel => NoFuel
      | Unmodelled => Unmodelled
      end
    end
  end.
(** ls.go:35-62 listSpecs *)
Definition list_specs (fs : files) (disk : opened) (c : bytes -> choices) (args : list bytes) : res (list (option spec)) :=
  match args with
  | [] => snd (list_bundled fs c [] (list_langs fs))
  | _ => list_named disk c args
  end.
(** ls.go:24-31: a line for each spec. What is written, and how it ends. *)
Fixpoint ls_lines (l : list (option spec)) : list bytes * res unit :=
  match l with
  | [] => ([], Ok tt)
  | None :: _ => ([], Panic PNil)
  | Some s :: l' =>
    let '(out, r) := ls_lines l' in
    (ls_line (l_id (s_lang s)) (c_stage (s_config s)) (l_english (s_lang s)) (l_korean (s_lang s)) :: out, r)
  end.
(** ls.go:19-32 *)
Definition ls_command (fs : files) (disk : opened) (c : bytes -> choices) (args : list bytes) : list bytes * res unit :=
  let header := ls_line (lit "LANG") (lit "STAGE") (lit "ENG") (lit "KOR") in
  match list_specs fs disk c args with
  | Ok l => let '(out, r) := ls_lines l in (header :: out, r)
  | Err e => ([header], Err e)
  | Panic p => ([header], Panic p)
  | Hang => ([header], Hang)
  | NoFuel => ([header], NoFuel)
  | Unmodelled => ([header], Unmodelled)
  end.

(** ** cmd/hangulize/dev.go *)

(** dev.go:18-36: the file is read and parsed (None: an error ends the command) into a new
    Hangulizer without transliterators, and the loop of main.go runs with the file name as
    its only argument, that is on the standard input. *)
Definition dev_hangulizer {W} (H : hangul_lib) (disk : opened) (c : choices) (verbose : bool) (name : bytes)
  : res (option (W -> bytes -> W * tracer * res returned)) :=
  match disk name with
  | None => Ok None
  | Some src =>
    match parse_spec c src with
    | Ok s => Ok (Some (run_hangulizer H s [] verbose))
    | Err _ => Ok None
    | Panic p => Panic p
    | Hang => Hang
    | NoFuel => NoFuel
    | Unmodelled => Unmodelled
    end
  end.

(** ** cmd/manifest.json/main.go *)

(** main.go:16-40 spec, lang, config and example, main.go:43-62 jsonSpec. The codes are an
    array of two strings. *)
Record json_spec := {
  j_id : bytes; j_code2 : bytes; j_code3 : bytes; j_english : bytes; j_korean : bytes;
  j_script : bytes; j_translit : list bytes;
  j_authors : list bytes; j_stage : bytes;
  j_test : list (bytes * bytes)
}.
Definition json_of (s : spec) : json_spec :=
  let l := s_lang s in
  {| j_id := l_id l; j_code2 := fst (l_codes l); j_code3 := snd (l_codes l); j_english := l_english l;
     j_korean := l_korean l; j_script := l_script l; j_translit := l_translit l;
     j_authors := c_authors (s_config s); j_stage := c_stage (s_config s); j_test := s_test s |}.
(** An assignment to a map *)
Definition put_key {A} (m : list (bytes * A)) (k : bytes) (v : A) : list (bytes * A) := (k, v) :: remove m k.
(** main.go:71-78 *)
Fixpoint manifest_loop (fs : files) (c : bytes -> choices) (cache0 : cache) (langs : list bytes)
         (specs : list (bytes * json_spec)) (translits : list (bytes * unit))
  : res (list (bytes * json_spec) * list (bytes * unit)) :=
  match langs with
  | [] => Ok (specs, translits)
  | lang :: langs' =>
    match load_spec fs (c lang) cache0 lang with
    | (cache1, Ok s) =>
      manifest_loop fs c cache1 langs' (put_key specs lang (json_of s))
                    (fold_left (fun m t => put_key m t tt) (l_translit (s_lang s)) translits)
    | (_, Err _) => Panic PNil           (* a nil Spec *)
    | (_, Panic p) => Panic p
    | (_, Hang) => Hang
    | (_, NoFuel) => NoFuel
    | (_, Unmodelled) => Unmodelled
    end
  end.
(** main.go:66-91: the manifest, whose transliterators come in the order of the iteration
    over the set, [order]. *)
Definition manifest (fs : files) (c : bytes -> choices) (order : list (bytes * unit) -> list (bytes * unit))
  : res (list (bytes * json_spec) * list bytes) :=
  let! '(specs, translits) := manifest_loop fs c [] (list_langs fs) [] [] in
  Ok (specs, map fst (order translits)).
