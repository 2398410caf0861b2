(** cmd/hangulize/main.go: the loop over the words, with its goroutine. The flags and the
    choice of the command are in Args.v. *)
From Coq Require Import String.
From Verif Require Import GoBase Utf8 Unicode Hre Spec Jamo Procedure Api Tracefmt.
Open Scope N_scope.

(** strings.TrimSpace: the spaces at both ends. A character at the end is found backwards
    there and forwards here, which is the same for white space. *)
Fixpoint space_width (gs : list (rune * nat)) : nat :=
  match gs with
  | (r, n) :: gs' => if is_space r then (n + space_width gs')%nat else O
  | [] => O
  end.
Definition trim_space (s : bytes) : bytes :=
  let a := space_width (glyphs s) in
  let b := space_width (rev (glyphs s)) in
  firstn (length s - a - b) (skipn a s).

(** bufio.Reader.ReadString('\n') on an input that ends: None for its error. *)
Fixpoint read_string (s : bytes) : option (bytes * bytes) :=
  match s with
  | [] => None
  | c :: s' =>
    if c =? 10 then Some ([c], s')
    else match read_string s' with Some (l, rest) => Some (c :: l, rest) | None => None end
  end.

(** main.go:82-101 readWords, between its sends on the channel. *)
Inductive reader :=
| RInput (rest : bytes)                     (* 86: what is left of the standard input *)
| RArgs (rest : list bytes)                 (* 94: the arguments left *)
| RSend (word : bytes) (next : reader)      (* 91, 96, 100: ch <- word *)
| RDone.
Definition read_words (args : list bytes) (stdin : bytes) : reader :=
  match args with
  | [] => RInput stdin
  | _ => RArgs args
  end.
Definition reader_step (r : reader) : option reader :=
  match r with
  | RInput s =>
    match read_string s with
    | None => Some (RSend [] RDone)
    | Some (line, rest) => Some (RSend (trim_space line) (RInput rest))
    end
  | RArgs [] => Some (RSend [] RDone)
  | RArgs (w :: ws) => Some (match w with [] => RArgs ws | _ => RSend w (RArgs ws) end)
  | RSend _ _ | RDone => None
  end.

(** main.go:48-80 hangulizeStream, the main goroutine. *)
Inductive exit := ExitOk | ExitError (e : gerror) | Crash (p : gpanic).
Inductive consumer :=
| CReceive                      (* 53: <-ch *)
| CRun (word : bytes)           (* 70 *)
| CEnd (e : exit).              (* the process is over *)

Record cli_state W := {
  cl_reader : reader;
  cl_consumer : consumer;
  cl_world : W;
  cl_out : list bytes;          (* the lines written to the standard output *)
  cl_err : list bytes           (* what is written to the standard error *)
}.
Arguments cl_reader {W}. Arguments cl_consumer {W}. Arguments cl_world {W}. Arguments cl_out {W}. Arguments cl_err {W}.

(** main.go:58-78: one word. None when the call never returns. *)
Definition cli_word {W} (width : bytes -> Z) (run : W -> bytes -> W * tracer * res returned)
           (st : cli_state W) (word : bytes) : option (cli_state W) :=
  let '(w1, tr, r) := run (cl_world st) word in
  let ends e := Some {| cl_reader := cl_reader st; cl_consumer := CEnd e; cl_world := w1;
                        cl_out := cl_out st; cl_err := cl_err st |} in
  match r with
  | Ok (result, None) =>
    match fprint_traces width (map to_print (match tr with Some (_, evs) => rev evs | None => [] end)) with
    | Ok text => Some {| cl_reader := cl_reader st; cl_consumer := CReceive; cl_world := w1;
                         cl_out := cl_out st ++ [result]; cl_err := cl_err st ++ [text] |}
    | Panic p => ends (Crash p)
    | _ => None
    end
  | Ok (_, Some e) => ends (ExitError e)
  | Panic p => ends (Crash p)
  | _ => None
  end.

(** One step of the process: of the reader, of the main goroutine, or of both when they
    meet at the channel, which has no buffer. The process is over with the main goroutine. *)
Inductive cli_step {W} (width : bytes -> Z) (run : W -> bytes -> W * tracer * res returned)
  : cli_state W -> cli_state W -> Prop :=
| step_reader r r' c w out err :
    (forall e, c <> CEnd e) -> reader_step r = Some r' ->
    cli_step width run
      {| cl_reader := r; cl_consumer := c; cl_world := w; cl_out := out; cl_err := err |}
      {| cl_reader := r'; cl_consumer := c; cl_world := w; cl_out := out; cl_err := err |}
| step_meet word next w out err :
    cli_step width run
      {| cl_reader := RSend word next; cl_consumer := CReceive; cl_world := w; cl_out := out; cl_err := err |}
      {| cl_reader := next; cl_consumer := match word with [] => CEnd ExitOk | _ => CRun word end;
         cl_world := w; cl_out := out; cl_err := err |}
| step_run st word st' :
    cl_consumer st = CRun word -> cli_word width run st word = Some st' ->
    cli_step width run st st'
| step_loop st word :       (* the call does not return *)
    cl_consumer st = CRun word -> cli_word width run st word = None ->
    cli_step width run st st.

(** main.go:48-50: how the loop starts, with the words after the language. *)
Definition cli_start {W} (w : W) (args : list bytes) (stdin : bytes) : cli_state W :=
  {| cl_reader := read_words args stdin; cl_consumer := CReceive; cl_world := w; cl_out := []; cl_err := [] |}.

(** main.go:33-45, 64-68: the language is loaded (None: not supported), the transliterators are
    installed in a new Hangulizer, which traces when verbose. *)
Definition cli_hangulizer {W} (H : hangul_lib) (fs : files) (c : choices) (ts : list (translit W)) (verbose : bool)
           (lang : bytes) : res (option (W -> bytes -> W * tracer * res returned)) :=
  match snd (load_spec fs c [] lang) with
  | Ok s => Ok (Some (run_hangulizer H s (fst (install tl_scheme ts [])) verbose))
  | Err _ => Ok None
  | Panic p => Panic p
  | Hang => Hang
  | NoFuel => NoFuel
  | Unmodelled => Unmodelled
  end.
