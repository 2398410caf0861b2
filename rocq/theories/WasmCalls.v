(** cmd/hangulize.wasm once more, in smaller steps than in Wasm.v: a call gives way whenever
    it waits for a transliterator, arguments may be missing or of any type, and a trace
    function may throw. *)
From Coq Require Import String.
From Verif Require Import GoBase Utf8 Hre Rule Spec Jamo Procedure Api Tracefmt Wasm.
Open Scope Z_scope.

(** translit.go:14-17 promiseTranslit. [jf_call word] is false if the value is no function, or
    throws when it is called with the word, or returns something without the methods then
    and catch: Invoke and Call panic (translit.go:46). *)
Record js_fn := { jf_scheme : bytes; jf_id : nat; jf_call : bytes -> bool }.

(** How the promise of a transliterator is settled: translit.go:34-44. *)
Inductive answer := Fulfilled (v : js_value) | Refused (v : js_value).

(** hangulize.go:19-22, 45-49: the trace function, if there is one. It says for which traces,
    the last of which is the one it is called with, it throws. *)
Definition trace_fn := list js_trace -> bool.
Definition objects (t : option trace_fn) (events : list js_trace) : bool :=
  match t with
  | None => false
  | Some throws => existsb (fun k => throws (firstn k events)) (seq 1 (length events))
  end.
Definition events_of (tr : tracer) : list js_trace :=
  match tr with Some (_, evs) => map js_trace_of (rev evs) | None => [] end.

Inductive open_call :=
| OQueued (lang word : bytes) (trace : option trace_fn)                      (* hangulize.go:33 *)
| OWaiting (s : spec) (reg : list (bytes * js_fn)) (scheme : bytes) (rest : list bytes) (f : js_fn)
           (word : bytes) (tr : tracer) (trace : option trace_fn)            (* translit.go:48 *)
| OSettled (p : promise) (events : list js_trace).

(** The program: the package-level maps, the calls in the order they were made, which function
    was called by which call and with which word, and whether a panic has ended it. *)
Record program := {
  op_cache : cache;
  op_reg : list (bytes * js_fn);
  op_calls : list open_call;
  op_asked : list (nat * (nat * bytes));
  op_dead : bool
}.

(** A function of the program called from JavaScript with [args], the start of the goroutine
    of a call, or the moment a promise is settled. *)
Inductive js_moment :=
| VUse (args : list js_value) (id : nat) (call : bytes -> bool)   (* translit.go:59-63; the function, if args[1] is one *)
| VUnuse (args : list js_value)                                   (* translit.go:68-71 *)
| VCall (args : list js_value) (throws : trace_fn)                (* hangulize.go:15-33; the trace function, if args[2] is one *)
| VStart (i : nat) (c : choices) (order : list (bytes * js_fn) -> list (bytes * js_fn))   (* hangulize.go:34-43 *)
| VAnswer (i : nat) (a : answer).                                 (* translit.go:34-44 *)

(** hangulize.go:51, procedure.go:26-46: what the goroutine does until it has to wait. *)
Inductive moved :=
| MSettles (p : promise) (tr : tracer)
| MAsks (scheme : bytes) (rest : list bytes) (f : js_fn) (word : bytes) (tr : tracer)
| MDies
| MNever.
Definition advance (H : hangul_lib) (s : spec) (reg : list (bytes * js_fn)) (todo : list bytes) (word : bytes) (tr : tracer) : moved :=
  match todo with
  | [] =>
    match after_translit H s tr word with
    | Ok (tr1, out) => MSettles (Resolved out) tr1
    | Err e => MSettles (Rejected e) tr
    | Panic _ => MDies
    | _ => MNever
    end
  | scheme :: rest =>
    match lookup reg scheme with
    | None => MSettles (Rejected (ErrTranslitNotImported scheme)) tr
    | Some f => if jf_call f word then MAsks scheme rest f word tr else MDies
    end
  end.

Definition set_open (l : list open_call) (i : nat) (x : open_call) : list open_call := firstn i l ++ x :: skipn (S i) l.
Definition with_open (st : program) (i : nat) (x : open_call) (asked : list (nat * (nat * bytes))) : program :=
  {| op_cache := op_cache st; op_reg := op_reg st; op_calls := set_open (op_calls st) i x;
     op_asked := op_asked st ++ asked; op_dead := false |}.
Definition crashed (st : program) : program :=
  {| op_cache := op_cache st; op_reg := op_reg st; op_calls := op_calls st; op_asked := op_asked st; op_dead := true |}.
(** What has come of call [i]. *)
Definition proceed (H : hangul_lib) (st : program) (i : nat) (s : spec) (reg : list (bytes * js_fn)) (trace : option trace_fn) (m : moved) : option program :=
  match m with
  | MSettles p tr =>
    if objects trace (events_of tr) then Some (crashed st) else Some (with_open st i (OSettled p (events_of tr)) [])
  | MAsks scheme rest f word tr =>
    if objects trace (events_of tr) then Some (crashed st)
    else Some (with_open st i (OWaiting s reg scheme rest f word tr trace) [(i, (jf_id f, word))])
  | MDies => Some (crashed st)
  | MNever => None
  end.

(** hangulize.go:19-22: the argument after the word; Invoke panics if it is neither undefined
    nor a function. *)
Definition trace_arg (args : list js_value) (throws : trace_fn) : option trace_fn :=
  match args with
  | [] | JUndefined :: _ => None
  | JFunction _ :: _ => Some throws
  | _ :: _ => Some (fun _ => true)
  end.
Definition copied (reg : list (bytes * js_fn)) : list (bytes * js_fn) :=
  fold_left (fun r e => fst (reg_add jf_scheme r (snd e))) reg [].
Definition use_fn (scheme : bytes) (v : js_value) (id : nat) (call : bytes -> bool) : js_fn :=
  {| jf_scheme := scheme; jf_id := id; jf_call := fun word => match v with JFunction _ => call word | _ => false end |}.

(** One moment; None when it cannot happen. After a panic nothing happens any more. *)
Definition program_step (H : hangul_lib) (fs : files) (st : program) (e : js_moment) : option program :=
  if op_dead st then None
  else
    match e with
    | VUse (a0 :: a1 :: _) id call =>
      Some {| op_cache := op_cache st; op_reg := fst (reg_add jf_scheme (op_reg st) (use_fn (js_string a0) a1 id call));
              op_calls := op_calls st; op_asked := op_asked st; op_dead := false |}
    | VUnuse (a0 :: _) =>
      Some {| op_cache := op_cache st; op_reg := fst (reg_remove (op_reg st) (js_string a0));
              op_calls := op_calls st; op_asked := op_asked st; op_dead := false |}
    | VCall (a0 :: a1 :: more) throws =>
      Some {| op_cache := op_cache st; op_reg := op_reg st;
              op_calls := op_calls st ++ [OQueued (js_string a0) (js_string a1) (trace_arg more throws)];
              op_asked := op_asked st; op_dead := false |}
    | VUse _ _ _ | VUnuse _ | VCall _ _ => Some (crashed st)          (* index out of range *)
    | VStart i c order =>
      match nth_error (op_calls st) i with
      | Some (OQueued lang word trace) =>
        let '(cache1, r) := load_spec fs c (op_cache st) lang in
        let st1 := {| op_cache := cache1; op_reg := op_reg st; op_calls := op_calls st; op_asked := op_asked st; op_dead := false |} in
        match r with
        | Ok s =>
          let reg := copied (order (op_reg st)) in
          proceed H st1 i s reg trace
            (advance H s reg (l_translit (s_lang s)) word
               (trace_word (new_tracer (match trace with Some _ => true | None => false end)) SInput word []))
        | Err e => Some (with_open st1 i (OSettled (Rejected e) []) [])
        | Panic _ => Some (crashed st1)
        | _ => None
        end
      | _ => None
      end
    | VAnswer i a =>
      match nth_error (op_calls st) i with
      | Some (OWaiting s reg scheme rest f word tr trace) =>
        match a with
        | Fulfilled v =>
          proceed H st i s reg trace
            (advance H s reg rest (js_string v) (trace_word tr STransliterate (js_string v) (jf_scheme f)))
        | Refused v =>
          match js_message v with
          | Ok _ => proceed H st i s reg trace (MSettles (Rejected (ErrTranslit scheme)) tr)
          | _ => Some (crashed st)
          end
        end
      | _ => None
      end
    end.
Fixpoint program_run (H : hangul_lib) (fs : files) (st : program) (es : list js_moment) : option program :=
  match es with
  | [] => Some st
  | e :: es' => match program_step H fs st e with Some st1 => program_run H fs st1 es' | None => None end
  end.
Definition program_start (specs : cache) : program :=
  {| op_cache := specs; op_reg := []; op_calls := []; op_asked := []; op_dead := false |}.
