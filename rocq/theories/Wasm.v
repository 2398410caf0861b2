(** cmd/hangulize.wasm and cmd/cyrillic.translit.wasm: the bindings to JavaScript. Strings
    cross the border unchanged here: how syscall/js converts them between UTF-16 and UTF-8 is
    modelled in JsText.v. *)
From Coq Require Import String.
From Verif Require Import GoBase Utf8 Hre Rule Spec Jamo Procedure Api Tracefmt Translit Tools.
Open Scope Z_scope.

(** ** cmd/hangulize.wasm/translit.go *)

(** Values of JavaScript, as far as they are looked at here: the text of a number is that
    of its conversion to a string, an object has a property called message. *)
Inductive js_value :=
| JString (s : bytes)
| JUndefined
| JNull
| JBoolean (b : bool)
| JNumber (text : bytes)
| JSymbol
| JObject (message : js_value)
| JFunction (message : js_value).

(** package syscall/js, Value.String *)
Definition js_string (v : js_value) : bytes :=
  match v with
  | JString s => s
  | JUndefined => lit "<undefined>"
  | JNull => lit "<null>"
  | JBoolean true => lit "<boolean: true>"
  | JBoolean false => lit "<boolean: false>"
  | JNumber text => lit "<number: " ++ text ++ lit ">"
  | JSymbol => lit "<symbol>"
  | JObject _ => lit "<object>"
  | JFunction _ => lit "<function>"
  end.
(** package syscall/js, Value.Get of the property message: panics on other values. *)
Definition js_message (v : js_value) : res js_value :=
  match v with
  | JObject m | JFunction m => Ok m
  | _ => Panic PJs
  end.

(** What a function of JavaScript does with a word. *)
Inductive js_reply :=
| Throws                           (* an exception *)
| NoPromise                        (* returns something without a method then *)
| Pending                          (* a promise that is never settled *)
| Fulfils (v : js_value)
| Rejects (v : js_value).

(** translit.go:14-17 promiseTranslit *)
Record js_translit := { jt_scheme : bytes; jt_fn : bytes -> js_reply }.

(** translit.go:27-54 Transliterate *)
Definition promise_transliterate (t : js_translit) (word : bytes) : res bytes :=
  match jt_fn t word with
  | Throws | NoPromise => Panic PJs
  | Pending => Hang
  | Fulfils v => Ok (js_string v)
  | Rejects v => let! m := js_message v in Err (ErrOther (js_string m))
  end.
(** translit.go:19-21 Scheme, with Transliterate *)
Definition promise_translit (t : js_translit) : translit unit :=
  {| tl_scheme := jt_scheme t; tl_run := fun w word => (w, promise_transliterate t word) |}.

(** ** cmd/hangulize.wasm/encode.go *)

(** encode.go:67-84 jsTrace *)
Record js_trace := { jtr_step : bytes; jtr_word : bytes; jtr_why : bytes; jtr_rule : option (Z * bytes * bytes) }.
Definition js_trace_of (t : trace) : js_trace :=
  {| jtr_step := step_text (t_step t); jtr_word := t_word t; jtr_why := t_why t;
     jtr_rule := match t_rule t with
                 | None => None
                 | Some r => Some (rule_id r, p_expr (rule_from r), r_expr (rule_to r))
                 end |}.

(** encode.go:15-54 jsSpec: as in the manifest, with the source. *)
Record js_spec := { js_json : json_spec; js_source : bytes }.
Definition js_spec_of (s : spec) : js_spec := {| js_json := json_of s; js_source := s_source s |}.
(** encode.go:57-64 jsSpecs, with the cache of LoadSpec *)
Fixpoint js_specs_loop (fs : files) (c : bytes -> choices) (cache0 : cache) (langs : list bytes)
         (specs : list (bytes * js_spec)) : cache * res (list (bytes * js_spec)) :=
  match langs with
  | [] => (cache0, Ok specs)
  | lang :: langs' =>
    match load_spec fs (c lang) cache0 lang with
    | (cache1, Ok s) => js_specs_loop fs c cache1 langs' (put_key specs lang (js_spec_of s))
    | (cache1, Err _) => (cache1, Panic PNil)           (* a nil Spec *)
    | (cache1, Panic p) => (cache1, Panic p)
    | (cache1, Hang) => (cache1, Hang)
    | (cache1, NoFuel) => (cache1, NoFuel)
    | (cache1, Unmodelled) => (cache1, Unmodelled)
    end
  end.
Definition js_specs (fs : files) (c : bytes -> choices) (langs : list bytes) : cache * res (list (bytes * js_spec)) :=
  js_specs_loop fs c [] langs [].

(** ** cmd/hangulize.wasm/hangulize.go *)

(** How the promise of a call is settled: with the result, or with an Error. *)
Inductive promise := Resolved (out : bytes) | Rejected (e : gerror).

(** hangulize.go:14-62: a call of jsHangulize. Its goroutine does not give way before it
    calls a function of JavaScript, and there is only one thread: it loads the spec and
    copies the registry in one step. After that it uses nothing that others write. A trace
    function returns. *)
Inductive js_call :=
| Queued (lang word : bytes) (traced : bool)                 (* 33: go func() *)
| Running (s : spec) (reg : list (bytes * translit unit)) (word : bytes) (traced : bool) (* 51 *)
| Settled (p : promise) (events : list js_trace).

(** The program: the package-level maps, the calls in the order they were made, and the
    panic that ended it. *)
Record wasm := {
  wa_cache : cache;
  wa_reg : list (bytes * js_translit);
  wa_calls : list js_call;
  wa_dead : option gpanic
}.

(** hangulize.go:41-43: the transliterators of the package in a new Hangulizer; [reg] is the
    copy in the order of the iteration. *)
Definition own_registry (reg : list (bytes * js_translit)) : list (bytes * translit unit) :=
  fold_left (fun r e => fst (reg_add tl_scheme r (promise_translit (snd e)))) reg [].

(** [c] and [order] are choices of the Go runtime. *)
Inductive js_event :=
| EUse (t : js_translit)                          (* translit.go:59-63 jsUseTranslit *)
| EUnuse (scheme : bytes)                         (* translit.go:68-71 jsUnuseTranslit *)
| ECall (lang word : bytes) (traced : bool)       (* hangulize.go:15-33 *)
| EStart (i : nat) (c : choices) (order : list (bytes * js_translit) -> list (bytes * js_translit))
                                                  (* hangulize.go:34-43 *)
| EEnd (i : nat).                                 (* hangulize.go:45-57 *)

Definition set_call (l : list js_call) (i : nat) (x : js_call) : list js_call := firstn i l ++ x :: skipn (S i) l.
Definition with_call (st : wasm) (i : nat) (x : js_call) : wasm :=
  {| wa_cache := wa_cache st; wa_reg := wa_reg st; wa_calls := set_call (wa_calls st) i x; wa_dead := None |}.
Definition dies (st : wasm) (p : gpanic) : wasm :=
  {| wa_cache := wa_cache st; wa_reg := wa_reg st; wa_calls := wa_calls st; wa_dead := Some p |}.

(** One event; None when it cannot happen. A goroutine that hangs has no EEnd, and after a
    panic nothing happens any more. *)
Definition wasm_step (H : hangul_lib) (fs : files) (st : wasm) (e : js_event) : option wasm :=
  match wa_dead st with
  | Some _ => None
  | None =>
    match e with
    | EUse t =>
      Some {| wa_cache := wa_cache st; wa_reg := fst (reg_add jt_scheme (wa_reg st) t);
              wa_calls := wa_calls st; wa_dead := None |}
    | EUnuse sc =>
      Some {| wa_cache := wa_cache st; wa_reg := fst (reg_remove (wa_reg st) sc);
              wa_calls := wa_calls st; wa_dead := None |}
    | ECall lang word traced =>
      Some {| wa_cache := wa_cache st; wa_reg := wa_reg st;
              wa_calls := wa_calls st ++ [Queued lang word traced]; wa_dead := None |}
    | EStart i c order =>
      match nth_error (wa_calls st) i with
      | Some (Queued lang word traced) =>
        let '(cache1, r) := load_spec fs c (wa_cache st) lang in
        let st1 := {| wa_cache := cache1; wa_reg := wa_reg st; wa_calls := wa_calls st; wa_dead := None |} in
        match r with
        | Ok s => Some (with_call st1 i (Running s (own_registry (order (wa_reg st))) word traced))
        | Err e => Some (with_call st1 i (Settled (Rejected e) []))
        | Panic p => Some (dies st1 p)
        | _ => None
        end
      | _ => None
      end
    | EEnd i =>
      match nth_error (wa_calls st) i with
      | Some (Running s reg word traced) =>
        let '(_, tr, r) := run_hangulizer H s reg traced tt word in
        let events := match tr with Some (_, evs) => map js_trace_of (rev evs) | None => [] end in
        match r with
        | Ok (out, None) => Some (with_call st i (Settled (Resolved out) events))
        | Ok (_, Some e) => Some (with_call st i (Settled (Rejected e) events))
        | Panic p => Some (dies st p)
        | _ => None
        end
      | _ => None
      end
    end
  end.
Fixpoint wasm_run (H : hangul_lib) (fs : files) (st : wasm) (es : list js_event) : option wasm :=
  match es with
  | [] => Some st
  | e :: es' => match wasm_step H fs st e with Some st1 => wasm_run H fs st1 es' | None => None end
  end.

(** main.go:13-20: main fills the cache (jsSpecs) before it waits for calls. *)
Definition wasm_start (specs : cache) : wasm :=
  {| wa_cache := specs; wa_reg := []; wa_calls := []; wa_dead := None |}.

(** ** cmd/cyrillic.translit.wasm/main.go *)

(** translit/cyrillic/cyrillic.go:10-18 Ts, as in [std_translits]; [order] are the orders of the
    iterations over the tables. *)
Definition cyrillic_ts {W} (order : bytes -> list (bytes * bytes) -> list (bytes * bytes)) : list (translit W) :=
  map (fun c => {| tl_scheme := cyrillic_scheme c;
                   tl_run := fun w x => (w, let! t := cyrillic_new (order c) c in cyrillic_transliterate t x) |})
      cyrillic_countries.
(** main.go:28-30: the map of the transliterators *)
Definition translit_map {W} (ts : list (translit W)) : list (bytes * translit W) :=
  fold_left (fun m t => put_key m (tl_scheme t) t) ts [].
(** main.go:14-23 jsTransliterate: a missing scheme gives a nil interface. *)
Definition wasm_transliterate {W} (m : list (bytes * translit W)) (w : W) (scheme word : bytes) : W * res bytes :=
  match lookup m scheme with
  | None => (w, Panic PNil)
  | Some t => tl_run t w word
  end.
