(** web/src/hangulize/hangulize.worker.ts and web/src/hangulize/runWebAssembly.ts: the worker
    between the page and the module. Messages to a worker arrive in the order they were sent
    (HTML, the message port), and Comlink calls the function of the endpoint for each of them.
    A worker has one thread: the next message is taken when there is no microtask left. *)
From Coq Require Import String.
From Verif Require Import GoBase Hsl Spec Jamo Procedure Api Wasm Web WebTranslit.

(** hangulize.worker.ts:27-32 HangulizeEndpoint *)
Inductive worker_msg :=
| WCall (lang word : bytes) (traced : bool)
| WVersion
| WSpecs
| WUse (t : js_translit).

(** The worker: messages that were sent, all of them and those that have not been taken; the
    functions that wait for the promise ready (36, 41, 46, 51) as it is not fulfilled; those whose
    microtask is queued; whether the promise is fulfilled; the module with what has happened
    in it, and the messages of which the function has ended. *)
Record worker := {
  wk_sent : list worker_msg;
  wk_inbox : list worker_msg;
  wk_waiting : list worker_msg;
  wk_tasks : list worker_msg;
  wk_ready : bool;
  wk_module : wasm;
  wk_events : list js_event;
  wk_served : list worker_msg
}.
(** hangulize.worker.ts:25: the module is being loaded. [specs] is the cache once its main
    function waits (cmd/hangulize.wasm/main.go:13-20). *)
Definition new_worker (specs : cache) : worker :=
  {| wk_sent := []; wk_inbox := []; wk_waiting := []; wk_tasks := []; wk_ready := false;
     wk_module := wasm_start specs; wk_events := []; wk_served := [] |}.

(** The page sends a message. *)
Definition send (wk : worker) (m : worker_msg) : worker :=
  {| wk_sent := wk_sent wk ++ [m]; wk_inbox := wk_inbox wk ++ [m]; wk_waiting := wk_waiting wk; wk_tasks := wk_tasks wk;
     wk_ready := wk_ready wk; wk_module := wk_module wk; wk_events := wk_events wk; wk_served := wk_served wk |}.

(** hangulize.worker.ts:36, 41, 46, 51: await ready. *)
Definition await_ready (wk : worker) (m : worker_msg) (inbox : list worker_msg) : worker :=
  {| wk_sent := wk_sent wk; wk_inbox := inbox;
     wk_waiting := if wk_ready wk then wk_waiting wk else wk_waiting wk ++ [m];
     wk_tasks := if wk_ready wk then wk_tasks wk ++ [m] else wk_tasks wk;
     wk_ready := wk_ready wk; wk_module := wk_module wk; wk_events := wk_events wk; wk_served := wk_served wk |}.

(** runWebAssembly.ts:18-21: main runs until it waits, and then the promise is fulfilled, which
    queues the functions that wait for it. *)
Definition mark_ready (wk : worker) : worker :=
  {| wk_sent := wk_sent wk; wk_inbox := wk_inbox wk; wk_waiting := []; wk_tasks := wk_tasks wk ++ wk_waiting wk;
     wk_ready := true; wk_module := wk_module wk; wk_events := wk_events wk; wk_served := wk_served wk |}.

(** hangulize.worker.ts:37, 42, 47, 52: what is done with the module. *)
Definition event_of (m : worker_msg) : option js_event :=
  match m with
  | WCall lang word traced => Some (ECall lang word traced)
  | WUse t => Some (EUse t)
  | WVersion | WSpecs => None
  end.
(** An event in the module; when it has ended, the call throws and nothing happens. *)
Definition module_event (H : hangul_lib) (fs : files) (wk : worker) (e : js_event) : worker :=
  match wasm_step H fs (wk_module wk) e with
  | Some st => {| wk_sent := wk_sent wk; wk_inbox := wk_inbox wk; wk_waiting := wk_waiting wk; wk_tasks := wk_tasks wk;
                  wk_ready := wk_ready wk; wk_module := st; wk_events := wk_events wk ++ [e]; wk_served := wk_served wk |}
  | None => wk
  end.
Definition serve (H : hangul_lib) (fs : files) (wk : worker) (m : worker_msg) (tasks : list worker_msg) : worker :=
  let wk1 := match event_of m with Some e => module_event H fs wk e | None => wk end in
  {| wk_sent := wk_sent wk1; wk_inbox := wk_inbox wk1; wk_waiting := wk_waiting wk1; wk_tasks := tasks;
     wk_ready := wk_ready wk1; wk_module := wk_module wk1; wk_events := wk_events wk1; wk_served := wk_served wk1 ++ [m] |}.

(** What the worker does by itself. *)
Inductive worker_step (H : hangul_lib) (fs : files) : worker -> worker -> Prop :=
| K_take wk m inbox : wk_tasks wk = [] -> wk_inbox wk = m :: inbox -> worker_step H fs wk (await_ready wk m inbox)
| K_serve wk m tasks : wk_tasks wk = m :: tasks -> worker_step H fs wk (serve H fs wk m tasks).
(** Besides, the page sends messages, the module gets ready once, and the goroutines of calls go
    on when it is. *)
Inductive works (H : hangul_lib) (fs : files) (specs : cache) : worker -> Prop :=
| K_new : works H fs specs (new_worker specs)
| K_step wk wk' : works H fs specs wk -> worker_step H fs wk wk' -> works H fs specs wk'
| K_send wk m : works H fs specs wk -> works H fs specs (send wk m)
| K_ready wk : works H fs specs wk -> wk_ready wk = false -> works H fs specs (mark_ready wk)
| K_start wk i c order : works H fs specs wk -> wk_ready wk = true -> works H fs specs (module_event H fs wk (EStart i c order))
| K_end wk i : works H fs specs wk -> wk_ready wk = true -> works H fs specs (module_event H fs wk (EEnd i)).

(** ** translit.worker.ts *)

(** translit.worker.ts:17-20 TranslitEndpoint *)
Inductive translit_msg :=
| TLoad (method : jstring)
| TCall (method word : jstring).

(** The worker: messages, all of them and those not taken; the variable ready (26), whether
    its promise is fulfilled; the calls that wait for it, those whose microtask is queued, and
    the answers. *)
Record translit_worker := {
  tw_sent : list translit_msg;
  tw_inbox : list translit_msg;
  tw_ready : option js_url;
  tw_loaded : bool;
  tw_waiting : list (jstring * jstring);
  tw_tasks : list (jstring * jstring);
  tw_replies : list (jstring * jstring * js_reply)
}.
Definition new_translit_worker : translit_worker :=
  {| tw_sent := []; tw_inbox := []; tw_ready := None; tw_loaded := false; tw_waiting := []; tw_tasks := []; tw_replies := [] |}.
Definition translit_send (tw : translit_worker) (m : translit_msg) : translit_worker :=
  {| tw_sent := tw_sent tw ++ [m]; tw_inbox := tw_inbox tw ++ [m]; tw_ready := tw_ready tw; tw_loaded := tw_loaded tw;
     tw_waiting := tw_waiting tw; tw_tasks := tw_tasks tw; tw_replies := tw_replies tw |}.
(** translit.worker.ts:29-47, up to where a function waits *)
Definition translit_take (call : wasm_module -> bytes -> bytes -> js_reply) (tw : translit_worker) (m : translit_msg)
  (inbox : list translit_msg) : translit_worker :=
  match m with
  | TLoad method =>
    {| tw_sent := tw_sent tw; tw_inbox := inbox;
       tw_ready := match load_module (tw_ready tw) method with Some u => Some u | None => tw_ready tw end;
       tw_loaded := tw_loaded tw; tw_waiting := tw_waiting tw; tw_tasks := tw_tasks tw; tw_replies := tw_replies tw |}
  | TCall method word =>
    match tw_ready tw with
    | None => {| tw_sent := tw_sent tw; tw_inbox := inbox; tw_ready := None; tw_loaded := tw_loaded tw;
                 tw_waiting := tw_waiting tw; tw_tasks := tw_tasks tw;
                 tw_replies := tw_replies tw ++ [(method, word, worker_call call None method word)] |}
    | Some u => {| tw_sent := tw_sent tw; tw_inbox := inbox; tw_ready := Some u; tw_loaded := tw_loaded tw;
                   tw_waiting := if tw_loaded tw then tw_waiting tw else tw_waiting tw ++ [(method, word)];
                   tw_tasks := if tw_loaded tw then tw_tasks tw ++ [(method, word)] else tw_tasks tw;
                   tw_replies := tw_replies tw |}
    end
  end.
(** runWebAssembly.ts:18-21 *)
Definition translit_mark_ready (tw : translit_worker) : translit_worker :=
  {| tw_sent := tw_sent tw; tw_inbox := tw_inbox tw; tw_ready := tw_ready tw; tw_loaded := true;
     tw_waiting := []; tw_tasks := tw_tasks tw ++ tw_waiting tw; tw_replies := tw_replies tw |}.
(** translit.worker.ts:49 *)
Definition translit_serve (call : wasm_module -> bytes -> bytes -> js_reply) (tw : translit_worker) (q : jstring * jstring)
  (tasks : list (jstring * jstring)) : translit_worker :=
  {| tw_sent := tw_sent tw; tw_inbox := tw_inbox tw; tw_ready := tw_ready tw; tw_loaded := tw_loaded tw;
     tw_waiting := tw_waiting tw; tw_tasks := tasks;
     tw_replies := tw_replies tw ++ [(q, worker_call call (tw_ready tw) (fst q) (snd q))] |}.
Inductive translit_step (call : wasm_module -> bytes -> bytes -> js_reply) : translit_worker -> translit_worker -> Prop :=
| T_take tw m inbox : tw_tasks tw = [] -> tw_inbox tw = m :: inbox -> translit_step call tw (translit_take call tw m inbox)
| T_serve tw q tasks : tw_tasks tw = q :: tasks -> translit_step call tw (translit_serve call tw q tasks).
Inductive translit_works (call : wasm_module -> bytes -> bytes -> js_reply) : translit_worker -> Prop :=
| T_new : translit_works call new_translit_worker
| T_step tw tw' : translit_works call tw -> translit_step call tw tw' -> translit_works call tw'
| T_send tw m : translit_works call tw -> translit_works call (translit_send tw m)
| T_ready tw m : translit_works call tw -> tw_ready tw = Some (Url m) -> tw_loaded tw = false -> translit_works call (translit_mark_ready tw).
