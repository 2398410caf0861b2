(** web/src/hangulize/useHangulize.ts and web/src/components/App.tsx: the page that asks the
    WebAssembly module for the transcription of what is typed. A string of JavaScript is
    the list of its UTF-16 units. React renders when a state has been set, and then runs
    the effect if one of its dependencies is another; before the next rendering it runs
    the effect of the last (its passive effects). The functions of the page that wait are
    continued one at a time, in any order. *)
From Coq Require Import String.
From Verif Require Import GoBase.

Definition jstring := list N.

(** ECMAScript: WhiteSpace and LineTerminator *)
Definition js_space (u : N) : bool :=
  existsb (N.eqb u) [0x9; 0xA; 0xB; 0xC; 0xD; 0x20; 0xA0; 0x1680; 0x2000; 0x2001; 0x2002; 0x2003; 0x2004; 0x2005; 0x2006;
                     0x2007; 0x2008; 0x2009; 0x200A; 0x2028; 0x2029; 0x202F; 0x205F; 0x3000; 0xFEFF]%N.
Fixpoint js_drop (s : jstring) : jstring :=
  match s with u :: s' => if js_space u then js_drop s' else s | [] => [] end.
(** String.prototype.trim *)
Definition js_trim (s : jstring) : jstring := rev (js_drop (rev (js_drop s))).
Definition js_empty (s : jstring) : bool := match s with [] => true | _ => false end.

(** What every object has *)
Definition object_prototype : list jstring :=
  [lit "constructor"; lit "__defineGetter__"; lit "__defineSetter__"; lit "hasOwnProperty"; lit "__lookupGetter__";
   lit "__lookupSetter__"; lit "isPrototypeOf"; lit "propertyIsEnumerable"; lit "toString"; lit "valueOf"; lit "__proto__";
   lit "toLocaleString"].
(** specs[lang] !== undefined; of the specs only their keys. *)
Definition js_defined (specs : list jstring) (lang : jstring) : bool :=
  existsb (beqb lang) (specs ++ object_prototype).

(** useHangulize.ts:34-52 isValidInput *)
Definition is_valid_input (specs : list jstring) (lang word : jstring) : bool :=
  if js_empty (js_trim word) then false else if negb (js_defined specs lang) then false else true.

(** useHangulize.ts:10-15 HangulizeState *)
Inductive hangulize_state := Initializing | Idle | Processing | ProcessingDelayed.

(** useHangulize.ts:93-96, 114: the states of the component. An input is the number of its
    object; of the specs there is the number of the object as well. *)
Record view := {
  v_state : hangulize_state;
  v_version : nat;
  v_specs : list jstring;
  v_result : jstring;
  v_input : nat
}.

(** useHangulize.ts:120-186 hangulizeEffect, where it waits: for the 50 ms (153-158), for
    the job that runs (162-164), and for its own job (176). *)
Inductive job :=
| Sleeping (input : nat)
| Waiting (input promise : nat)
| Running (input promise : nat).

(** The page: the states as they are set and as they have been rendered, whether the effect
    of that rendering has still to run, the input objects, and the refs (115-117); the
    promises of useHangulize.ts:167-174 with what was asked and what they are fulfilled with,
    and the timers that have not fired. *)
Record page := {
  pg_next : view;
  pg_view : view;
  pg_effect : bool;
  pg_inputs : list (jstring * jstring);
  pg_target : nat;
  pg_processing : option nat;
  pg_promises : list (jstring * jstring * option jstring);
  pg_timer : option nat;
  pg_timers : list nat;
  pg_made : nat;                 (* timers made so far *)
  pg_jobs : list job
}.
Definition input_of (pg : page) (i : nat) : jstring * jstring := nth i (pg_inputs pg) ([], []).
Definition valid_for (pg : page) (v : view) : bool :=
  is_valid_input (v_specs v) (fst (input_of pg (v_input v))) (snd (input_of pg (v_input v))).

(** useHangulize.ts:93-117: the first rendering; the inputs of lines 114 and 115 are two
    objects. *)
Definition first_view (manifest : list jstring) : view :=
  {| v_state := Initializing; v_version := 0; v_specs := manifest; v_result := []; v_input := 1 |}.
Definition first_page (manifest : list jstring) : page :=
  {| pg_next := first_view manifest; pg_view := first_view manifest; pg_effect := true;
     pg_inputs := [([], []); ([], [])]; pg_target := 0; pg_processing := None; pg_promises := [];
     pg_timer := None; pg_timers := []; pg_made := 0; pg_jobs := [] |}.

Definition with_next (pg : page) (v : view) : page :=
  {| pg_next := v; pg_view := pg_view pg; pg_effect := pg_effect pg; pg_inputs := pg_inputs pg; pg_target := pg_target pg;
     pg_processing := pg_processing pg; pg_promises := pg_promises pg; pg_timer := pg_timer pg; pg_timers := pg_timers pg;
     pg_made := pg_made pg; pg_jobs := pg_jobs pg |}.
Definition set_state (pg : page) (s : hangulize_state) : page :=
  let v := pg_next pg in
  with_next pg {| v_state := s; v_version := v_version v; v_specs := v_specs v; v_result := v_result v; v_input := v_input v |}.
Definition set_result (pg : page) (r : jstring) : page :=
  let v := pg_next pg in
  with_next pg {| v_state := v_state v; v_version := v_version v; v_specs := v_specs v; v_result := r; v_input := v_input v |}.
Definition with_jobs (pg : page) (jobs : list job) : page :=
  {| pg_next := pg_next pg; pg_view := pg_view pg; pg_effect := pg_effect pg; pg_inputs := pg_inputs pg; pg_target := pg_target pg;
     pg_processing := pg_processing pg; pg_promises := pg_promises pg; pg_timer := pg_timer pg; pg_timers := pg_timers pg;
     pg_made := pg_made pg; pg_jobs := jobs |}.
Definition with_timer (pg : page) (timer : option nat) (timers : list nat) (made : nat) : page :=
  {| pg_next := pg_next pg; pg_view := pg_view pg; pg_effect := pg_effect pg; pg_inputs := pg_inputs pg; pg_target := pg_target pg;
     pg_processing := pg_processing pg; pg_promises := pg_promises pg; pg_timer := timer; pg_timers := timers;
     pg_made := made; pg_jobs := pg_jobs pg |}.
Definition with_target (pg : page) (i : nat) : page :=
  {| pg_next := pg_next pg; pg_view := pg_view pg; pg_effect := pg_effect pg; pg_inputs := pg_inputs pg; pg_target := i;
     pg_processing := pg_processing pg; pg_promises := pg_promises pg; pg_timer := pg_timer pg; pg_timers := pg_timers pg;
     pg_made := pg_made pg; pg_jobs := pg_jobs pg |}.
Definition effect_done (pg : page) : page :=
  {| pg_next := pg_next pg; pg_view := pg_view pg; pg_effect := false; pg_inputs := pg_inputs pg; pg_target := pg_target pg;
     pg_processing := pg_processing pg; pg_promises := pg_promises pg; pg_timer := pg_timer pg; pg_timers := pg_timers pg;
     pg_made := pg_made pg; pg_jobs := pg_jobs pg |}.

(** clearTimeout(delayTimer.current) and delayTimer.current = null (125-128, 184-185) *)
Definition clear_timer (pg : page) : page :=
  with_timer pg None (match pg_timer pg with
                      | Some t => filter (fun t' => negb (Nat.eqb t t')) (pg_timers pg)
                      | None => pg_timers pg
                      end) (pg_made pg).
(** useHangulize.ts:144-150 *)
Definition start_timer (pg : page) : page :=
  match pg_timer pg with
  | Some _ => pg
  | None => let pg := set_state pg Processing in
            with_timer pg (Some (pg_made pg)) (pg_made pg :: pg_timers pg) (S (pg_made pg))
  end.

(** useHangulize.ts:167-176: the worker is asked. [l] and [r] are the other jobs. *)
Definition ask (pg : page) (l : list job) (input : nat) (r : list job) : page :=
  let p := length (pg_promises pg) in
  {| pg_next := pg_next pg; pg_view := pg_view pg; pg_effect := pg_effect pg; pg_inputs := pg_inputs pg; pg_target := pg_target pg;
     pg_processing := Some p;
     pg_promises := pg_promises pg ++ [(fst (input_of pg input), snd (input_of pg input), None)];
     pg_timer := pg_timer pg; pg_timers := pg_timers pg; pg_made := pg_made pg;
     pg_jobs := l ++ Running input p :: r |}.
(** useHangulize.ts:162-164 *)
Definition wait (pg : page) (l : list job) (input : nat) (r : list job) : page :=
  match pg_processing pg with
  | None => ask pg l input r
  | Some p => with_jobs pg (l ++ Waiting input p :: r)
  end.
(** useHangulize.ts:176-185 *)
Definition finish (pg : page) (l : list job) (input : nat) (v : jstring) (r : list job) : page :=
  let pg := with_jobs pg (l ++ r) in
  if negb (Nat.eqb (pg_target pg) input) then pg
  else clear_timer (set_state (set_result pg v) Idle).
(** useHangulize.ts:121-158: the effect up to where it waits first, with the states of the
    rendering it belongs to. *)
Definition run_effect (pg : page) : page :=
  let v := pg_view pg in
  let pg := effect_done pg in
  if negb (valid_for pg v) then clear_timer (set_state (set_result pg []) Idle)
  else match v_state v with
       | Initializing => pg
       | _ =>
         if Nat.eqb (pg_target pg) (v_input v) then pg
         else
           let pg := start_timer (with_target pg (v_input v)) in
           if js_empty (v_result v) then wait pg (pg_jobs pg) (v_input v) []
           else with_jobs pg (pg_jobs pg ++ [Sleeping (v_input v)])
       end.
(** React: the effect (119-188) has the dependencies specs and input. *)
Definition render (pg : page) : page :=
  let n := pg_next pg in
  let v := pg_view pg in
  {| pg_next := n; pg_view := n;
     pg_effect := negb (Nat.eqb (v_version n) (v_version v) && Nat.eqb (v_input n) (v_input v));
     pg_inputs := pg_inputs pg; pg_target := pg_target pg; pg_processing := pg_processing pg; pg_promises := pg_promises pg;
     pg_timer := pg_timer pg; pg_timers := pg_timers pg; pg_made := pg_made pg; pg_jobs := pg_jobs pg |}.
(** A promise is fulfilled. *)
Definition fulfil (pg : page) (l : list (jstring * jstring * option jstring)) (lang word v : jstring)
           (r : list (jstring * jstring * option jstring)) : page :=
  {| pg_next := pg_next pg; pg_view := pg_view pg; pg_effect := pg_effect pg; pg_inputs := pg_inputs pg; pg_target := pg_target pg;
     pg_processing := pg_processing pg; pg_promises := l ++ (lang, word, Some v) :: r; pg_timer := pg_timer pg;
     pg_timers := pg_timers pg; pg_made := pg_made pg; pg_jobs := pg_jobs pg |}.
(** useHangulize.ts:168-173: a failure is logged and gives an empty result. *)
Definition caught (o : option jstring) : jstring := match o with Some v => v | None => [] end.
Definition settled_with (pg : page) (p : nat) (v : jstring) : Prop :=
  exists lang word, nth_error (pg_promises pg) p = Some (lang, word, Some v).

(** What happens by itself. [worker lang word o]: the worker can answer with [o], None for a
    failure. *)
Inductive page_step (worker : jstring -> jstring -> option jstring -> Prop) : page -> page -> Prop :=
| step_render pg : pg_effect pg = false -> pg_next pg <> pg_view pg -> page_step worker pg (render pg)
| step_effect pg : pg_effect pg = true -> page_step worker pg (run_effect pg)
| step_wake pg l i r : pg_jobs pg = l ++ Sleeping i :: r ->
    page_step worker pg (if Nat.eqb (pg_target pg) i then wait pg l i r else with_jobs pg (l ++ r))
| step_resume pg l i p r v : pg_jobs pg = l ++ Waiting i p :: r -> settled_with pg p v -> page_step worker pg (ask pg l i r)
| step_done pg l i p r v : pg_jobs pg = l ++ Running i p :: r -> settled_with pg p v -> page_step worker pg (finish pg l i v r)
| step_answer pg l lang word r o : pg_promises pg = l ++ (lang, word, None) :: r -> worker lang word o ->
    page_step worker pg (fulfil pg l lang word (caught o) r)
| step_timer pg l t r : pg_timers pg = l ++ t :: r ->          (* 147-149 *)
    page_step worker pg (with_timer (set_state pg ProcessingDelayed) (pg_timer pg) (l ++ r) (pg_made pg)).

(** What comes from outside: an input (190-192), and once the specs of the module (102-108). *)
Definition set_input (pg : page) (lang word : jstring) : page :=
  let n := pg_next pg in
  {| pg_next := {| v_state := v_state n; v_version := v_version n; v_specs := v_specs n; v_result := v_result n;
                   v_input := length (pg_inputs pg) |};
     pg_view := pg_view pg; pg_effect := pg_effect pg; pg_inputs := pg_inputs pg ++ [(lang, word)]; pg_target := pg_target pg;
     pg_processing := pg_processing pg; pg_promises := pg_promises pg; pg_timer := pg_timer pg; pg_timers := pg_timers pg;
     pg_made := pg_made pg; pg_jobs := pg_jobs pg |}.
Definition set_specs (pg : page) (specs : list jstring) : page :=
  let n := pg_next pg in
  with_next pg {| v_state := v_state n; v_version := S (v_version n); v_specs := specs; v_result := v_result n; v_input := v_input n |}.
Inductive user_step : page -> page -> Prop :=
| user_input pg lang word : user_step pg (set_input pg lang word)
| user_specs pg specs : v_version (pg_next pg) = 0%nat -> user_step pg (set_specs pg specs).

Inductive reached (worker : jstring -> jstring -> option jstring -> Prop) (manifest : list jstring) : page -> Prop :=
| reached_first : reached worker manifest (first_page manifest)
| reached_page pg pg' : reached worker manifest pg -> page_step worker pg pg' -> reached worker manifest pg'
| reached_user pg pg' : reached worker manifest pg -> user_step pg pg' -> reached worker manifest pg'.

(** App.tsx:14-32 determineLoadingResult: whether it is loading, and the text shown. *)
Definition loading_result (v : view) (lang word : jstring) : bool * jstring :=
  if negb (is_valid_input (v_specs v) lang word) then (false, [])
  else if js_empty (v_result v) then (true, [0x2026%N])
  else match v_state v with
       | ProcessingDelayed => (true, v_result v)
       | _ => (false, v_result v)
       end.
