(** specs.go, translit.go, hangulize.go and translit/translit.go *)
From Coq Require Import String.
From Verif Require Import GoBase Utf8 Hsl Spec Jamo Procedure BString Bundled.
Open Scope Z_scope.

(** ** specs.go *)

(** The order of Go strings: byte by byte. *)
Fixpoint bytes_le (a b : bytes) : bool :=
  match a, b with
  | [], _ => true
  | _ :: _, [] => false
  | x :: a', y :: b' => (x <? y)%N || ((x =? y)%N && bytes_le a' b')
  end.
(** sort.Strings (specs.go:33), as insertion; sorted order of strings is unique. *)
Fixpoint insert_bytes (x : bytes) (l : list bytes) : list bytes :=
  match l with
  | [] => [x]
  | y :: l' => if bytes_le x y then x :: l else y :: insert_bytes x l'
  end.
Definition sort_strings (l : list bytes) : list bytes := fold_right insert_bytes [] l.

(** specs.go:13 ext *)
Definition ext : bytes := lit ".hsl".
(** strings.HasSuffix and strings.TrimSuffix (specs.go:28-29). *)
Definition has_suffix (s x : bytes) : bool :=
  (length x <=? length s)%nat && beqb (skipn (length s - length x) s) x.
Definition trim_suffix (s x : bytes) : bytes :=
  if has_suffix s x then firstn (length s - length x) s else s.

(** specs.go:15-16: the embedded files, full path and contents. A path that does
    not name an embedded file, also an ill-formed one, gives fs.ErrNotExist. *)
Definition files := list (bytes * bytes).
Definition specs_dir : bytes := lit "specs/".

(** specs.go:20-35 ListLangs. All files are in the directory specs. *)
Definition list_langs (fs : files) : list bytes :=
  let dir := map (fun e => skipn (length specs_dir) (fst e)) fs in
  sort_strings (map (fun n => trim_suffix n ext) (filter (fun n => has_suffix n ext) dir)).

(** specs.go:38 specs, the cache. *)
Definition cache := list (bytes * spec).

(** delete on a Go map *)
Definition remove {A} (m : list (bytes * A)) (k : bytes) : list (bytes * A) :=
  filter (fun e => negb (beqb (fst e) k)) m.

(** specs.go:42-68 LoadSpec *)
Definition load_spec (fs : files) (c : choices) (specs : cache) (lang : bytes) : cache * res spec :=
  match lookup specs lang with
  | Some s => (specs, Ok s)
  | None =>
    match lookup fs (specs_dir ++ lang ++ ext) with
    | None => (specs, Err (ErrSpecNotFound lang))
    | Some hsl =>
      match parse_spec c hsl with
      | Ok s => ((lang, s) :: specs, Ok s)
      | Err _ => (specs, Panic PBundled)
      | r => (specs, r)
      end
    end
  end.

(** specs.go:71-73 UnloadSpec *)
Definition unload_spec (specs : cache) (lang : bytes) : cache := remove specs lang.

(** The files of /repo/specs (tools/gen_bundled.py). *)
Definition bundled_files : files :=
  map (fun e => (specs_dir ++ fst e ++ ext, file_bytes (snd e))) bundled.

(** ** translit.go *)
Section Registry.
  Context {T : Type} (scheme : T -> bytes).
  (** translit.go:15 translitRegistry *)
  Definition registry := list (bytes * T).
  (** translit.go:27-37 Add *)
  Definition reg_add (r : registry) (t : T) : registry * bool :=
    match lookup r (scheme t) with
    | Some _ => (r, false)
    | None => ((scheme t, t) :: r, true)
    end.
  (** translit.go:40-46 Remove *)
  Definition reg_remove (r : registry) (s : bytes) : registry * bool :=
    match lookup r s with
    | Some _ => (remove r s, true)
    | None => (r, false)
    end.

  (** Maps are references. A heap holds every map made; address 0 is the registry, the
      others are the copies handed out (translit.go:18-24 Detach allocates one). A
      client can use the three functions and write into any copy it was given. *)
  Definition heap := list registry.
  Inductive call :=
  | Use (t : T)                        (* translit.go:57-59, hangulize.go:63-65 *)
  | Unuse (s : bytes)                  (* translit.go:62-64, hangulize.go:68-70 *)
  | Translits                          (* translit.go:52-54, hangulize.go:58-60 *)
  | Scribble (copy : nat) (contents : registry).
  Inductive answer :=
  | Changed (b : bool)
  | Copy (address : nat) (contents : registry)
  | Nothing.
  Definition write (h : heap) (a : nat) (m : registry) : heap := firstn a h ++ m :: skipn (S a) h.
  Definition read (h : heap) (a : nat) : registry := nth a h [].
  Definition call_step (h : heap) (c : call) : heap * answer :=
    match c with
    | Use t => let '(r, b) := reg_add (read h 0) t in (write h 0 r, Changed b)
    | Unuse s => let '(r, b) := reg_remove (read h 0) s in (write h 0 r, Changed b)
    | Translits => (h ++ [read h 0], Copy (length h) (read h 0))
    | Scribble i m => (if (1 <=? i)%nat && (i <? length h)%nat then write h i m else h, Nothing)
    end.
  Fixpoint call_steps (h : heap) (cs : list call) : heap * list answer :=
    match cs with
    | [] => (h, [])
    | c :: cs' =>
      let '(h1, a) := call_step h c in
      let '(h2, l) := call_steps h1 cs' in (h2, a :: l)
    end.

  (** translit/translit.go:30-39: [done] are the transliterators added so far. *)
  Fixpoint install_loop (done ts : list T) (r : registry) : registry * bool :=
    match ts with
    | [] => (r, true)
    | t :: ts' =>
      match reg_add r t with
      | (r1, true) => install_loop (done ++ [t]) ts' r1
      | (r1, false) => (fold_left (fun r t => fst (reg_remove r (scheme t))) done r1, false)
      end
    end.
  (** translit/translit.go:18-40 Install, for at most one Hangulizer. *)
  Definition install (ts : list T) (r : registry) : registry * bool := install_loop [] ts r.
End Registry.
Arguments Use {T}. Arguments Unuse {T}. Arguments Translits {T}. Arguments Scribble {T}.
Arguments Changed {T}. Arguments Copy {T}. Arguments Nothing {T}.

(** ** hangulize.go *)

(** The pair a Go function of type (string, error) returns. *)
Definition returned := (bytes * option gerror)%type.

(** hangulize.go:78-81 Hangulizer.Hangulize, procedure.go:26-46: on an error the
    string is empty. The registry is copied before the run. *)
Definition run_hangulizer {W} (H : hangul_lib) (s : spec) (reg : list (bytes * translit W)) (on : bool)
           (w : W) (word : bytes) : W * tracer * res returned :=
  let '(w1, tr, r) := forward H s reg on w word in
  (w1, tr, match r with
           | Ok out => Ok (out, None)
           | Err e => Ok ([], Some e)
           | Panic p => Panic p
           | Hang => Hang
           | NoFuel => NoFuel
           | Unmodelled => Unmodelled
           end).

(** hangulize.go:9-17 Hangulize *)
Definition hangulize {W} (H : hangul_lib) (fs : files) (c : choices) (specs : cache)
           (reg : list (bytes * translit W)) (w : W) (lang word : bytes)
  : cache * W * res returned :=
  match load_spec fs c specs lang with
  | (specs1, Ok s) =>
    let '(w1, _, r) := run_hangulizer H s reg false w word in (specs1, w1, r)
  | (specs1, Err e) => (specs1, w, Ok (word, Some e))
  | (specs1, Panic p) => (specs1, w, Panic p)
  | (specs1, Hang) => (specs1, w, Hang)
  | (specs1, NoFuel) => (specs1, w, NoFuel)
  | (specs1, Unmodelled) => (specs1, w, Unmodelled)
  end.

(** Histories of calls on the package. Every parse may see its own iteration orders. *)
Inductive api_call := ALoad (lang : bytes) | AUnload (lang : bytes) | AHangulize (lang word : bytes).
Inductive api_answer :=
| GotSpec (r : res spec)
| GotNothing
| GotWord (r : res returned).
Definition api_step {W} (H : hangul_lib) (fs : files) (reg : list (bytes * translit W))
           (st : cache * W) (c : choices) (a : api_call) : (cache * W) * api_answer :=
  match a with
  | ALoad lang => let '(specs1, r) := load_spec fs c (fst st) lang in ((specs1, snd st), GotSpec r)
  | AUnload lang => ((unload_spec (fst st) lang, snd st), GotNothing)
  | AHangulize lang word =>
    let '(specs1, w1, r) := hangulize H fs c (fst st) reg (snd st) lang word in ((specs1, w1), GotWord r)
  end.
Fixpoint api_run {W} (H : hangul_lib) (fs : files) (reg : list (bytes * translit W))
         (st : cache * W) (calls : list (choices * api_call)) : (cache * W) * list api_answer :=
  match calls with
  | [] => (st, [])
  | (c, a) :: rest =>
    let '(st1, x) := api_step H fs reg st c a in
    let '(st2, xs) := api_run H fs reg st1 rest in (st2, x :: xs)
  end.
