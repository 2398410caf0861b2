(** The package-level Hangulize called by several goroutines (hangulize.go:9-17,
    specs.go:38-68, translit.go:18-24).  Nothing in these functions synchronises. *)
From Coq Require Import String.
From Verif Require Import GoBase Utf8 Hsl Spec Jamo Procedure Api.
Open Scope Z_scope.

(** What a goroutine does next.  Parsing and the procedure itself are local. *)
Inductive thread :=
| AtLookup (lang word : bytes)             (* specs.go:45: reads the map specs *)
| AtStore (lang word : bytes) (s : spec)   (* specs.go:66: writes the map specs *)
| AtDetach (s : spec) (word : bytes)       (* hangulize.go:79: reads the map of the registry *)
| AtEnd (r : res returned).

Inductive shared_map := MapSpecs | MapRegistry.
Definition access (t : thread) : option (shared_map * bool) :=   (* true: write *)
  match t with
  | AtLookup _ _ => Some (MapSpecs, false)
  | AtStore _ _ _ => Some (MapSpecs, true)
  | AtDetach _ _ => Some (MapRegistry, false)
  | AtEnd _ => None
  end.

(** One step of one goroutine; the transliterators have no state. *)
Definition thread_step (H : hangul_lib) (fs : files) (c : choices) (reg : list (bytes * translit unit))
           (specs : cache) (t : thread) : cache * thread :=
  match t with
  | AtLookup lang word =>
    match lookup specs lang with
    | Some s => (specs, AtDetach s word)
    | None =>
      match lookup fs (specs_dir ++ lang ++ ext) with
      | None => (specs, AtEnd (Ok (word, Some (ErrSpecNotFound lang))))
      | Some hsl =>
        match parse_spec c hsl with
        | Ok s => (specs, AtStore lang word s)
        | Err _ => (specs, AtEnd (Panic PBundled))
        | Panic p => (specs, AtEnd (Panic p))
        | Hang => (specs, AtEnd Hang)
        | NoFuel => (specs, AtEnd NoFuel)
        | Unmodelled => (specs, AtEnd Unmodelled)
        end
      end
    end
  | AtStore lang word s => ((lang, s) :: specs, AtDetach s word)
  | AtDetach s word => (specs, AtEnd (snd (run_hangulizer H s reg false tt word)))
  | AtEnd r => (specs, AtEnd r)
  end.

(** Any goroutine may run next, with any iteration orders. *)
Inductive steps (H : hangul_lib) (fs : files) (reg : list (bytes * translit unit))
  : cache -> list thread -> cache -> list thread -> Prop :=
| steps_none specs ts : steps H fs reg specs ts specs ts
| steps_one specs l t r c specs1 t1 specs2 ts2 :
    choices_ok c ->
    thread_step H fs c reg specs t = (specs1, t1) ->
    steps H fs reg specs1 (l ++ t1 :: r) specs2 ts2 ->
    steps H fs reg specs (l ++ t :: r) specs2 ts2.

(** Two goroutines about to access the same map, one of them writing. *)
Definition race (ts : list thread) : Prop :=
  exists l t m r t' map w w',
    ts = l ++ t :: m ++ t' :: r /\
    access t = Some (map, w) /\ access t' = Some (map, w') /\ (w || w' = true).
