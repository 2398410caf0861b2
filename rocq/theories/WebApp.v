(** web/src/components/App.tsx and Prompt.tsx: the page as a whole, made of the hook of Web.v and
    the address of WebUrl.v. React renders the component when a state of the hook is another
    than in the last rendering or the location has been set, and then runs its effects in
    their order: that of the hook, the redirection, and the input. What comes from outside
    happens when the effects of the last rendering have run. *)
From Coq Require Import String.
From Verif Require Import GoBase Web WebUrl.

(** The component: the hook, the address, whether the location has been set since the last
    rendering, what that rendering has made of it (App.tsx:38-40), the dependencies of the last
    run of the effect in 77-79, the title of the document, whether the effects of the last
    rendering have still to run, and whether something has been thrown: React then removes
    the component. *)
Record app := {
  ap_page : page;
  ap_addr : address;
  ap_moved : bool;
  ap_lang : jstring;
  ap_word : jstring;
  ap_sent : option (jstring * jstring);
  ap_title : jstring;
  ap_fresh : bool;
  ap_thrown : bool
}.

(** App.tsx:35-45: a rendering; [sample] is the language chosen at random. *)
Definition rendered (sample : jstring) (ap : app) (pg : page) : app :=
  let p := current_params (ap_addr ap) in
  let lang := app_lang sample p in
  {| ap_page := pg; ap_addr := ap_addr ap; ap_moved := false; ap_lang := lang; ap_word := app_word p;
     ap_sent := ap_sent ap; ap_title := ap_title ap; ap_fresh := true;
     ap_thrown := negb (js_defined (v_specs (pg_view pg)) lang) |}.
Definition app_render (sample : jstring) (ap : app) : app := rendered sample ap (render (ap_page ap)).

(** App.tsx:64-68 *)
Definition page_name : jstring := [0xD55C; 0xAE00; 0xB77C; 0xC774; 0xC988]%N.
Definition app_title (word : jstring) : jstring := if js_empty word then page_name else page_name ++ [0x3A; 0x20]%N ++ word.
(** App.tsx:47-79: the effects after a rendering. What every object has is no spec and has no
    examples: without a word, their number is asked in vain (54). *)
Definition app_effects (example : option jstring) (ap : app) : app :=
  let pg := if pg_effect (ap_page ap) then run_effect (ap_page ap) else ap_page ap in
  let p := current_params (ap_addr ap) in
  if negb (existsb (beqb (ap_lang ap)) (v_specs (pg_view pg))) && negb (param_has p (lit "word")) then
    {| ap_page := pg; ap_addr := ap_addr ap; ap_moved := ap_moved ap; ap_lang := ap_lang ap; ap_word := ap_word ap;
       ap_sent := ap_sent ap; ap_title := ap_title ap; ap_fresh := false; ap_thrown := true |}
  else
    let sent := match ap_sent ap with
                | Some (lang, word) => beqb lang (ap_lang ap) && beqb word (ap_word ap)
                | None => false
                end in
    {| ap_page := if sent then pg else set_input pg (ap_lang ap) (ap_word ap);
       ap_addr := redirect (ap_lang ap) example (ap_addr ap); ap_moved := redirects example p;
       ap_lang := ap_lang ap; ap_word := ap_word ap; ap_sent := Some (ap_lang ap, ap_word ap);
       ap_title := app_title (ap_word ap); ap_fresh := false; ap_thrown := false |}.

(** The first rendering, of the page at the address [search] *)
Definition first_app (manifest : list jstring) (search sample : jstring) : app :=
  rendered sample
    {| ap_page := first_page manifest; ap_addr := first_address search; ap_moved := false; ap_lang := []; ap_word := [];
       ap_sent := None; ap_title := page_name; ap_fresh := true; ap_thrown := false |} (first_page manifest).

Definition with_page (ap : app) (pg : page) : app :=
  {| ap_page := pg; ap_addr := ap_addr ap; ap_moved := ap_moved ap; ap_lang := ap_lang ap; ap_word := ap_word ap;
     ap_sent := ap_sent ap; ap_title := ap_title ap; ap_fresh := ap_fresh ap; ap_thrown := ap_thrown ap |}.
Definition with_addr (ap : app) (a : address) : app :=
  {| ap_page := ap_page ap; ap_addr := a; ap_moved := true; ap_lang := ap_lang ap; ap_word := ap_word ap;
     ap_sent := ap_sent ap; ap_title := ap_title ap; ap_fresh := ap_fresh ap; ap_thrown := ap_thrown ap |}.

(** What happens by itself. [tests lang] are the words of the examples of a language, of which
    one is chosen at random (App.tsx:55). *)
Inductive app_step (worker : jstring -> jstring -> option jstring -> Prop) (tests : jstring -> list jstring) : app -> app -> Prop :=
| app_draws ap sample : ap_thrown ap = false -> ap_fresh ap = false ->
    pg_next (ap_page ap) <> pg_view (ap_page ap) \/ ap_moved ap = true ->
    In sample (v_specs (pg_next (ap_page ap))) -> app_step worker tests ap (app_render sample ap)
| app_runs ap example : ap_thrown ap = false -> ap_fresh ap = true ->
    match example with Some w => In w (tests (ap_lang ap)) | None => tests (ap_lang ap) = [] end ->
    app_step worker tests ap (app_effects example ap)
| app_goes ap pg : ap_thrown ap = false -> page_step worker (ap_page ap) pg ->       (* neither a rendering nor an effect *)
    pg_view pg = pg_view (ap_page ap) -> pg_effect pg = pg_effect (ap_page ap) ->
    app_step worker tests ap (with_page ap pg).

(** A key of the specs: a string without unpaired surrogates *)
Definition language (lang : jstring) : Prop := lang <> [] /\ js_units lang /\ usv_string lang = lang.
(** What comes from outside: typing (Prompt.tsx:33-35), choosing a language (26-28), links and the
    history of the browser, and once the specs of the module. *)
Inductive outer_step : app -> app -> Prop :=
| outer_types ap word : ap_thrown ap = false -> ap_fresh ap = false -> js_units word ->
    outer_step ap (with_addr ap (handle_change (ap_lang ap) word (ap_addr ap)))
| outer_selects ap lang : ap_thrown ap = false -> ap_fresh ap = false -> In lang (v_specs (pg_view (ap_page ap))) ->
    outer_step ap (with_addr ap (handle_change lang (ap_word ap) (ap_addr ap)))
| outer_goes ap search : ap_thrown ap = false -> ap_fresh ap = false -> outer_step ap (with_addr ap (navigate (ap_addr ap) search))
| outer_specs ap specs : ap_thrown ap = false -> ap_fresh ap = false -> v_version (pg_next (ap_page ap)) = 0%nat ->
    specs <> [] -> Forall language specs -> outer_step ap (with_page ap (set_specs (ap_page ap) specs)).

Inductive app_reached (worker : jstring -> jstring -> option jstring -> Prop) (tests : jstring -> list jstring)
          (manifest : list jstring) : app -> Prop :=
| app_first search sample : In sample manifest -> app_reached worker tests manifest (first_app manifest search sample)
| app_reached_step ap ap' : app_reached worker tests manifest ap -> app_step worker tests ap ap' -> app_reached worker tests manifest ap'
| app_reached_outer ap ap' : app_reached worker tests manifest ap -> outer_step ap ap' -> app_reached worker tests manifest ap'.

(** App.tsx:81-101: what is shown: the language and the word in the prompt, whether it is
    loading, and the result. *)
Definition app_shows (ap : app) : jstring * jstring * (bool * jstring) :=
  (ap_lang ap, ap_word ap, loading_result (pg_view (ap_page ap)) (ap_lang ap) (ap_word ap)).
