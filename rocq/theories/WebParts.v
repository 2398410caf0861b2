(** web/src/components/Examples.tsx and SelectLanguage.tsx: the parts of the page that show
    the examples of a language and let another language be chosen. Effects run after a
    rendering and before the next one. *)
From Coq Require Import String.
From Verif Require Import GoBase Web.

(** spec.d.ts:6-18: what these parts use of a spec *)
Record page_spec := { ps_id : jstring; ps_korean : jstring; ps_test : list (jstring * jstring) }.
(** spec.d.ts:20: the own keys in their order *)
Definition page_specs := list (jstring * page_spec).

(** ** Examples.tsx *)

(** lodash 4.17 _.sampleSize: a copy of the array is shuffled in place, of which the first [n]
    elements are taken; [picks] are the random numbers. The element at [j] changes places with the
    first of those not yet taken. *)
Definition swap_in {A} (x : A) (j : nat) (rest : list A) : list A := firstn j rest ++ x :: skipn (S j) rest.
Fixpoint sample_size {A} (picks : list nat) (n : nat) (l : list A) : list A :=
  match n, l with
  | O, _ => []
  | _, [] => []
  | S n', x :: rest =>
    match Nat.modulo (hd O picks) (S (length rest)) with
    | O => x :: sample_size (tl picks) n' rest
    | S j => nth j rest x :: sample_size (tl picks) n' (swap_in x j rest)
    end
  end.
(** Examples.tsx:17-19: spec.test, if the spec is defined. What every object has (see [js_defined])
    has no tests, of which lodash takes nothing. *)
Definition tests_of (specs : page_specs) (lang : jstring) : option (list (jstring * jstring)) :=
  match lookup specs lang with
  | Some s => Some (ps_test s)
  | None => if existsb (beqb lang) object_prototype then Some [] else None
  end.

(** Examples.tsx:14-30: the properties of the last rendering, whether its effect has still to run,
    the ref prevLang, the examples as set and as rendered, and whether they were set since. *)
Record examples_box := {
  eb_specs : page_specs;
  eb_lang : jstring;
  eb_effect : bool;
  eb_prev : jstring;
  eb_next : list (jstring * jstring);
  eb_shown : list (jstring * jstring);
  eb_dirty : bool
}.
(** Examples.tsx:16-21 shuffle *)
Definition shuffle (picks : list nat) (b : examples_box) : examples_box :=
  match tests_of (eb_specs b) (eb_lang b) with
  | Some tests => {| eb_specs := eb_specs b; eb_lang := eb_lang b; eb_effect := eb_effect b; eb_prev := eb_prev b;
                     eb_next := sample_size picks 5 tests; eb_shown := eb_shown b; eb_dirty := true |}
  | None => b
  end.
(** Examples.tsx:24-30 the effect *)
Definition examples_effect (picks : list nat) (b : examples_box) : examples_box :=
  let b' := if beqb (eb_prev b) (eb_lang b) then b else shuffle picks b in
  {| eb_specs := eb_specs b'; eb_lang := eb_lang b'; eb_effect := false;
     eb_prev := (if beqb (eb_prev b) (eb_lang b) then eb_prev b else eb_lang b);
     eb_next := eb_next b'; eb_shown := eb_shown b'; eb_dirty := eb_dirty b' |}.
(** Examples.tsx:32-44: a rendering *)
Definition examples_render (specs : page_specs) (lang : jstring) (b : examples_box) : examples_box :=
  {| eb_specs := specs; eb_lang := lang; eb_effect := true; eb_prev := eb_prev b;
     eb_next := eb_next b; eb_shown := eb_next b; eb_dirty := false |}.
(** Examples.tsx:14,23: the first rendering *)
Definition examples_first (specs : page_specs) (lang : jstring) : examples_box :=
  {| eb_specs := specs; eb_lang := lang; eb_effect := true; eb_prev := []; eb_next := []; eb_shown := []; eb_dirty := false |}.
(** App.tsx:42-45: App renders no parts with a language that has no spec, but throws. *)
Definition app_renders (specs : page_specs) (lang : jstring) : Prop := tests_of specs lang <> None.
(** The effect, a rendering for new examples, one by App, and a click (34) *)
Inductive examples_step : examples_box -> examples_box -> Prop :=
| ex_effect picks b : eb_effect b = true -> examples_step b (examples_effect picks b)
| ex_again b : eb_effect b = false -> eb_dirty b = true -> examples_step b (examples_render (eb_specs b) (eb_lang b) b)
| ex_app specs lang b : eb_effect b = false -> app_renders specs lang -> examples_step b (examples_render specs lang b)
| ex_click picks b : examples_step b (shuffle picks b).
(** [given]: the specs that App hands over *)
Inductive examples_reached (given : page_specs -> Prop) : examples_box -> Prop :=
| exr_first specs lang : given specs -> app_renders specs lang -> examples_reached given (examples_first specs lang)
| exr_step b b' : examples_reached given b -> examples_step b b' -> given (eb_specs b') -> examples_reached given b'.

(** ** SelectLanguage.tsx *)

(** ECMAScript IsLessThan for strings *)
Fixpoint js_less (a b : jstring) : bool :=
  match a, b with
  | _, [] => false
  | [], _ :: _ => true
  | x :: a', y :: b' => (x <? y)%N || ((x =? y)%N && js_less a' b')
  end.
(** lodash 4.17 _.sortBy: ascending, and equal ones in their order *)
Fixpoint sort_insert (s : page_spec) (l : list page_spec) : list page_spec :=
  match l with
  | [] => [s]
  | x :: l' => if js_less (ps_korean x) (ps_korean s) then x :: sort_insert s l' else s :: l
  end.
Definition sort_by_korean (specs : page_specs) : list page_spec := fold_right sort_insert [] (map snd specs).
(** flags.json *)
Definition flags : list (jstring * jstring) :=
  [(lit "aze", lit "az"); (lit "bel", lit "by"); (lit "bul", lit "bg"); (lit "cat", lit ""); (lit "ces", lit "cz");
   (lit "chi", lit "cn"); (lit "cym", lit "gb wls"); (lit "deu", lit "de"); (lit "ell", lit "gr"); (lit "epo", lit "");
   (lit "est", lit "ee"); (lit "fin", lit "fi"); (lit "grc", lit "gr"); (lit "hbs", lit ""); (lit "hun", lit "hu");
   (lit "isl", lit "is"); (lit "ita", lit "it"); (lit "jpn", lit "jp"); (lit "jpn-ck", lit "jp"); (lit "kat-1", lit "ge");
   (lit "kat-2", lit "ge"); (lit "lat", lit ""); (lit "lav", lit "lv"); (lit "lit", lit "lt"); (lit "mkd", lit "mk");
   (lit "nld", lit "nl"); (lit "pol", lit "pl"); (lit "por", lit "pt"); (lit "por-br", lit "br"); (lit "ron", lit "ro");
   (lit "rus", lit "ru"); (lit "slk", lit "sk"); (lit "slv", lit "si"); (lit "spa", lit "es"); (lit "sqi", lit "al");
   (lit "swe", lit "se"); (lit "tur", lit "tr"); (lit "ukr", lit "ua"); (lit "vie", lit "vn"); (lit "wlm", lit "gb wls")].
(** SelectLanguage.tsx:10-15: an option; of its fields for the search none is modelled. *)
Record lang_option := { op_value : jstring; op_flag : option jstring; op_text : jstring }.
(** SelectLanguage.tsx:51-54 *)
Definition option_of (s : page_spec) : lang_option :=
  {| op_value := ps_id s; op_flag := lookup flags (ps_id s); op_text := ps_korean s |}.
(** SelectLanguage.tsx:48-73 *)
Definition select_options (specs : page_specs) : list lang_option := map option_of (sort_by_korean specs).
(** SelectLanguage.tsx:44-74: the property of the last rendering, whether the effect on it has still
    to run, the options as set and as rendered, and whether they were set since. The first
    rendering has none. *)
Record select_box := { sb_specs : page_specs; sb_effect : bool; sb_next : list lang_option; sb_shown : list lang_option; sb_dirty : bool }.
Definition select_first (specs : page_specs) : select_box :=
  {| sb_specs := specs; sb_effect := true; sb_next := []; sb_shown := []; sb_dirty := false |}.
Definition select_effect (b : select_box) : select_box :=
  {| sb_specs := sb_specs b; sb_effect := false; sb_next := select_options (sb_specs b); sb_shown := sb_shown b; sb_dirty := true |}.
(** The effect runs again when the property is another object. *)
Definition select_render (other : option page_specs) (b : select_box) : select_box :=
  {| sb_specs := match other with Some specs => specs | None => sb_specs b end;
     sb_effect := match other with Some _ => true | None => false end;
     sb_next := sb_next b; sb_shown := sb_next b; sb_dirty := false |}.
Inductive select_step : select_box -> select_box -> Prop :=
| se_effect b : sb_effect b = true -> select_step b (select_effect b)
| se_render other b : sb_effect b = false -> select_step b (select_render other b).
Inductive select_reached : select_box -> Prop :=
| ser_first specs : select_reached (select_first specs)
| ser_step b b' : select_reached b -> select_step b b' -> select_reached b'.
