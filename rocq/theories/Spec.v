(** spec.go *)
From Coq Require Import String Permutation.
From Verif Require Import GoBase Utf8 Utf8Facts Unicode Replacer Regex Hre Hsl Scripts Rule.
Open Scope N_scope.

(** spec.go:217-224 Language *)
Record language := {
  l_id : bytes; l_codes : bytes * bytes; l_english : bytes; l_korean : bytes;
  l_script : bytes; l_translit : list bytes
}.
Definition language0 : language :=
  {| l_id := []; l_codes := ([], []); l_english := []; l_korean := []; l_script := [];
     l_translit := [] |}.

(** spec.go:256-259 Config *)
Record config := { c_authors : list bytes; c_stage : bytes }.

(** spec.go:18-45 Spec; the normReplacer is the list of its arguments. *)
Record spec := {
  s_lang : language;
  s_config : config;
  s_macros : macros_map;
  s_vars : vars_map;
  s_normalize : list (bytes * list bytes);
  s_rewrite : list rule;
  s_transcribe : list rule;
  s_test : list (bytes * bytes);
  s_source : bytes;
  s_script : script;
  s_puncts : list rune;
  s_normReplacer : list (bytes * bytes);
  s_normLetters : list rune
}.

(** What the Go runtime chooses while a spec is parsed: the order of each
    iteration over a map, and how many bytes bufio.Reader has read beyond the
    point where the parser stopped. *)
Record choices := {
  ch_macros : bool -> nat -> macros_map -> macros_map;    (* macro.go:12, per call *)
  ch_norm : list (bytes * list bytes) -> list (bytes * list bytes);   (* spec.go:169 *)
  ch_ahead : nat                                           (* spec.go:62 *)
}.
Definition choices_ok (c : choices) : Prop :=
  (forall b i m, Permutation m (ch_macros c b i m)) /\ (forall m, Permutation m (ch_norm c m)).
Definition choices0 : choices :=
  {| ch_macros := fun _ _ m => m; ch_norm := fun m => m; ch_ahead := 0 |}.

(** sec.( *hsl.DictSection), sec.( *hsl.ListSection) *)
Definition as_dict (s : section) : res (list pair_) :=
  match s with DictSection d _ => Ok d | ListSection _ _ => Panic PTypeAssert end.
Definition as_list (s : section) : res (list pair_) :=
  match s with ListSection l _ => Ok l | DictSection _ _ => Panic PTypeAssert end.

(** spec.go:230-250 newLanguage *)
Definition new_language (d : list pair_) : res language :=
  match dict_all d (lit "codes") with
  | [c0; c1] =>
    Ok {| l_id := dict_one d (lit "id"); l_codes := (c0, c1);
          l_english := dict_one d (lit "english"); l_korean := dict_one d (lit "korean");
          l_script := dict_one d (lit "script"); l_translit := dict_all d (lit "translit") |}
  | _ => Err ErrCodes
  end.

(** spec.go:261-267 newConfig *)
Definition new_config (d : list pair_) : config :=
  {| c_authors := dict_all d (lit "authors"); c_stage := dict_one d (lit "stage") |}.

(** spec.go:272-301 newRules. [tr] tells the transcribe section from the rewrite
    section; the (2i)-th and (2i+1)-th iterations over the macros serve rule i. *)
Fixpoint new_rules (c : choices) (tr : bool) (i : nat) (pairs : list pair_) (macros : macros_map)
         (vars : vars_map) : res (list rule) :=
  match pairs with
  | [] => Ok []
  | p :: pairs' =>
    let! from := new_pattern (pr_left p) (ch_macros c tr (2 * i) macros) vars in
    let '(negAWidth, negBWidth) := negative_lookaround_widths from in
    if ((negAWidth =? -1) || (negBWidth =? -1))%Z then Err ErrUnlimitedNegative
    else
      let! right := index (pr_right p) 0%Z in
      let to := new_rpattern right (ch_macros c tr (2 * i + 1) macros) vars in
      let! rest := new_rules c tr (S i) pairs' macros vars in
      Ok ({| rule_id := Z.of_nat i; rule_from := from; rule_to := to |} :: rest)
  end.

(** spec.go:311-326 collectFrom *)
Definition collect_from (r : rule) (rletters puncts : list rune) : list rune :=
  filter (fun l => is_punct l && negb (nmem l rletters)) (pattern_letters (rule_from r)) ++ puncts.

(** spec.go:307-342 collectPuncts *)
Fixpoint collect_rewrite (rules : list rule) (rletters puncts : list rune)
  : list rune * list rune :=
  match rules with
  | [] => (rletters, puncts)
  | r :: rules' =>
    let rletters' := rpattern_letters (rule_to r) ++ rletters in
    collect_rewrite rules' rletters' (collect_from r rletters' puncts)
  end.
Definition collect_puncts (rewrite transcribe : list rule) : list rune :=
  let '(rletters, puncts) := collect_rewrite rewrite [] [] in
  nodup N.eq_dec (fold_left (fun ps r => collect_from r rletters ps) transcribe puncts).

(** spec.go:146-157 *)
Fixpoint collect_tests (pairs : list pair_) : res (list (bytes * bytes)) :=
  match pairs with
  | [] => Ok []
  | p :: pairs' =>
    let! r := index (pr_right p) 0%Z in
    let! t := collect_tests pairs' in
    Ok ((pr_left p, r) :: t)
  end.

(** spec.go:168-174 *)
Definition norm_args (normalize : list (bytes * list bytes)) : list (bytes * bytes) :=
  flat_map (fun p => map (fun from => (from, fst p)) (snd p)) normalize.

(** spec.go:176-185: the loop decodes the first letter of [to] again and again
    until as many bytes have been counted, so only that letter is recorded. *)
Definition norm_letters (normalize : list (bytes * list bytes)) : list rune :=
  flat_map (fun p => match fst p with [] => [] | _ => [fst (decode_rune (fst p))] end) normalize.

(** An optional section. *)
Definition with_section {A} (h : hsl) (name : bytes) (f : section -> res A) (dflt : A) : res A :=
  match lookup h name with
  | Some s => f s
  | None => Ok dflt
  end.

(** spec.go:57-211 ParseSpec *)
Definition parse_spec (c : choices) (src : bytes) : res spec :=
  let! '(h, rest) := parse_hsl_src src in
  let source := firstn (length src - gwidth rest + ch_ahead c) src in
  let! lang := with_section h (lit "lang") (fun s => let! d := as_dict s in new_language d)
                            language0 in
  let! conf := with_section h (lit "config") (fun s => let! d := as_dict s in Ok (new_config d))
                            {| c_authors := []; c_stage := [] |} in
  let! macros := with_section h (lit "macros") (fun s => let! d := as_dict s in dict_injective d)
                              [] in
  let! vars := with_section h (lit "vars") (fun s => let! d := as_dict s in Ok (dict_map d)) [] in
  let! normalize := with_section h (lit "normalize")
                      (fun s => let! d := as_dict s in Ok (dict_map d)) [] in
  let! rewritePairs := with_section h (lit "rewrite") as_list [] in
  let! rewrite := new_rules c false 0 rewritePairs macros vars in
  let! transcribePairs := with_section h (lit "transcribe") as_list [] in
  let! transcribe := new_rules c true 0 transcribePairs macros vars in
  let! test := with_section h (lit "test") (fun s => let! l := as_list s in collect_tests l) [] in
  match get_script (l_script lang) with
  | None => Err (ErrScriptNotFound (l_script lang))
  | Some script =>
    let norm := ch_norm c normalize in
    Ok {| s_lang := lang; s_config := conf; s_macros := macros; s_vars := vars;
          s_normalize := normalize; s_rewrite := rewrite; s_transcribe := transcribe;
          s_test := test; s_source := source; s_script := script;
          s_puncts := collect_puncts rewrite transcribe;
          s_normReplacer := norm_args norm; s_normLetters := norm_letters normalize |}
  end.
