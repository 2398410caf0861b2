(** rule.go *)
From Verif Require Import GoBase Utf8 Hre Subword.
Open Scope Z_scope.

(** rule.go:11-15 Rule *)
Record rule := { rule_id : Z; rule_from : pattern; rule_to : rpattern }.

(** rule.go:33-44: a mapping error skips the match. *)
Fixpoint rule_repls (r : rule) (word : bytes) (ms : list (list Z)) : res (list replacement) :=
  match ms with
  | [] => Ok []
  | m :: ms' =>
    let! start := index m 0 in
    let! stop := index m 1 in
    match interpolate (rule_to r) (rule_from r) word m with
    | Err _ => rule_repls r word ms'
    | Ok repl =>
      let! t := rule_repls r word ms' in
      Ok ({| rp_start := start; rp_stop := stop; rp_word := repl |} :: t)
    | Panic p => Panic p
    | Hang => Hang
    | NoFuel => NoFuel
    | Unmodelled => Unmodelled
    end
  end.

(** rule.go:30-47 replacements *)
Definition replacements (r : rule) (word : bytes) : res (list replacement) :=
  let! ms := find (rule_from r) word (-1) in rule_repls r word ms.

(** rule.go:22-27 Replace *)
Definition rule_replace (r : rule) (word : bytes) : res bytes :=
  let! repls := replacements r word in
  let! '(_, s) := replacer_string (replace_by (new_replacer word 0 0) repls) in
  Ok s.
