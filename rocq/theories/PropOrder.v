(** Properties C14, C18, C19 and C43: tables whose iteration order Go leaves open. *)
From Coq Require Import Permutation Sorted String.
From Verif Require Import GoBase Utf8 Utf8Facts Replacer ReplacerFacts Regex RegexParse Hre Hsl Scripts Rule Spec
  Jamo Procedure SpecOrder LettersFacts.
Open Scope N_scope.

(** ** C14 Letters() is a strictly ascending set

    The letters are kept in a Go map; [ls] is any order in which its keys may be read. *)
Theorem C14_pattern_letters : forall expr macros vars p ls,
  new_pattern expr macros vars = Ok p -> Permutation (p_letters p) ls ->
  StronglySorted N.lt (sort_runes ls) /\
  (forall l, In l (sort_runes ls) <-> In l (p_letters p)) /\
  sort_runes ls = pattern_letters p.
Proof. exact letters_sorted. Qed.
Print Assumptions C14_pattern_letters.

Theorem C14_rpattern_letters : forall expr macros vars ls,
  Permutation (r_letters (new_rpattern expr macros vars)) ls ->
  StronglySorted N.lt (sort_runes ls) /\
  (forall l, In l (sort_runes ls) <-> In l (r_letters (new_rpattern expr macros vars))) /\
  sort_runes ls = rpattern_letters (new_rpattern expr macros vars).
Proof. exact rletters_sorted. Qed.
Print Assumptions C14_rpattern_letters.

Example C14_example : exists p,
  new_pattern (lit "{c}ba'[ab]{~d}") [] [] = Ok p /\ pattern_letters p = lit "'abcd" /\
  Permutation (p_letters p) (rev (p_letters p)).
Proof.
  eexists; split; [vm_compute; reflexivity|]; split; [vm_compute; reflexivity|apply Permutation_rev].
Qed.

(** ** C18 Macro expansion is deterministic

    [is_prefix k s] says that s begins with k; [unambiguous t] that no key of the table is
    a prefix of another one. *)
Theorem C18_deterministic : forall macros order expr,
  unambiguous macros -> Permutation macros order ->
  expand_macros expr order = expand_macros expr macros.
Proof. exact macros_deterministic. Qed.
Print Assumptions C18_deterministic.

(** The result in terms of the table as a set: [expands] reads the text from left to right
    and replaces each key it meets. *)
Theorem C18_meaning : forall macros expr out,
  unambiguous macros -> (forall v, ~ In ([], v) macros) ->
  (expands macros expr out <-> out = expand_macros expr macros).
Proof. exact macros_meaning. Qed.
Print Assumptions C18_meaning.

Example C18_example :
  let macros := [(lit "@", lit "<vowels>"); (lit "##", lit "x")] in
  unambiguous macros /\ (forall v, ~ In ([], v) macros) /\
  expand_macros (lit "a@#@##") macros = lit "a<vowels>#<vowels>x".
Proof.
  split; [apply unambiguousb_ok; vm_compute; reflexivity|]; split; [|vm_compute; reflexivity].
  intros v [H|[H|[]]]; discriminate.
Qed.

Theorem C18_overlapping_refuted : exists macros order expr,
  Permutation macros order /\ expand_macros expr order <> expand_macros expr macros.
Proof.
  exists [(lit "a", lit "1"); (lit "ab", lit "2")], [(lit "ab", lit "2"); (lit "a", lit "1")], (lit "ab").
  split; [apply perm_swap|vm_compute; discriminate].
Qed.
Print Assumptions C18_overlapping_refuted.

(** ** C19 Spec normalization is deterministic

    Two runs of ParseSpec on one source differ in the iteration orders ([choices]); the
    Hangulizers made from the two specs agree on every word, registry and tracer. *)
Theorem C19_deterministic : forall c1 c2 src s1 s2,
  choices_ok c1 -> choices_ok c2 ->
  parse_spec c1 src = Ok s1 -> parse_spec c2 src = Ok s2 ->
  unambiguous (s_macros s1) -> unambiguous (norm_args (s_normalize s1)) ->
  forall W H (reg : list (bytes * translit W)) on w word,
  forward H s1 reg on w word = forward H s2 reg on w word.
Proof. exact specs_agree. Qed.
Print Assumptions C19_deterministic.

(** The normalization step alone. *)
Theorem C19_normalization : forall table order word,
  unambiguous (norm_args table) -> Permutation table order ->
  replacer_replace (norm_args order) word = replacer_replace (norm_args table) word.
Proof. exact norm_deterministic. Qed.
Print Assumptions C19_normalization.

Definition c19_src : bytes := lit "
lang:
    id = ""x""
    codes = ""xx"", ""xxx""
normalize:
    ""a"" = ""b"", ""cd""
    ""e"" = ""f""
transcribe:
    ""a"" -> ""b""
".
Example C19_example : exists s, parse_spec choices0 c19_src = Ok s /\
  unambiguousb (s_macros s) = true /\ unambiguousb (norm_args (s_normalize s)) = true /\
  s_normalize s <> [].
Proof. eexists; split; [vm_compute; reflexivity|]; split; [reflexivity|]; split; [reflexivity|discriminate]. Qed.

Theorem C19_overlapping_refuted : exists table order word,
  Permutation table order /\
  replacer_replace (norm_args order) word <> replacer_replace (norm_args table) word.
Proof.
  exists [(lit "x", [lit "a"]); (lit "y", [lit "ab"])], [(lit "y", [lit "ab"]); (lit "x", [lit "a"])],
    (lit "ab").
  split; [apply perm_swap|vm_compute; discriminate].
Qed.
Print Assumptions C19_overlapping_refuted.

(** ** C43 Custom normalization targets survive script normalization *)

(** The first letter of every target survives. *)
Theorem C43_first_letter_partial : forall c src s target sources l rest,
  parse_spec c src = Ok s -> In (target, sources) (s_normalize s) -> runes target = l :: rest ->
  norm_rune s l = l.
Proof. exact first_target_kept. Qed.
Print Assumptions C43_first_letter_partial.

Definition c43_src (target : string) : bytes := lit "
lang:
    id = ""x""
    codes = ""xx"", ""xxx""
normalize:
    """ ++ lit target ++ lit """ = ""q""
".
Example C43_example : exists s, parse_spec choices0 (c43_src "É") = Ok s /\
  norm_rune s 0xC9 = 0xC9 /\ norm_rune s 0xC8 = 0x65.
Proof. eexists; split; [vm_compute; reflexivity|]; split; reflexivity. Qed.

(** The other letters of a longer target do not. *)
Theorem C43_later_letters_refuted : exists src s target sources l,
  parse_spec choices0 src = Ok s /\ In (target, sources) (s_normalize s) /\
  In l (runes target) /\ norm_rune s l <> l.
Proof.
  exists (c43_src "xÉ"); eexists; exists (lit "xÉ"), [lit "q"], 0xC9.
  split; [vm_compute; reflexivity|]; split; [left; reflexivity|].
  split; [vm_compute; tauto|vm_compute; discriminate].
Qed.
Print Assumptions C43_later_letters_refuted.
