(** ParseSpec does not depend on the iteration order of the macro and normalize tables
    when they are unambiguous. *)
From Coq Require Import Permutation String.
From Verif Require Import GoBase Utf8 Utf8Facts Unicode Replacer ReplacerFacts Hre Hsl Scripts Spec Rule Jamo Procedure.
Open Scope N_scope.

Lemma expand_macros_perm m1 m2 e :
  unambiguous m1 -> Permutation m1 m2 -> expand_macros e m1 = expand_macros e m2.
Proof. intros; apply replacer_permutation; assumption. Qed.

Lemma new_pattern_perm e m1 m2 vars :
  unambiguous m1 -> Permutation m1 m2 -> new_pattern e m1 vars = new_pattern e m2 vars.
Proof. intros Hu Hp; unfold new_pattern; rewrite (expand_macros_perm m1 m2) by assumption; reflexivity. Qed.
Lemma new_rpattern_perm e m1 m2 vars :
  unambiguous m1 -> Permutation m1 m2 -> new_rpattern e m1 vars = new_rpattern e m2 vars.
Proof. intros Hu Hp; unfold new_rpattern; rewrite (expand_macros_perm m1 m2) by assumption; reflexivity. Qed.

Lemma new_rules_perm c tr i pairs macros vars :
  choices_ok c -> unambiguous macros ->
  new_rules c tr i pairs macros vars = new_rules choices0 tr i pairs macros vars.
Proof.
  intros [Hc _] Hu; revert i; induction pairs as [|p pairs IH]; intros i; [reflexivity|].
  cbn [new_rules choices0 ch_macros].
  rewrite <- (new_pattern_perm (pr_left p) macros) by auto.
  rewrite IH; cbn [choices0 ch_macros].
  destruct (new_pattern (pr_left p) macros vars) as [from| | | | |]; [cbn [bind]|reflexivity ..].
  destruct (negative_lookaround_widths from) as [wa wb].
  destruct ((wa =? -1) || (wb =? -1))%Z; [reflexivity|].
  destruct (index (pr_right p) 0%Z) as [right| | | | |]; [cbn [bind]|reflexivity ..].
  rewrite <- (new_rpattern_perm right macros) by auto; reflexivity.
Qed.

(** What is left to the runtime once the macros are unambiguous: the order of the
    arguments of the normalizing replacer and how far the source was read ahead. *)
Definition same_but_order (s s' : spec) : Prop :=
  s' = {| s_lang := s_lang s; s_config := s_config s; s_macros := s_macros s; s_vars := s_vars s;
          s_normalize := s_normalize s; s_rewrite := s_rewrite s; s_transcribe := s_transcribe s;
          s_test := s_test s; s_source := s_source s'; s_script := s_script s;
          s_puncts := s_puncts s; s_normReplacer := s_normReplacer s';
          s_normLetters := s_normLetters s |} /\
  Permutation (s_normReplacer s) (s_normReplacer s').

Lemma norm_args_perm m m' : Permutation m m' -> Permutation (norm_args m) (norm_args m').
Proof. intros H; unfold norm_args; apply Permutation_flat_map; exact H. Qed.

Lemma parse_spec_choices c0 c src s :
  choices_ok c0 -> choices_ok c -> parse_spec c0 src = Ok s -> unambiguous (s_macros s) ->
  exists s', parse_spec c src = Ok s' /\ same_but_order s s'.
Proof.
  intros Hc0 Hc; unfold parse_spec.
  destruct (parse_hsl_src src) as [[h rest]| | | | |]; cbn [bind]; try discriminate.
  destruct (with_section h (lit "lang") _ _) as [lang| | | | |]; cbn [bind]; try discriminate.
  destruct (with_section h (lit "config") _ _) as [conf| | | | |]; cbn [bind]; try discriminate.
  destruct (with_section h (lit "macros") _ _) as [macros| | | | |]; cbn [bind]; try discriminate.
  destruct (with_section h (lit "vars") _ _) as [vars| | | | |]; cbn [bind]; try discriminate.
  destruct (with_section h (lit "normalize") _ _) as [normalize| | | | |]; cbn [bind]; try discriminate.
  destruct (with_section h (lit "rewrite") _ _) as [rp| | | | |]; cbn [bind]; try discriminate.
  destruct (new_rules c0 false 0 rp macros vars) as [rw| | | | |] eqn:Erw; cbn [bind]; try discriminate.
  destruct (with_section h (lit "transcribe") _ _) as [tp| | | | |]; cbn [bind]; try discriminate.
  destruct (new_rules c0 true 0 tp macros vars) as [ts| | | | |] eqn:Ets; cbn [bind]; try discriminate.
  destruct (with_section h (lit "test") _ _) as [test| | | | |]; cbn [bind]; try discriminate.
  destruct (get_script (l_script lang)) as [script|]; [|discriminate].
  intros E Hu; injection E as <-; cbn [s_macros] in Hu.
  rewrite (new_rules_perm c), <- (new_rules_perm c0) by assumption; rewrite Erw; cbn [bind].
  rewrite (new_rules_perm c), <- (new_rules_perm c0) by assumption; rewrite Ets; cbn [bind].
  eexists; split; [reflexivity|]; split; [reflexivity|].
  cbn [s_normReplacer]; apply norm_args_perm.
  etransitivity; [symmetry; apply Hc0|apply Hc].
Qed.

Lemma parse_spec_replacer c src s :
  parse_spec c src = Ok s -> s_normReplacer s = norm_args (ch_norm c (s_normalize s)).
Proof.
  unfold parse_spec.
  destruct (parse_hsl_src src) as [[h rest]| | | | |]; cbn [bind]; try discriminate.
  destruct (with_section h (lit "lang") _ _) as [lang| | | | |]; cbn [bind]; try discriminate.
  destruct (with_section h (lit "config") _ _) as [conf| | | | |]; cbn [bind]; try discriminate.
  destruct (with_section h (lit "macros") _ _) as [macros| | | | |]; cbn [bind]; try discriminate.
  destruct (with_section h (lit "vars") _ _) as [vars| | | | |]; cbn [bind]; try discriminate.
  destruct (with_section h (lit "normalize") _ _) as [normalize| | | | |]; cbn [bind]; try discriminate.
  destruct (with_section h (lit "rewrite") _ _) as [rp| | | | |]; cbn [bind]; try discriminate.
  destruct (new_rules _ _ _ _ _ _) as [rw| | | | |]; cbn [bind]; try discriminate.
  destruct (with_section h (lit "transcribe") _ _) as [tp| | | | |]; cbn [bind]; try discriminate.
  destruct (new_rules _ _ _ _ _ _) as [ts| | | | |]; cbn [bind]; try discriminate.
  destruct (with_section h (lit "test") _ _) as [test| | | | |]; cbn [bind]; try discriminate.
  destruct (get_script (l_script lang)) as [script|]; [|discriminate].
  intros E; injection E as E; subst s; reflexivity.
Qed.

(** The order of the arguments of an unambiguous normalizing replacer has no effect. *)
Lemma partition_repls_ext s s' gs i :
  s_script s' = s_script s -> s_puncts s' = s_puncts s ->
  partition_repls s' gs i = partition_repls s gs i.
Proof.
  intros H1 H2; revert i; induction gs as [|[l w] gs IH]; intros i; [reflexivity|].
  cbn [partition_repls]; unfold meaningful; rewrite H1, H2, IH; reflexivity.
Qed.
Lemma forward_order {W} H s s' (reg : list (bytes * translit W)) on w word :
  same_but_order s s' -> unambiguous (s_normReplacer s) ->
  forward H s' reg on w word = forward H s reg on w word.
Proof.
  intros [E Hp] Hu; pose proof (replacer_permutation _ _ word Hu Hp) as _.
  assert (s_script s' = s_script s) as E1 by (rewrite E; reflexivity).
  assert (s_puncts s' = s_puncts s) as E2 by (rewrite E; reflexivity).
  assert (s_lang s' = s_lang s) as E3 by (rewrite E; reflexivity).
  assert (s_normLetters s' = s_normLetters s) as E4 by (rewrite E; reflexivity).
  assert (s_rewrite s' = s_rewrite s) as E5 by (rewrite E; reflexivity).
  assert (s_transcribe s' = s_transcribe s) as E6 by (rewrite E; reflexivity).
  clear E; unfold forward; rewrite E3.
  destruct (transliterate _ _ _ _ _) as [[w1 tr1] r]; destruct r as [word1| | | | |]; try reflexivity.
  unfold after_translit, normalize.
  rewrite <- (replacer_permutation (s_normReplacer s) (s_normReplacer s')) by assumption.
  rewrite E3.
  assert (forall l, map (norm_rune s') l = map (norm_rune s) l) as E7.
  { intros l; apply map_ext; intros r; unfold norm_rune; rewrite E1, E4; reflexivity. }
  rewrite E7; unfold partition; rewrite (partition_repls_ext s s') by assumption.
  unfold rewrite, transcribe, localize; rewrite E1, E3, E5, E6; reflexivity.
Qed.

Lemma macros_deterministic macros order expr :
  unambiguous macros -> Permutation macros order ->
  expand_macros expr order = expand_macros expr macros.
Proof. intros Hu Hp; symmetry; apply expand_macros_perm; assumption. Qed.
Lemma macros_meaning macros expr out :
  unambiguous macros -> (forall v, ~ In ([], v) macros) ->
  (expands macros expr out <-> out = expand_macros expr macros).
Proof.
  intros Hu He; split; [apply expands_replacer; assumption|intros ->; apply replacer_expands; exact He].
Qed.
Lemma norm_deterministic table order word :
  unambiguous (norm_args table) -> Permutation table order ->
  replacer_replace (norm_args order) word = replacer_replace (norm_args table) word.
Proof.
  intros Hu Hp; symmetry; apply replacer_permutation; [exact Hu|apply norm_args_perm; exact Hp].
Qed.

Lemma unambiguous_perm t t' : Permutation t t' -> unambiguous t -> unambiguous t'.
Proof.
  intros Hp Hu k1 v1 k2 v2 H1 H2; apply Hu;
    (eapply Permutation_in; [apply Permutation_sym; exact Hp|assumption]).
Qed.

Lemma specs_agree c1 c2 src s1 s2 :
  choices_ok c1 -> choices_ok c2 ->
  parse_spec c1 src = Ok s1 -> parse_spec c2 src = Ok s2 ->
  unambiguous (s_macros s1) -> unambiguous (norm_args (s_normalize s1)) ->
  forall W H (reg : list (bytes * translit W)) on w word,
  forward H s1 reg on w word = forward H s2 reg on w word.
Proof.
  intros Hc1 Hc2 H1 H2 Hm Hn W H reg on w word.
  destruct (parse_spec_choices c1 c2 src s1 Hc1 Hc2 H1 Hm) as (s' & H2' & Hs).
  rewrite H2 in H2'; injection H2' as <-.
  symmetry; apply forward_order; [exact Hs|].
  rewrite (parse_spec_replacer c1 src s1 H1).
  eapply unambiguous_perm; [|exact Hn]; apply norm_args_perm; apply Hc1.
Qed.
