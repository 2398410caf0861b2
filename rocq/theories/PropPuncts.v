(** C80 and C81: the punctuation of a language, and the rules as lines of its file. *)
From Coq Require Import String Lia Permutation.
From Verif Require Import GoBase Utf8 Unicode Replacer Hsl Hre Subword Rule Scripts Spec Jamo Procedure Api SpecOrder Tracefmt Translit Tools Wasm Bundled LettersFacts ProcFacts PropTrace PropBundled PropApi PropWasm.
Open Scope Z_scope.

(** ** C80 Which punctuation belongs to the language *)

(** The characters that a rule looks for, or writes *)
Definition reads (r : rule) (p : rune) : Prop := In p (p_letters (rule_from r)).
Definition writes (r : rule) (p : rune) : Prop := In p (r_letters (rule_to r)).
(** The rule number [k] of the first list is the first to touch it, by reading only. *)
Definition expected (p : rune) (rewrite transcribe : list rule) : Prop :=
  (exists k r, nth_error rewrite k = Some r /\ reads r p /\
     forall j r', (j <= k)%nat -> nth_error rewrite j = Some r' -> ~ writes r' p) \/
  (exists r, In r transcribe /\ reads r p /\ forall r', In r' rewrite -> ~ writes r' p).

Lemma sort_runes_in l x : In x (sort_runes l) <-> In x l.
Proof. split; apply Permutation_in; [apply Permutation_sym|]; apply sort_runes_perm. Qed.
Lemma nmem_iff x l : nmem x l = true <-> In x l.
Proof.
  unfold nmem; rewrite existsb_exists; split; [intros (y & Hin & E); apply N.eqb_eq in E; subst; exact Hin|].
  intros Hin; exists x; split; [exact Hin|apply N.eqb_refl].
Qed.
Lemma collect_from_in r rl ps x : In x (collect_from r rl ps) <-> (reads r x /\ is_punct x = true /\ ~ In x rl) \/ In x ps.
Proof.
  unfold collect_from, reads; rewrite in_app_iff, filter_In, andb_true_iff, negb_true_iff.
  unfold pattern_letters; rewrite sort_runes_in, <- (nmem_iff x rl).
  destruct (nmem x rl); intuition congruence.
Qed.
Lemma collect_rewrite_in rules rl ps x :
  (In x (fst (collect_rewrite rules rl ps)) <-> In x rl \/ exists r, In r rules /\ writes r x) /\
  (In x (snd (collect_rewrite rules rl ps)) <-> In x ps \/
     (is_punct x = true /\ ~ In x rl /\ exists k r, nth_error rules k = Some r /\ reads r x /\
        forall j r', (j <= k)%nat -> nth_error rules j = Some r' -> ~ writes r' x)).
Proof.
  revert rl ps; induction rules as [|r rules IH]; intros rl ps; cbn [collect_rewrite fst snd].
  - split; split; [auto|intros [H|(r & [] & _)]; exact H|auto|intros [H|(_ & _ & [|k] & r & E & _)]; [exact H|discriminate|discriminate]].
  - destruct (IH (rpattern_letters (rule_to r) ++ rl) (collect_from r (rpattern_letters (rule_to r) ++ rl) ps)) as [H1 H2].
    rewrite H1, H2, collect_from_in, in_app_iff; unfold rpattern_letters; rewrite sort_runes_in; fold (writes r x).
    split; split.
    + intros [[H|H]|(r' & Hin & H)]; [right; exists r; split; [left; reflexivity|exact H]|left; exact H|right; exists r'; split; [right; exact Hin|exact H]].
    + intros [H|(r' & [<-|Hin] & H)]; [left; right; exact H|left; left; exact H|right; exists r'; auto].
    + intros [[(Hr & Hp & Hn)|H]|(Hp & Hn & k & r' & E & Hr & Hw)].
      * right; split; [exact Hp|]; split; [tauto|]; exists 0%nat, r; split; [reflexivity|]; split; [exact Hr|].
        intros [|j] r' Hj E; [injection E as <-; tauto|lia].
      * left; exact H.
      * right; split; [exact Hp|]; split; [tauto|]; exists (S k), r'; split; [exact E|]; split; [exact Hr|].
        intros [|j] r'' Hj E'; [injection E' as <-; tauto|apply (Hw j); [lia|exact E']].
    + intros [H|(Hp & Hn & [|k] & r' & E & Hr & Hw)]; [left; right; exact H|injection E as <-|].
      * left; left; split; [exact Hr|]; split; [exact Hp|]; specialize (Hw 0%nat r (le_n _) eq_refl); tauto.
      * right; split; [exact Hp|]; split; [specialize (Hw 0%nat r ltac:(lia) eq_refl); tauto|].
        exists k, r'; split; [exact E|]; split; [exact Hr|]; intros j r'' Hj E'; apply (Hw (S j)); [lia|exact E'].
Qed.
Lemma collect_transcribe_in rl rules ps x : In x (fold_left (fun ps r => collect_from r rl ps) rules ps) <->
  In x ps \/ (is_punct x = true /\ ~ In x rl /\ exists r, In r rules /\ reads r x).
Proof.
  revert ps; induction rules as [|r rules IH]; intros ps; cbn [fold_left].
  - split; [auto|intros [H|(_ & _ & r & [] & _)]; exact H].
  - rewrite IH, collect_from_in; split.
    + intros [[(Hr & Hp & Hn)|H]|(Hp & Hn & r' & Hin & Hr)]; [right|left; exact H|right].
      * split; [exact Hp|]; split; [exact Hn|]; exists r; split; [left; reflexivity|exact Hr].
      * split; [exact Hp|]; split; [exact Hn|]; exists r'; split; [right; exact Hin|exact Hr].
    + intros [H|(Hp & Hn & r' & [<-|Hin] & Hr)]; [left; right; exact H|left; left; auto|right; split; [exact Hp|]; split; [exact Hn|exists r'; auto]].
Qed.
Lemma parse_spec_puncts c src s : parse_spec c src = Ok s -> s_puncts s = collect_puncts (s_rewrite s) (s_transcribe s).
Proof.
  unfold parse_spec.
  destruct (parse_hsl_src src) as [[h rest]| | | | |]; cbn [bind]; try discriminate.
  repeat match goal with |- context [bind (with_section ?a ?b ?c ?d) _] =>
    destruct (with_section a b c d); cbn [bind]; try discriminate
  | |- context [bind (new_rules ?a ?b ?c ?d ?e ?f) _] =>
    destruct (new_rules a b c d e f); cbn [bind]; try discriminate end.
  destruct (get_script _); [|discriminate]; intros H; apply ok_inj in H; subst s; reflexivity.
Qed.

(** The punctuation of a language is the punctuation that its rules can find in what was
    typed: some rule looks for it before any rewrite rule, up to that rule itself, writes it. *)
Theorem C80_puncts : forall c src s p, parse_spec c src = Ok s ->
  (In p (s_puncts s) <-> is_punct p = true /\ expected p (s_rewrite s) (s_transcribe s)).
Proof.
  intros c src s p E; rewrite (parse_spec_puncts c src s E); unfold collect_puncts, expected.
  destruct (collect_rewrite_in (s_rewrite s) [] [] p) as [H1 H2].
  destruct (collect_rewrite (s_rewrite s) [] []) as [rl ps]; cbn [fst snd] in H1, H2.
  rewrite nodup_In, collect_transcribe_in, H1, H2; cbn [In]; split.
  - intros [[[]|(Hp & _ & Hx)]|(Hp & Hn & r & Hin & Hr)]; [split; [exact Hp|left; exact Hx]|].
    split; [exact Hp|]; right; exists r; split; [exact Hin|]; split; [exact Hr|].
    intros r' Hin' Hw; apply Hn; right; exists r'; auto.
  - intros [Hp [Hx|(r & Hin & Hr & Hw)]]; [left; right; split; [exact Hp|]; split; [tauto|exact Hx]|].
    right; split; [exact Hp|]; split; [|exists r; auto]; intros [[]|(r' & Hin' & Hw')]; exact (Hw r' Hin' Hw').
Qed.
Print Assumptions C80_puncts.

(** So a mark that some rewrite rule writes, with no earlier rewrite rule looking for it,
    is a hint between rules: typed by the user, it does not belong to the language, whatever
    the later rules and the transcribe rules look for. *)
Theorem C80_hints : forall c src s p k r, parse_spec c src = Ok s ->
  nth_error (s_rewrite s) k = Some r -> writes r p ->
  (forall j r', (j < k)%nat -> nth_error (s_rewrite s) j = Some r' -> ~ reads r' p) -> ~ In p (s_puncts s).
Proof.
  intros c src s p k r E Ek Hw Hb Hin; apply (C80_puncts c src s p E) in Hin.
  destruct Hin as [_ [(j & r' & Ej & Hr & Hn)|(r' & Hin & Hr & Hn)]].
  - destruct (Nat.lt_ge_cases j k) as [Hlt|Hge]; [exact (Hb j r' Hlt Ej Hr)|exact (Hn k r Hge Ek Hw)].
  - exact (Hn r (nth_error_In _ _ Ek) Hw).
Qed.
Print Assumptions C80_hints.

(** The hyphen is looked for in the word; the plus sign, and the slash that a rule writes
    where it found it, are hints. *)
Definition ex_puncts : bytes := lit "lang:
  id = ""x""
  codes = ""x"", ""x""
  english = ""X""
  korean = ""X""
  script = ""Latn""
rewrite:
  ""a-""  -> ""a&""
  ""/""   -> ""/""
transcribe:
  ""a&""  -> ""ㅏ""
  ""/|!"" -> ""ㅗ""
".
Example C80_example : exists s, parse_spec choices0 ex_puncts = Ok s /\ s_puncts s = [33%N; 45%N] /\
  is_punct 47%N = true /\ is_punct 38%N = true.
Proof. eexists; split; [vm_compute; reflexivity|]; vm_compute; auto. Qed.

(** ** C81 Rules are lines of the file *)

(** The entry number [k] of a section *)
Definition entry (h : hsl) (name : bytes) (k : nat) (from to : bytes) : Prop :=
  exists pairs line p more, lookup h name = Some (ListSection pairs line) /\ nth_error pairs k = Some p /\
    pr_left p = from /\ pr_right p = to :: more.
Definition is_rule (rules : list rule) (k : nat) (from to : bytes) : Prop :=
  exists r, nth_error rules k = Some r /\ rule_id r = Z.of_nat k /\ p_expr (rule_from r) = from /\ r_expr (rule_to r) = to.

Lemma new_pattern_expr expr macros vars p : new_pattern expr macros vars = Ok p -> p_expr p = expr.
Proof.
  unfold new_pattern; destruct expr as [|b expr]; [discriminate|].
  destruct (expand_vars _ _) as [re used]; destruct (expand_lookaround re) as [[[[[re' na] nb] wa] wb]| | | | |]; cbn [bind]; try discriminate.
  destruct (RegexParse.compile_re _); cbn [bind]; try discriminate.
  destruct (compile_opt na); cbn [bind]; try discriminate; destruct (compile_opt nb); cbn [bind]; try discriminate.
  intros E; apply ok_inj in E; subst p; reflexivity.
Qed.
Lemma new_rules_lines c tr i pairs macros vars rules : new_rules c tr i pairs macros vars = Ok rules ->
  forall k from to, (exists r, nth_error rules k = Some r /\ rule_id r = Z.of_nat (i + k) /\ p_expr (rule_from r) = from /\ r_expr (rule_to r) = to) <->
    exists p more, nth_error pairs k = Some p /\ pr_left p = from /\ pr_right p = to :: more.
Proof.
  revert i rules; induction pairs as [|p pairs IH]; intros i rules; cbn [new_rules].
  - intros E; injection E as <-; intros [|k] from to; split; intros (r & H); [destruct H as [H _]|destruct H as (m & H & _)|destruct H as [H _]|destruct H as (m & H & _)]; discriminate.
  - destruct (new_pattern (pr_left p) _ vars) as [fromp| | | | |] eqn:Ef; try discriminate; cbn [bind].
    destruct (negative_lookaround_widths fromp) as [wa wb]; destruct ((wa =? -1) || (wb =? -1)); [discriminate|].
    destruct (index (pr_right p) 0) as [right_| | | | |] eqn:Ei; try discriminate; cbn [bind].
    destruct (new_rules c tr (S i) pairs macros vars) as [rest| | | | |] eqn:Er; try discriminate; cbn [bind].
    intros H; apply ok_inj in H; subst rules; specialize (IH _ _ Er); apply new_pattern_expr in Ef.
    assert (exists more, pr_right p = right_ :: more) as (more & Em).
    { unfold index in Ei; cbn in Ei; destruct (pr_right p) as [|x more]; [discriminate|]; injection Ei as <-; exists more; reflexivity. }
    intros [|k] from to; cbn [nth_error].
    + split.
      * intros (r & E & _ & Hf & Ht); injection E as <-; cbn [rule_from rule_to] in *; exists p, more.
        split; [reflexivity|]; split; [congruence|]; rewrite Em; f_equal; exact Ht.
      * intros (p' & more' & E & Hf & Ht); injection E as <-; eexists; split; [reflexivity|]; cbn [rule_id rule_from rule_to].
        rewrite Nat.add_0_r; split; [reflexivity|]; split; [congruence|]; rewrite Em in Ht; injection Ht as E _; exact E.
    + rewrite <- IH; replace (i + S k)%nat with (S i + k)%nat by lia; reflexivity.
Qed.

(** Every line of the sections becomes a rule, in the same order, and there are no others. *)
Theorem C81_rules : forall c src s, parse_spec c src = Ok s ->
  exists h rest, parse_hsl_src src = Ok (h, rest) /\
    (forall k from to, is_rule (s_rewrite s) k from to <-> entry h (lit "rewrite") k from to) /\
    (forall k from to, is_rule (s_transcribe s) k from to <-> entry h (lit "transcribe") k from to).
Proof.
  intros c src s; unfold parse_spec.
  destruct (parse_hsl_src src) as [[h rest]| | | | |] eqn:Eh; cbn [bind]; try discriminate.
  assert (forall tr name l rules macros vars, with_section h name as_list [] = Ok l -> new_rules c tr 0 l macros vars = Ok rules ->
    forall k from to, is_rule rules k from to <-> entry h name k from to) as Hs.
  { intros tr name l rules macros vars El Er k from to; pose proof (new_rules_lines _ _ _ _ _ _ _ Er k from to) as Hl; cbn [Nat.add] in Hl.
    unfold is_rule, entry; rewrite Hl; clear Hl Er; revert El; unfold with_section.
    destruct (lookup h name) as [[pairs line|d line]|]; cbn [as_list]; try discriminate; intros E; injection E as <-.
    - split; [intros (p & more & H); exists pairs, line, p, more; split; [reflexivity|exact H]|].
      intros (pairs' & line' & p & more & E & H); injection E as <- <-; exists p, more; exact H.
    - split; [intros (p & more & H & _); destruct k; discriminate|].
      intros (pairs' & line' & p & more & E & H); discriminate. }
  destruct (with_section h (lit "lang") _ _); cbn [bind]; try discriminate.
  destruct (with_section h (lit "config") _ _); cbn [bind]; try discriminate.
  destruct (with_section h (lit "macros") _ _); cbn [bind]; try discriminate.
  destruct (with_section h (lit "vars") _ _); cbn [bind]; try discriminate.
  destruct (with_section h (lit "normalize") _ _); cbn [bind]; try discriminate.
  destruct (with_section h (lit "rewrite") _ _) eqn:E1; cbn [bind]; try discriminate.
  destruct (new_rules c false _ _ _ _) eqn:R1; cbn [bind]; try discriminate.
  destruct (with_section h (lit "transcribe") _ _) eqn:E2; cbn [bind]; try discriminate.
  destruct (new_rules c true _ _ _ _) eqn:R2; cbn [bind]; try discriminate.
  destruct (with_section h (lit "test") _ _); cbn [bind]; try discriminate.
  destruct (get_script _); [|discriminate]; intros H; apply ok_inj in H; subst s; cbn [s_rewrite s_transcribe].
  exists h, rest; split; [reflexivity|]; split; [exact (Hs _ _ _ _ _ _ E1 R1)|exact (Hs _ _ _ _ _ _ E2 R2)].
Qed.
Print Assumptions C81_rules.

(** What the trace function of JavaScript gets for a settled call: a rule is shown exactly
    in the steps Rewrite and Transcribe, by the number and the two sides of an entry of that
    section in the file of the language. *)
Theorem C81_shown : forall H specs es st i p events lang word traced src,
  cached_ok bundled_files specs -> Forall fair es ->
  wasm_run H bundled_files (wasm_start specs) es = Some st -> nth_error (wa_calls st) i = Some (Settled p events) ->
  nth_error (made es) i = Some (lang, word, traced) -> lookup bundled_files (specs_dir ++ lang ++ ext) = Some src ->
  exists h rest, parse_hsl_src src = Ok (h, rest) /\
    forall e, In e events ->
      (jtr_rule e = None <-> jtr_step e <> lit "Rewrite" /\ jtr_step e <> lit "Transcribe") /\
      forall id from to, jtr_rule e = Some (id, from, to) -> 0 <= id /\
        (jtr_step e = lit "Rewrite" /\ entry h (lit "rewrite") (Z.to_nat id) from to \/
         jtr_step e = lit "Transcribe" /\ entry h (lit "transcribe") (Z.to_nat id) from to).
Proof.
  intros H specs es st i p events lang word traced src Hs Hf Hr Hi Hm Es.
  destruct (C63_calls H specs es st i p events Hs Hf Hr Hi) as (call & before & c & order & after & -> & Hm' & Ha).
  rewrite Hm in Hm'; injection Hm' as <-; destruct Ha as (_ & Hno & Hyes).
  destruct (file_ok_parses src choices0 (bundled_file_ok _ _ Es) choices0_ok) as (s0 & _ & E0 & _).
  destruct (C81_rules _ _ _ E0) as (h & rest & Eh & _); exists h, rest; split; [exact Eh|].
  intros e He; destruct traced; [|rewrite (Hno eq_refl) in He; contradiction].
  destruct (Hyes eq_refl) as [(_ & ->)|(c1 & src' & s & evs & Es' & Ep & -> & (_ & _ & Hn) & _)]; [contradiction|].
  rewrite Es in Es'; injection Es' as <-; destruct (C81_rules _ _ _ Ep) as (h' & rest' & Eh' & H1 & H2).
  rewrite Eh in Eh'; apply ok_inj in Eh'; injection Eh' as <- <-; apply in_map_iff in He; destruct He as (t & <- & Hin).
  rewrite Forall_forall in Hn; specialize (Hn t Hin); destruct (proj1 (parse_spec_rules c1 src s Ep)) as [N1 N2].
  assert (forall rules r, numbered rules -> In r rules -> exists k, rule_id r = Z.of_nat k /\
    is_rule rules k (p_expr (rule_from r)) (r_expr (rule_to r))) as Hk.
  { intros rules r Hnum Hr'; destruct (In_nth_error _ _ Hr') as (k & Ek); exists k; split; [exact (Hnum k r Ek)|].
    exists r; split; [exact Ek|]; split; [exact (Hnum k r Ek)|]; split; reflexivity. }
  unfold js_trace_of; cbn [jtr_rule jtr_step]; unfold names_rule in Hn.
  destruct (t_step t); cbn [step_text].
  1,2,3,6,7: rewrite Hn; split; [split; [intros _; split; discriminate|reflexivity]|discriminate].
  - destruct Hn as (r & -> & Hr'); destruct (Hk _ _ N1 Hr') as (k & Ek & Hrule); split; [split; [discriminate|intros [E _]; contradiction]|].
    intros id from to E; injection E as <- <- <-; rewrite Ek, Nat2Z.id; split; [lia|]; left; split; [reflexivity|apply H1; exact Hrule].
  - destruct Hn as (r & -> & Hr'); destruct (Hk _ _ N2 Hr') as (k & Ek & Hrule); split; [split; [discriminate|intros [_ E]; contradiction]|].
    intros id from to E; injection E as <- <- <-; rewrite Ek, Nat2Z.id; split; [lia|]; right; split; [reflexivity|apply H2; exact Hrule].
Qed.
Print Assumptions C81_shown.
Example C81_example :
  (match parse_spec choices0 ex_puncts with
   | Ok s => match forward (W := unit) go_hangul s [] true tt (lit "a-") with
             | (_, Some (_, evs), _) => map (fun t => (jtr_step (js_trace_of t), jtr_word (js_trace_of t), jtr_rule (js_trace_of t))) (rev evs)
             | _ => []
             end
   | _ => []
   end) =
  [(lit "Input", lit "a-", None); (lit "Rewrite", lit "a&", Some (0, lit "a-", lit "a&"));
   (lit "Transcribe", lit "ㅏ", Some (0, lit "a&", lit "ㅏ")); (lit "Syllabify", lit "아", None)].
Proof. vm_compute. reflexivity. Qed.
