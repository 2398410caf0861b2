(** C48: the command test, and the rule coverage. *)
From Coq Require Import String.
From Verif Require Import GoBase Utf8 Utf8Facts Regex Hre Rule Hsl Scripts Spec SpecOrder Jamo Procedure ProcFacts PropOutput PropTrace
  Api Tracefmt HslInv PropHsl PropSpec LettersFacts TestCmd.
Open Scope Z_scope.

(** The [i]-th file, called [name], can be opened and parsed to [s]. *)
Definition loads (fs : opened) (cs : nat -> choices) (i : nat) (name : bytes) (s : spec) : Prop :=
  exists src, fs name = Some src /\ parse_spec (cs i) src = Ok s.
(** The answer of Hangulize to [word], without any transliterator, and not traced. *)
Definition answers (H : hangul_lib) (s : spec) (word result : bytes) (err : option gerror) : Prop :=
  snd (run_hangulizer (W := unit) H s [] false tt word) = Ok (result, err).
(** The example [word -> expected] of the [i]-th file has another result. *)
Definition differs (H : hangul_lib) fs cs (args : list bytes) (i : nat) (name word result expected : bytes) : Prop :=
  nth_error args i = Some name /\ exists s err, loads fs cs i name s /\ In (word, expected) (s_test s) /\
    answers H s word result err /\ result <> expected.

Lemma run_traced (H : hangul_lib) c src s word : parse_spec c src = Ok s ->
  exists prev evs, run_hangulizer (W := unit) H s [] true tt word =
    (tt, Some (prev, evs), snd (run_hangulizer (W := unit) H s [] false tt word)).
Proof.
  intros Hp; unfold run_hangulizer.
  destruct (forward H s [] true tt word) as [[w1 tr1] r1] eqn:E1.
  destruct (forward H s [] false tt word) as [[w2 tr2] r2] eqn:E2.
  destruct (C03_transparent unit H c src s [] tt word w1 w2 tr1 tr2 r1 r2 Hp E1 E2) as [_ ->].
  destruct (C04_faithful unit H c src s [] tt word w1 tr1 r2 Hp E1) as (evs & Ht & _).
  destruct tr1 as [[prev evs']|]; [|discriminate]; exists prev, evs'; destruct w1; reflexivity.
Qed.
Lemma run_untraced (H : hangul_lib) s word :
  exists tr, run_hangulizer (W := unit) H s [] false tt word = (tt, tr, snd (run_hangulizer (W := unit) H s [] false tt word)).
Proof. destruct (run_hangulizer H s [] false tt word) as [[[] tr] r]; exists tr; reflexivity. Qed.

(** The examples of one file. *)
Lemma test_examples_spec H c0 src s name examples c traces c' reports :
  parse_spec c0 src = Ok s -> test_examples H s name c traces examples = Ok (c', reports) ->
  (forall word expected, In (word, expected) examples -> exists result err, answers H s word result err) /\
  (forall n w r x, In (Differs n w r x) reports <->
     n = name /\ In (w, x) examples /\ exists err, answers H s w r err /\ r <> x).
Proof.
  intros Hp; revert c traces c' reports; induction examples as [|[word expected] examples IH]; intros c traces c' reports E.
  - injection E as <- <-; split; [intros ? ? []|intros n w r x; split; [intros []|intros (_ & [] & _)]].
  - cbn [test_examples] in E.
    assert (exists tr, run_hangulizer (W := unit) H s [] (match c with Some _ => true | None => false end) tt word =
              (tt, tr, snd (run_hangulizer (W := unit) H s [] false tt word))) as (tr & Er).
    { destruct c; [|apply run_untraced]; destruct (run_traced H c0 src s word Hp) as (prev & evs & ->); eexists; reflexivity. }
    rewrite Er in E.
    destruct (snd (run_hangulizer H s [] false tt word)) as [[result err]| | | | |] eqn:Ea; cbn [bind] in E; try discriminate.
    set (traces1 := traces ++ _) in E; set (c1 := if match c with Some _ => true | None => false end then _ else _) in E.
    destruct (test_examples H s name c1 traces1 examples) as [[c2 reports2]| | | | |] eqn:E2; cbn [bind] in E; try discriminate.
    injection E as <- <-; destruct (IH _ _ _ _ E2) as [H1 H2]; split.
    + intros w x [Hin|Hin]; [injection Hin as <- <-; exists result, err; exact Ea|apply (H1 w x Hin)].
    + intros n w r x; split.
      * intros Hin; apply in_app_or in Hin; destruct Hin as [Hin|Hin]; [destruct err as [e|]; [destruct Hin as [Hin|[]]; discriminate|destruct Hin]|].
        apply in_app_or in Hin; destruct Hin as [Hin|Hin].
        { destruct (beqb result expected) eqn:Eb; [destruct Hin|].
          destruct Hin as [Hin|[]]; injection Hin as <- <- <- <-.
          split; [reflexivity|]; split; [left; reflexivity|]; exists err; split; [exact Ea|]; apply beqb_neq; exact Eb. }
        apply H2 in Hin; destruct Hin as (Hn & Hin & Hx); split; [exact Hn|]; split; [right; exact Hin|exact Hx].
      * intros (-> & [Hin|Hin] & e & Ha & Hne); apply in_or_app; right; apply in_or_app.
        { injection Hin as <- <-; left; unfold answers in Ha; rewrite Ea in Ha; injection Ha as <- _.
          destruct (beqb result expected) eqn:Eb; [apply beqb_eq in Eb; contradiction|left; reflexivity]. }
        right; apply H2; split; [reflexivity|]; split; [exact Hin|]; exists e; auto.
Qed.

Lemma test_files_spec H fs cs i c args c' reports done :
  test_files H fs cs i c args = Ok (c', reports, done) ->
  (done = true <-> forall k name, nth_error args k = Some name -> exists s, loads fs cs (i + k) name s) /\
  (done = true -> forall n w r x, In (Differs n w r x) reports <->
     exists k, nth_error args k = Some n /\ exists s err, loads fs cs (i + k) n s /\ In (w, x) (s_test s) /\
       answers H s w r err /\ r <> x).
Proof.
  revert i c c' reports done; induction args as [|name args IH]; intros i c c' reports done E; cbn [test_files] in E.
  - injection E as <- <- <-; split; [split; [intros _ [|k] n; discriminate|reflexivity]|].
    intros _ n w r x; split; [intros []|intros ([|k] & Hk & _); discriminate].
  - assert ((forall s, ~ loads fs cs i name s) -> done = false -> (done = true <-> forall k n, nth_error (name :: args) k = Some n -> exists s, loads fs cs (i + k) n s)) as Hbad.
    { intros Hn ->; split; [discriminate|]; intros Hall; destruct (Hall 0%nat name eq_refl) as (s & Hs).
      rewrite Nat.add_0_r in Hs; exfalso; apply (Hn s Hs). }
    destruct (fs name) as [src|] eqn:Ef.
    2:{ injection E as <- <- <-; split; [|discriminate]; apply Hbad; [|reflexivity]; intros s (src & Hs & _); congruence. }
    destruct (parse_spec (cs i) src) as [s|e| | | |] eqn:Ep; try discriminate.
    2:{ injection E as <- <- <-; split; [|discriminate]; apply Hbad; [|reflexivity].
        intros s (src' & Hs & Hps); rewrite Ef in Hs; injection Hs as <-; congruence. }
    destruct (test_examples H s name (visit c name) [] (s_test s)) as [[c1 reports1]| | | | |] eqn:E1; cbn [bind] in E; try discriminate.
    destruct (test_files H fs cs (S i) c1 args) as [[[c2 reports2] done2]| | | | |] eqn:E2; cbn [bind] in E; try discriminate.
    injection E as <- <- <-; destruct (IH _ _ _ _ _ E2) as [H1 H2].
    destruct (test_examples_spec _ _ _ _ _ _ _ _ _ _ Ep E1) as [_ H3].
    assert (loads fs cs i name s) as Hs by (exists src; auto).
    split.
    + rewrite H1; split.
      * intros Hall [|k] n Hn; [injection Hn as <-; rewrite Nat.add_0_r; exists s; exact Hs|].
        replace (i + S k)%nat with (S i + k)%nat by lia; apply Hall; exact Hn.
      * intros Hall k n Hn; replace (S i + k)%nat with (i + S k)%nat by lia; apply Hall; exact Hn.
    + intros Hd n w r x; split.
      * intros Hin; apply in_app_or in Hin; destruct Hin as [Hin|Hin].
        { apply H3 in Hin; destruct Hin as (-> & Hin & err & Ha & Hne).
          exists 0%nat; split; [reflexivity|]; exists s, err; rewrite Nat.add_0_r; auto. }
        apply H2 in Hin; [|exact Hd]; destruct Hin as (k & Hk & s' & err & Hl & Hrest).
        exists (S k); split; [exact Hk|]; exists s', err; replace (i + S k)%nat with (S i + k)%nat by lia; auto.
      * intros ([|k] & Hk & s' & err & Hl & Hin & Hrest); apply in_or_app.
        { left; injection Hk as <-; rewrite Nat.add_0_r in Hl; destruct Hl as (src' & Hs' & Hp').
          rewrite Ef in Hs'; injection Hs' as <-; assert (s' = s) as -> by congruence.
          apply H3; split; [reflexivity|]; split; [exact Hin|]; exists err; exact Hrest. }
        right; apply (H2 Hd); exists k; split; [exact Hk|]; exists s', err.
        replace (S i + k)%nat with (i + S k)%nat by lia; auto.
Qed.

(** When the command ends, with or without coverage: with an error exactly if some file
    cannot be opened or parsed; with a failure exactly if all can be and some example has
    another result; the examples reported are exactly these. *)
Theorem C48_verdict : forall (H : hangul_lib) fs cs cs' cover args reports e,
  run_test H fs cs cs' cover args = Ok (reports, e) ->
  (e = TestError <-> exists i name, nth_error args i = Some name /\ forall s, ~ loads fs cs i name s) /\
  (e = TestFailed <-> (forall i name, nth_error args i = Some name -> exists s, loads fs cs i name s) /\
                      exists i name word result expected, differs H fs cs args i name word result expected) /\
  (e <> TestError -> forall name word result expected,
     In (Differs name word result expected) reports <-> exists i, differs H fs cs args i name word result expected).
Proof.
  intros H fs cs cs' cover args reports e E; unfold run_test in E.
  destruct (test_files H fs cs 0 _ args) as [[[c reports'] done]| | | | |] eqn:Et; cbn [bind] in E; try discriminate.
  destruct (test_files_spec _ _ _ _ _ _ _ _ _ Et) as [H1 H2]; cbn [Nat.add] in H1, H2.
  assert (forall k name, (exists s, loads fs cs k name s) \/ forall s, ~ loads fs cs k name s) as Hdec.
  { intros k name; unfold loads; destruct (fs name) as [src|]; [|right; intros s (src & Hs & _); discriminate].
    destruct (parse_spec (cs k) src) as [s| | | | |] eqn:Ep;
      try (right; intros s' (src' & Hs & Hp); injection Hs as <-; congruence).
    left; exists s, src; auto. }
  assert ((exists i name, nth_error args i = Some name /\ forall s, ~ loads fs cs i name s) <-> done = false) as Herr.
  { split.
    - intros (i & name & Hn & Hs); destruct done; [|reflexivity].
      destruct (proj1 H1 eq_refl i name Hn) as (s & Hl); exfalso; apply (Hs s Hl).
    - intros ->; assert (forall l k, (forall j n, nth_error l j = Some n -> nth_error args (k + j) = Some n) ->
        (exists i name, nth_error args i = Some name /\ forall s, ~ loads fs cs i name s) \/
        (forall j n, nth_error l j = Some n -> exists s, loads fs cs (k + j) n s)) as Hsearch.
      { induction l as [|x l IHl]; intros k Hk; [right; intros [|j]; discriminate|].
        destruct (Hdec k x) as [Hx|Hx].
        - destruct (IHl (S k)) as [Hl|Hl]; [|left; exact Hl|right].
          + intros j n Hj; replace (S k + j)%nat with (k + S j)%nat by lia; apply Hk; exact Hj.
          + intros [|j] n Hj; [injection Hj as <-; rewrite Nat.add_0_r; exact Hx|].
            replace (k + S j)%nat with (S k + j)%nat by lia; apply Hl; exact Hj.
        - left; exists k, x; split; [|exact Hx]; rewrite <- (Nat.add_0_r k); apply Hk; reflexivity. }
      destruct (Hsearch args 0%nat (fun j n Hj => Hj)) as [Hx|Hx]; [exact Hx|].
      exfalso; assert (false = true) by (apply H1; exact Hx); discriminate. }
  rewrite Herr; destruct done; cbn [negb] in E.
  - specialize (H2 eq_refl); pose proof (proj1 H1 eq_refl) as Hall.
    assert (forall n w r x, In (Differs n w r x) reports' <-> exists i, differs H fs cs args i n w r x) as Hrep.
    { intros n w r x; rewrite H2; split; intros (k & Hk); exists k; exact Hk. }
    assert (existsb is_differs reports' = true <-> exists i name word result expected, differs H fs cs args i name word result expected) as Hex.
    { rewrite existsb_exists; split.
      - intros ([e'|n w r x] & Hin & Hd); [discriminate|]; apply Hrep in Hin; destruct Hin as (i & Hi); exists i, n, w, r, x; exact Hi.
      - intros (i & n & w & r & x & Hi); exists (Differs n w r x); split; [apply Hrep; exists i; exact Hi|reflexivity]. }
    assert (reports = reports' /\ (e = TestFailed <-> existsb is_differs reports' = true) /\ e <> TestError) as (-> & Hf & Hne).
    { destruct (existsb is_differs reports'); [injection E as <- <-; split; [reflexivity|]; split; [tauto|discriminate]|].
      destruct c as [cv|]; [destruct (coverage fs cs' cv); try discriminate; cbn [bind] in E|];
        injection E as <- <-; (split; [reflexivity|]; split; [split; discriminate|discriminate]). }
    split; [split; [contradiction|discriminate]|]; split; [|intros _; exact Hrep].
    rewrite Hf, Hex; tauto.
  - injection E as <- <-; split; [tauto|]; split; [|intros Hx; exfalso; apply Hx; reflexivity].
    split; [discriminate|]; intros [Hall _]; destruct (proj2 Herr eq_refl) as (i & name & Hn & Hs).
    destruct (Hall i name Hn) as (s & Hl); exfalso; apply (Hs s Hl).
Qed.
Print Assumptions C48_verdict.

(** Measuring the coverage does not change what is reported. *)
Definition drop_coverage (e : test_end) : test_end :=
  match e with TestPassed _ => TestPassed None | _ => e end.
Lemma test_examples_plain H c0 src s name examples c traces c' reports :
  parse_spec c0 src = Ok s -> test_examples H s name c traces examples = Ok (c', reports) ->
  forall traces', test_examples H s name None traces' examples = Ok (None, reports).
Proof.
  intros Hp; revert c traces c' reports; induction examples as [|[word expected] examples IH]; intros c traces c' reports E traces'.
  - injection E as <- <-; reflexivity.
  - cbn [test_examples] in E |- *.
    assert (exists tr, run_hangulizer (W := unit) H s [] (match c with Some _ => true | None => false end) tt word =
              (tt, tr, snd (run_hangulizer (W := unit) H s [] false tt word))) as (tr & Er).
    { destruct c; [|apply run_untraced]; destruct (run_traced H c0 src s word Hp) as (prev & evs & ->); eexists; reflexivity. }
    rewrite Er in E; destruct (run_untraced H s word) as (tr' & Er'); rewrite Er'.
    destruct (snd (run_hangulizer H s [] false tt word)) as [[result err]| | | | |] eqn:Ea; cbn [bind] in E |- *; try discriminate.
    set (traces1 := traces ++ _) in E; set (c1 := if match c with Some _ => true | None => false end then _ else _) in E.
    destruct (test_examples H s name c1 traces1 examples) as [[c2 reports2]| | | | |] eqn:E2; cbn [bind] in E; try discriminate.
    injection E as <- <-; rewrite (IH _ _ _ _ E2); reflexivity.
Qed.
Lemma test_files_plain H fs cs i c args c' reports done :
  test_files H fs cs i c args = Ok (c', reports, done) -> test_files H fs cs i None args = Ok (None, reports, done).
Proof.
  revert i c c' reports done; induction args as [|name args IH]; intros i c c' reports done E; cbn [test_files] in E |- *.
  - injection E as <- <- <-; reflexivity.
  - destruct (fs name) as [src|]; [|injection E as <- <- <-; reflexivity].
    destruct (parse_spec (cs i) src) as [s|e| | | |] eqn:Ep; try discriminate; [|injection E as <- <- <-; reflexivity].
    destruct (test_examples H s name (visit c name) [] (s_test s)) as [[c1 reports1]| | | | |] eqn:E1; cbn [bind] in E; try discriminate.
    destruct (test_files H fs cs (S i) c1 args) as [[[c2 reports2] done2]| | | | |] eqn:E2; cbn [bind] in E; try discriminate.
    injection E as <- <- <-; cbn [visit]; rewrite (test_examples_plain _ _ _ _ _ _ _ _ _ _ Ep E1); cbn [bind].
    rewrite (IH _ _ _ _ _ E2); reflexivity.
Qed.
Theorem C48_coverage_transparent : forall (H : hangul_lib) fs cs cs' args reports e,
  run_test H fs cs cs' true args = Ok (reports, e) ->
  run_test H fs cs cs' false args = Ok (reports, drop_coverage e).
Proof.
  intros H fs cs cs' args reports e E; unfold run_test in *.
  destruct (test_files H fs cs 0 _ args) as [[[c reports'] done]| | | | |] eqn:Et; cbn [bind] in E; try discriminate.
  rewrite (test_files_plain _ _ _ _ _ _ _ _ _ Et); cbn [bind].
  destruct done; cbn [negb] in *; [|injection E as <- <-; reflexivity].
  destruct (existsb is_differs reports'); [injection E as <- <-; reflexivity|].
  destruct c as [cv|]; [destruct (coverage fs cs' cv); cbn [bind] in E; try discriminate|]; injection E as <- <-; reflexivity.
Qed.
Print Assumptions C48_coverage_transparent.

(** ** The coverage *)

(** A traced run of an example of the file [name] reports the rule [id] of [step]. *)
Definition fires (H : hangul_lib) (s : spec) (word step : bytes) (id : Z) : Prop :=
  exists prev evs ev r, snd (fst (run_hangulizer (W := unit) H s [] true tt word)) = Some (prev, evs) /\
    In ev evs /\ step_text (t_step ev) = step /\ t_rule ev = Some r /\ rule_id r = id.
Definition tested (H : hangul_lib) fs cs (args : list bytes) (k : cov) : Prop :=
  let '(name, step, id) := k in
  exists i s word expected, nth_error args i = Some name /\ loads fs cs i name s /\
    In (word, expected) (s_test s) /\ fires H s word step id.
(** There is a rule [id] of [step] in the file [name]. *)
Definition written fs (args : list bytes) (k : cov) : Prop :=
  let '(name, step, id) := k in
  In name args /\ exists src h section line pairs, fs name = Some src /\ parse_hsl src = Ok h /\
    (step = lit "Rewrite" /\ section = lit "rewrite" \/ step = lit "Transcribe" /\ section = lit "transcribe") /\
    lookup h section = Some (ListSection pairs line) /\ 0 <= id < len pairs.

Lemma cov_eqb_eq a b : cov_eqb a b = true <-> a = b.
Proof.
  destruct a as [[n s] i], b as [[n' s'] i']; cbn [cov_eqb]; rewrite !andb_true_iff, !beqb_eq, Z.eqb_eq.
  split; [intros [[-> ->] ->]; reflexivity|intros E; injection E as -> -> ->; auto].
Qed.
Lemma covered_in cv name step id : covered (Some cv) name step id = true <-> In (name, step, id) (cv_covered cv).
Proof.
  unfold covered; rewrite existsb_exists; split.
  - intros (x & Hin & E); apply cov_eqb_eq in E; subst; exact Hin.
  - intros Hin; exists (name, step, id); split; [exact Hin|apply cov_eqb_eq; reflexivity].
Qed.
Lemma existsb_beqb x l : existsb (beqb x) l = true <-> In x l.
Proof.
  rewrite existsb_exists; split; [intros (y & Hin & E); apply beqb_eq in E; subst; exact Hin|].
  intros Hin; exists x; split; [exact Hin|apply beqb_eq; reflexivity].
Qed.

Definition cover_ok (cv : cover) : Prop := NoDup (cv_covered cv) /\ NoDup (cv_names cv).
Lemma NoDup_snoc {A} (l : list A) x : NoDup l -> ~ In x l -> NoDup (l ++ [x]).
Proof.
  intros H Hx; apply Permutation.Permutation_NoDup with (x :: l); [apply Permutation.Permutation_cons_append|].
  constructor; assumption.
Qed.
Lemma visit_ok cv name : cover_ok cv -> exists cv', visit (Some cv) name = Some cv' /\ cover_ok cv' /\
  cv_covered cv' = cv_covered cv /\ forall n, In n (cv_names cv') <-> In n (cv_names cv) \/ n = name.
Proof.
  intros [H1 H2]; cbn [visit]; eexists; split; [reflexivity|]; cbn [cv_covered cv_names].
  destruct (existsb (beqb name) (cv_names cv)) eqn:E.
  - split; [split; assumption|]; split; [reflexivity|]; apply existsb_beqb in E; intros n; split; [auto|intros [Hn| ->]; assumption].
  - assert (~ In name (cv_names cv)) as Hn by (rewrite <- existsb_beqb, E; discriminate).
    split; [split; [exact H1|apply NoDup_snoc; assumption]|]; split; [reflexivity|]; intros n; rewrite in_app_iff; cbn [In].
    intuition.
Qed.
Lemma cover_rule_ok cv name step id : cover_ok cv -> exists cv', cover_rule (Some cv) name step id = Some cv' /\ cover_ok cv' /\
  (forall k, In k (cv_covered cv') <-> In k (cv_covered cv) \/ k = (name, step, id)) /\
  forall n, In n (cv_names cv') <-> In n (cv_names cv) \/ n = name.
Proof.
  intros [H1 H2]; unfold cover_rule.
  destruct (visit_ok {| cv_covered := if covered (Some cv) name step id then cv_covered cv else cv_covered cv ++ [(name, step, id)];
                        cv_names := cv_names cv |} name) as (cv' & -> & Hok & Hc & Hn).
  - split; [|exact H2]; cbn [cv_covered]; destruct (covered (Some cv) name step id) eqn:E; [exact H1|].
    apply NoDup_snoc; [exact H1|]; rewrite <- covered_in, E; discriminate.
  - exists cv'; split; [reflexivity|]; split; [exact Hok|]; split; [|exact Hn].
    intros k; rewrite Hc; cbn [cv_covered]; destruct (covered (Some cv) name step id) eqn:E.
    + apply covered_in in E; split; [auto|intros [Hk| ->]; assumption].
    + rewrite in_app_iff; cbn [In]; intuition.
Qed.
Definition rule_key (name : bytes) (traces : list trace) (k : cov) : Prop :=
  exists t r, In t traces /\ t_rule t = Some r /\ k = (name, step_text (t_step t), rule_id r).
Lemma cover_traces_ok name traces cv : cover_ok cv -> In name (cv_names cv) ->
  exists cv', cover_traces (Some cv) name traces = Some cv' /\ cover_ok cv' /\
  (forall k, In k (cv_covered cv') <-> In k (cv_covered cv) \/ rule_key name traces k) /\
  forall n, In n (cv_names cv') <-> In n (cv_names cv).
Proof.
  unfold cover_traces; revert cv; induction traces as [|t traces IH]; intros cv Hok Hname; cbn [fold_left].
  - exists cv; split; [reflexivity|]; split; [exact Hok|]; split; [|reflexivity].
    intros k; split; [auto|]; intros [Hk|(t & r & [] & _)]; exact Hk.
  - destruct (t_rule t) as [r|] eqn:Er.
    + destruct (cover_rule_ok cv name (step_text (t_step t)) (rule_id r) Hok) as (cv1 & -> & Hok1 & Hc1 & Hn1).
      destruct (IH cv1 Hok1) as (cv' & -> & Hok' & Hc' & Hn'); [apply Hn1; auto|].
      exists cv'; split; [reflexivity|]; split; [exact Hok'|]; split.
      * intros k; rewrite Hc', Hc1; split.
        { intros [[Hk| ->]|(t' & r' & Hin & Hr)]; [left; exact Hk|right; exists t, r; cbn; auto|].
          right; exists t', r'; cbn; auto. }
        intros [Hk|(t' & r' & [->|Hin] & Hr & ->)]; [auto|left; right; congruence|].
        right; exists t', r'; auto.
      * intros n; rewrite Hn', Hn1; split; [intros [Hn| ->]; assumption|auto].
    + destruct (IH cv Hok Hname) as (cv' & -> & Hok' & Hc' & Hn').
      exists cv'; split; [reflexivity|]; split; [exact Hok'|]; split; [|exact Hn'].
      intros k; rewrite Hc'; split.
      * intros [Hk|(t' & r' & Hin & Hr)]; [left; exact Hk|right; exists t', r'; cbn; auto].
      * intros [Hk|(t' & r' & [->|Hin] & Hr & ->)]; [auto|congruence|right; exists t', r'; auto].
Qed.

Lemma test_examples_cover H c0 src s name examples cv traces c' reports :
  parse_spec c0 src = Ok s -> cover_ok cv -> In name (cv_names cv) ->
  (forall k, rule_key name traces k -> In k (cv_covered cv)) ->
  test_examples H s name (Some cv) traces examples = Ok (c', reports) ->
  exists cv', c' = Some cv' /\ cover_ok cv' /\
    (forall k, In k (cv_covered cv') <-> In k (cv_covered cv) \/
       exists word expected step id, In (word, expected) examples /\ fires H s word step id /\ k = (name, step, id)) /\
    forall n, In n (cv_names cv') <-> In n (cv_names cv).
Proof.
  intros Hp; revert cv traces reports; induction examples as [|[word expected] examples IH]; intros cv traces reports Hok Hname Hsub E.
  - injection E as <- <-; exists cv; split; [reflexivity|]; split; [exact Hok|]; split; [|reflexivity].
    intros k; split; [auto|]; intros [Hk|(? & ? & ? & ? & [] & _)]; exact Hk.
  - cbn [test_examples] in E; destruct (run_traced H c0 src s word Hp) as (prev & evs & Er); rewrite Er in E.
    destruct (snd (run_hangulizer H s [] false tt word)) as [[result err]| | | | |] eqn:Ea; cbn [bind] in E; try discriminate.
    destruct (cover_traces_ok name (traces ++ rev evs) cv Hok Hname) as (cv1 & Ec & Hok1 & Hc1 & Hn1); rewrite Ec in E.
    destruct (test_examples H s name (Some cv1) (traces ++ rev evs) examples) as [[c2 reports2]| | | | |] eqn:E2; cbn [bind] in E; try discriminate.
    injection E as <- <-.
    destruct (IH cv1 (traces ++ rev evs) reports2) as (cv' & -> & Hok' & Hc' & Hn'); auto.
    { apply Hn1; exact Hname. }
    { intros k Hk; apply Hc1; auto. }
    exists cv'; split; [reflexivity|]; split; [exact Hok'|]; split; [|intros n; rewrite Hn', Hn1; reflexivity].
    assert (forall step id, fires H s word step id <-> rule_key name (rev evs) (name, step, id)) as Hfires.
    { intros step id; unfold fires; rewrite Er; cbn [fst snd]; split.
      - intros (p & evs' & ev & r & E & Hin & Hst & Hr & Hid); injection E as <- <-; exists ev, r.
        rewrite <- in_rev; subst; auto.
      - intros (ev & r & Hin & Hr & E); injection E as -> ->; exists prev, evs, ev, r; rewrite <- in_rev in Hin; auto 6. }
    intros k; rewrite Hc', Hc1; split.
    + intros [[Hk|(t & r & Hin & Hr & ->)]|(w & x & st & id & Hin & Hf & ->)]; [auto| |].
      * apply in_app_or in Hin; destruct Hin as [Hin|Hin]; [left; apply Hsub; exists t, r; auto|].
        right; exists word, expected, (step_text (t_step t)), (rule_id r); split; [left; reflexivity|]; split; [|reflexivity].
        apply Hfires; exists t, r; auto.
      * right; exists w, x, st, id; split; [right; exact Hin|auto].
    + intros [Hk|(w & x & st & id & [Hin|Hin] & Hf & ->)]; [auto| |].
      * injection Hin as <- <-; left; right; apply Hfires in Hf; destruct Hf as (t & r & Hin & Hr); exists t, r.
        split; [apply in_or_app; right; exact Hin|exact Hr].
      * right; exists w, x, st, id; auto.
Qed.

Lemma test_files_cover H fs cs i cv args c' reports :
  cover_ok cv -> test_files H fs cs i (Some cv) args = Ok (c', reports, true) ->
  exists cv', c' = Some cv' /\ cover_ok cv' /\
    (forall k, In k (cv_covered cv') <-> In k (cv_covered cv) \/
       exists j s word expected step id name, nth_error args j = Some name /\ loads fs cs (i + j) name s /\
         In (word, expected) (s_test s) /\ fires H s word step id /\ k = (name, step, id)) /\
    forall n, In n (cv_names cv') <-> In n (cv_names cv) \/ In n args.
Proof.
  revert i cv c' reports; induction args as [|name args IH]; intros i cv c' reports Hok E; cbn [test_files] in E.
  - injection E as <- <-; exists cv; split; [reflexivity|]; split; [exact Hok|]; split.
    + intros k; split; [auto|]; intros [Hk|([|j] & ? & ? & ? & ? & ? & ? & Hj & _)]; [exact Hk|discriminate|discriminate].
    + intros n; split; [auto|intros [Hn|[]]; exact Hn].
  - destruct (fs name) as [src|] eqn:Ef; [|discriminate].
    destruct (parse_spec (cs i) src) as [s|e| | | |] eqn:Ep; try discriminate.
    destruct (visit_ok cv name Hok) as (cv0 & Ev & Hok0 & Hc0 & Hn0); rewrite Ev in E.
    destruct (test_examples H s name (Some cv0) [] (s_test s)) as [[c1 reports1]| | | | |] eqn:E1; cbn [bind] in E; try discriminate.
    destruct (test_examples_cover _ _ _ _ _ _ _ _ _ _ Ep Hok0 (proj2 (Hn0 name) (or_intror eq_refl))
                (fun k (Hk : rule_key name [] k) => match Hk with ex_intro _ t (ex_intro _ r (conj Hin _)) => match Hin with end end) E1)
      as (cv1 & -> & Hok1 & Hc1 & Hn1).
    destruct (test_files H fs cs (S i) (Some cv1) args) as [[[c2 reports2] done2]| | | | |] eqn:E2; cbn [bind] in E; try discriminate.
    injection E as <- <- ->; destruct (IH _ _ _ _ Hok1 E2) as (cv' & -> & Hok' & Hc' & Hn').
    assert (loads fs cs i name s) as Hs by (exists src; auto).
    exists cv'; split; [reflexivity|]; split; [exact Hok'|]; split.
    + intros k; rewrite Hc', Hc1, Hc0; split.
      * intros [[Hk|(w & x & st & id & Hin & Hf & ->)]|(j & s' & w & x & st & id & n & Hj & Hl & Hin & Hf & ->)]; [auto| |]; right.
        { exists 0%nat, s, w, x, st, id, name; rewrite Nat.add_0_r; auto 7. }
        exists (S j), s', w, x, st, id, n; replace (i + S j)%nat with (S i + j)%nat by lia; auto 7.
      * intros [Hk|([|j] & s' & w & x & st & id & n & Hj & Hl & Hin & Hf & ->)]; [auto| |].
        { injection Hj as <-; rewrite Nat.add_0_r in Hl; destruct Hl as (src' & Hs' & Hp').
          rewrite Ef in Hs'; injection Hs' as <-; assert (s' = s) as -> by congruence.
          left; right; exists w, x, st, id; auto. }
        right; exists j, s', w, x, st, id, n; replace (S i + j)%nat with (i + S j)%nat by lia; auto 7.
    + intros n; rewrite Hn', Hn1, Hn0; cbn [In]; intuition.
Qed.

(** The rules are those of the sections, one for each pair. *)
Definition pairs_of (h : hsl) (section : bytes) : list pair_ :=
  match lookup h section with Some (ListSection l _) => l | _ => [] end.
Lemma new_rules_length c tr i pairs macros vars rules :
  new_rules c tr i pairs macros vars = Ok rules -> length rules = length pairs.
Proof.
  revert i rules; induction pairs as [|p pairs IH]; intros i rules E; cbn [new_rules] in E; [injection E as <-; reflexivity|].
  apply bind_ok in E; destruct E as (from & _ & E); destruct (negative_lookaround_widths from) as [wa wb].
  destruct ((wa =? -1) || (wb =? -1)); [discriminate|].
  apply bind_ok in E; destruct E as (r & _ & E); apply bind_ok in E; destruct E as (rest & E1 & E).
  injection E as <-; cbn [length]; rewrite (IH _ _ E1); reflexivity.
Qed.
Lemma parse_spec_pairs c src s : parse_spec c src = Ok s ->
  exists h, parse_hsl src = Ok h /\ length (s_rewrite s) = length (pairs_of h (lit "rewrite")) /\
    length (s_transcribe s) = length (pairs_of h (lit "transcribe")).
Proof.
  unfold parse_spec, parse_hsl; intros H; apply bind_ok in H; destruct H as ([h rest] & -> & H); cbn [bind]; exists h; split; [reflexivity|].
  do 5 (apply bind_ok in H; destruct H as (? & _ & H)).
  apply bind_ok in H; destruct H as (rw & Hrw & H).
  apply bind_ok in H; destruct H as (rws & Hrws & H).
  apply bind_ok in H; destruct H as (tr & Htr & H).
  apply bind_ok in H; destruct H as (trs & Htrs & H).
  apply bind_ok in H; destruct H as (test & _ & H).
  destruct (get_script _); [|discriminate]; apply ok_inj in H; subst s; cbn [s_rewrite s_transcribe].
  apply new_rules_length in Hrws, Htrs; rewrite Hrws, Htrs; unfold with_section, as_list, pairs_of in *.
  split; [destruct (lookup h (lit "rewrite")) as [[|]|]|destruct (lookup h (lit "transcribe")) as [[|]|]]; try discriminate; congruence.
Qed.
Lemma total_rules_list fs c names total : NoDup names -> total_rules fs c names = Ok total ->
  exists rules, NoDup rules /\ length rules = total /\ forall k, In k rules <-> written fs names k.
Proof.
  revert total; induction names as [|name names IH]; intros total Hd E; cbn [total_rules] in E.
  - injection E as <-; exists []; split; [constructor|]; split; [reflexivity|]; intros [[n st] id]; split; [intros []|intros ([] & _)].
  - destruct (fs name) as [src|] eqn:Ef; [|discriminate].
    destruct (parse_spec (c name) src) as [s| | | | |] eqn:Ep; try discriminate.
    apply bind_ok in E; destruct E as (t & Et & E); injection E as <-.
    inversion Hd as [|? ? Hn Hd']; subst; destruct (IH t Hd' Et) as (rules & H1 & H2 & H3).
    destruct (parse_spec_pairs _ _ _ Ep) as (h & Hh & Hr & Ht).
    set (key step n := map (fun i => (name, step, Z.of_nat i) : cov) (seq 0 n)).
    assert (forall step n, NoDup (key step n)) as Hkd.
    { intros step n; unfold key; apply FinFun.Injective_map_NoDup; [intros a b E; injection E as E; lia|apply seq_NoDup]. }
    assert (forall step n k, In k (key step n) <-> exists id, k = (name, step, id) /\ 0 <= id < Z.of_nat n) as Hki.
    { intros step n k; unfold key; rewrite in_map_iff; split.
      - intros (i & <- & Hi); apply in_seq in Hi; exists (Z.of_nat i); split; [reflexivity|lia].
      - intros (id & -> & Hid); exists (Z.to_nat id); rewrite in_seq, Z2Nat.id by lia; split; [reflexivity|lia]. }
    exists ((key (lit "Rewrite") (length (s_rewrite s)) ++ key (lit "Transcribe") (length (s_transcribe s))) ++ rules).
    split; [|split].
    + assert (forall a b : list cov, NoDup a -> NoDup b -> (forall x, In x a -> ~ In x b) -> NoDup (a ++ b)) as Happ.
      { induction a as [|x a IHa]; intros b Ha Hb Hab; [exact Hb|]; inversion Ha; subst; cbn [app]; constructor.
        - rewrite in_app_iff; intros [Hx|Hx]; [contradiction|exact (Hab x (or_introl eq_refl) Hx)].
        - apply IHa; auto; intros y Hy; apply Hab; right; exact Hy. }
      apply Happ; [apply Happ; auto| exact H1 |].
      * intros x Hx; rewrite Hki in Hx |- *; destruct Hx as (id & -> & _); intros (id' & E & _); discriminate.
      * intros x Hx; rewrite in_app_iff, !Hki in Hx; rewrite H3.
        destruct Hx as [(id & -> & _)|(id & -> & _)]; intros (Hin & _); contradiction.
    + unfold key; rewrite !app_length, !map_length, !seq_length; lia.
    + intros [[n st] id]; rewrite !in_app_iff, !Hki, H3; unfold written.
      assert (forall section line pairs, lookup h section = Some (ListSection pairs line) -> pairs_of h section = pairs) as Hpo
        by (intros section line pairs E; unfold pairs_of; rewrite E; reflexivity).
      assert (forall section, 0 <= id < Z.of_nat (length (pairs_of h section)) ->
                exists line pairs, lookup h section = Some (ListSection pairs line) /\ 0 <= id < len pairs) as Hop.
      { intros section Hid; unfold pairs_of in Hid; destruct (lookup h section) as [[l line|]|]; cbn in Hid; try lia.
        exists line, l; split; [reflexivity|unfold len; lia]. }
      split.
      * intros [[(id' & E & Hid)|(id' & E & Hid)]|(Hin & Hw)].
        -- injection E as -> -> ->; rewrite Hr in Hid; destruct (Hop _ Hid) as (line & pairs & El & Hid').
           split; [left; reflexivity|]; exists src, h, (lit "rewrite"), line, pairs; auto 6.
        -- injection E as -> -> ->; rewrite Ht in Hid; destruct (Hop _ Hid) as (line & pairs & El & Hid').
           split; [left; reflexivity|]; exists src, h, (lit "transcribe"), line, pairs; auto 6.
        -- split; [right; exact Hin|exact Hw].
      * intros ([<-|Hin] & Hw); [left|right; split; assumption].
        destruct Hw as (src' & h' & section & line & pairs & Es & Eh & Hst & El & Hid).
        rewrite Ef in Es; injection Es as <-; rewrite Hh in Eh; apply ok_inj in Eh; subst h'.
        apply Hpo in El; subst pairs; unfold len in Hid.
        destruct Hst as [[-> ->]|[-> ->]]; [left|right]; exists id; (split; [reflexivity|lia]).
Qed.

(** With coverage, when all examples pass: the first number is that of the rules which an
    example made report a trace, the second that of the rules written in the files, and it
    is not smaller. *)
Theorem C48_coverage : forall (H : hangul_lib) fs cs cs' args reports covered total,
  run_test H fs cs cs' true args = Ok (reports, TestPassed (Some (covered, total))) ->
  (covered <= total)%nat /\
  (exists keys, NoDup keys /\ length keys = covered /\ forall k, In k keys <-> tested H fs cs args k) /\
  (exists keys, NoDup keys /\ length keys = total /\ forall k, In k keys <-> written fs args k).
Proof.
  intros H fs cs cs' args reports covered total E; unfold run_test in E.
  destruct (test_files H fs cs 0 _ args) as [[[c reports'] done]| | | | |] eqn:Et; cbn [bind] in E; try discriminate.
  destruct done; cbn [negb] in E; [|discriminate].
  destruct (existsb is_differs reports'); [discriminate|].
  destruct (test_files_cover H fs cs 0 new_cover args c reports') as (cv & -> & [Hd1 Hd2] & Hc & Hn); [split; constructor|exact Et|].
  apply bind_ok in E; destruct E as (q & Eq & E); injection E as _ ->.
  unfold coverage in Eq; apply bind_ok in Eq; destruct Eq as (t & Etot & Eq); injection Eq as <- ->.
  destruct (total_rules_list _ _ _ _ Hd2 Etot) as (rules & Hr1 & Hr2 & Hr3).
  assert (forall k, written fs (cv_names cv) k <-> written fs args k) as Hw.
  { intros [[n st] id]; unfold written; rewrite (Hn n); cbn [new_cover cv_names In]; intuition. }
  assert (forall k, In k (cv_covered cv) <-> tested H fs cs args k) as Hk.
  { intros k; rewrite Hc; cbn [new_cover cv_covered In Nat.add]; split.
    - intros [[]|(j & s & w & x & st & id & n & Hj & Hl & Hin & Hf & ->)]; exists j, s, w, x; auto.
    - destruct k as [[n st] id]; intros (j & s & w & x & Hj & Hl & Hin & Hf); right; exists j, s, w, x, st, id, n; auto 7. }
  split; [|split; [exists (cv_covered cv); auto|exists rules; split; [exact Hr1|]; split; [exact Hr2|]; intros k; rewrite Hr3; apply Hw]].
  rewrite <- Hr2; apply NoDup_incl_length; [exact Hd1|]; intros k Hin; apply Hr3, Hw; apply Hk in Hin.
  destruct k as [[n st] id]; destruct Hin as (j & s & w & x & Hj & (src & Es & Ep) & _ & Hf).
  split; [eapply nth_error_In; exact Hj|].
  destruct (parse_spec_pairs _ _ _ Ep) as (h & Hh & Hr & Ht).
  destruct Hf as (prev & evs & ev & r & Erun & Hin & Hst & Hr' & Hid).
  unfold run_hangulizer in Erun; destruct (forward H s [] true tt w) as [[w1 tr1] r1] eqn:E1; cbn [fst snd] in Erun.
  destruct (C04_faithful unit H _ src s [] tt w w1 tr1 r1 Ep E1) as (evs' & Ht' & (_ & _ & Hnames) & _).
  rewrite Erun in Ht'; injection Ht' as <-; rewrite Forall_forall in Hnames.
  specialize (Hnames ev (proj1 (in_rev _ _) Hin)); unfold names_rule in Hnames.
  destruct (parse_spec_rules _ _ _ Ep) as [[Hnr Hnt] _].
  assert (forall rules section, numbered rules -> In r rules -> length rules = length (pairs_of h section) ->
            exists line pairs, lookup h section = Some (ListSection pairs line) /\ 0 <= id < len pairs) as Hfind.
  { intros rs section Hnum Hir Hlen; apply In_nth_error in Hir; destruct Hir as (i & Hi).
    pose proof (Hnum i r Hi) as Hri; assert (i < length rs)%nat as Hil by (apply nth_error_Some; congruence).
    unfold pairs_of in Hlen; destruct (lookup h section) as [[l line|]|]; cbn [length] in Hlen; try lia.
    exists line, l; split; [reflexivity|unfold len; lia]. }
  exists src, h; destruct (t_step ev); try congruence; destruct Hnames as (r0 & E0 & Hir);
    rewrite Hr' in E0; injection E0 as <-.
  - destruct (Hfind _ (lit "rewrite") Hnr Hir Hr) as (line & pairs & El & Hl).
    exists (lit "rewrite"), line, pairs; subst st; auto 6.
  - destruct (Hfind _ (lit "transcribe") Hnt Hir Ht) as (line & pairs & El & Hl).
    exists (lit "transcribe"), line, pairs; subst st; auto 6.
Qed.
Print Assumptions C48_coverage.

(** A file with one failing and one passing example, and the rules they cover. *)
Definition ex_files (expected : string) : opened := fun name =>
  if beqb name (lit "x.hsl") then Some (ex_src ++ lit "test:" ++ [10%N] ++ lit "c -> " ++ lit expected) else None.
Definition ex_plain (expected : string) : opened := fun name =>
  if beqb name (lit "y.hsl")
  then Some (lit ("rewrite:" ) ++ [10%N] ++ lit "ab -> c" ++ [10%N] ++ lit "c -> d" ++ [10%N] ++ lit "transcribe:" ++ [10%N]
             ++ lit "d -> 가" ++ [10%N] ++ lit "test:" ++ [10%N] ++ lit "c -> " ++ lit expected)
  else ex_files expected name.
Example C48_example :
  let run e := run_test go_hangul (ex_plain e) (fun _ => choices0) (fun _ => choices0) true in
  run "가"%string [lit "y.hsl"] = Ok ([], TestPassed (Some (2, 3)%nat)) /\
  run "나"%string [lit "y.hsl"; lit "x.hsl"] =
    Ok ([Differs (lit "y.hsl") (lit "c") (lit "가") (lit "나"); Failure (ErrTranslitNotImported (lit "up"));
         Differs (lit "x.hsl") (lit "c") [] (lit "나")], TestFailed) /\
  run "가"%string [lit "y.hsl"; lit "z.hsl"] = Ok ([], TestError).
Proof. vm_compute; auto. Qed.
