(** Properties C03, C04 and C34: tracing, and the chain of transliterators. *)
From Coq Require Import String.
From Verif Require Import GoBase Utf8 Utf8Facts Regex Hre Subword Rule Hsl Spec SpecOrder Jamo Procedure ProcFacts PropOutput.
Open Scope Z_scope.

(** ** C03 Tracing is transparent *)
Theorem C03_transparent :
  forall W (H : hangul_lib) c src s (reg : list (bytes * translit W)) w word w1 w2 tr1 tr2 r1 r2,
  parse_spec c src = Ok s ->
  forward H s reg true w word = (w1, tr1, r1) ->
  forward H s reg false w word = (w2, tr2, r2) ->
  w1 = w2 /\ r1 = r2.
Proof.
  intros W H c src s reg w word w1 w2 tr1 tr2 r1 r2 Hp E1 E2.
  pose proof (forward_trace H s reg w word (proj1 (parse_spec_rules c src s Hp))) as Hf.
  rewrite E1, E2 in Hf; exact Hf.
Qed.
Print Assumptions C03_transparent.

(** A small spec with rules in both steps and a transliterator. *)
Definition ex_src : bytes := lit
"lang:
 id = x
 codes = x, xx
 english = X
 korean = X
 script = Latn
 translit = up
rewrite:
 ab -> c
 c -> d
transcribe:
 d -> 가
".
Definition or_empty (r : res spec) : spec := match r with Ok s => s | _ => empty_spec end.
Definition ex_spec : spec := or_empty (parse_spec choices0 ex_src).
Definition up : translit nat :=
  {| tl_scheme := lit "up"; tl_run := fun n word => (S n, Ok (word ++ lit "d")) |}.

Example C03_example :
  parse_spec choices0 ex_src = Ok ex_spec /\
  (let '(_, _, r) := forward go_hangul ex_spec [(lit "up", up)] true 0%nat (lit "ab!") in r) = Ok (lit "가!가") /\
  forward go_hangul ex_spec [(lit "up", up)] false 0%nat (lit "ab!") = (1%nat, None, Ok (lit "가!가")).
Proof. vm_compute; auto. Qed.

(** Spec's fields are exported: when a caller has removed the first rule, the traced run
    dereferences a nil record (trace.go:149) and the untraced one returns. *)
Definition drop_rule (s : spec) : spec :=
  {| s_lang := language0; s_config := s_config s; s_macros := s_macros s; s_vars := s_vars s;
     s_normalize := s_normalize s; s_rewrite := tl (s_rewrite s); s_transcribe := s_transcribe s;
     s_test := s_test s; s_source := s_source s; s_script := s_script s; s_puncts := s_puncts s;
     s_normReplacer := s_normReplacer s; s_normLetters := s_normLetters s |}.
Theorem C03_unnumbered_refuted : exists s word out,
  forward (W := unit) go_hangul s [] false tt word = (tt, None, Ok out) /\
  snd (forward (W := unit) go_hangul s [] true tt word) = Panic PNil.
Proof. exists (drop_rule ex_spec), (lit "c"), (lit "가"); vm_compute; auto. Qed.
Print Assumptions C03_unnumbered_refuted.

(** ** C04 The trace stream is a faithful log

    [follows newer older] (ProcFacts.v): other word, and a later step, or the same step
    with a greater rule. [names_rule]: the event has a rule of its step exactly in the
    Rewrite and Transcribe steps. [log] lists the events in the order of delivery. *)
Definition faithful (s : spec) (log : list trace) : Prop :=
  (forall e rest, log = e :: rest -> t_word e <> []) /\
  (forall before e e' after, log = before ++ e :: e' :: after -> follows e' e) /\
  Forall (names_rule (s_rewrite s) (s_transcribe s)) log.

Lemma log_ok_app a b : log_ok (a ++ b) -> log_ok b.
Proof. induction a as [|x a IH]; [auto|]; intros H; apply IH; cbn [app log_ok] in H; apply H. Qed.
Lemma log_ok_faithful s evs :
  log_ok evs -> Forall (names_rule (s_rewrite s) (s_transcribe s)) evs -> faithful s (rev evs).
Proof.
  intros Hl Hn; split; [|split].
  - intros e rest E; apply (f_equal (@rev trace)) in E; rewrite rev_involutive in E; cbn [rev] in E; subst evs.
    apply log_ok_app in Hl; apply Hl.
  - intros p e e' q E; apply (f_equal (@rev trace)) in E; rewrite rev_involutive in E; subst evs.
    rewrite rev_app_distr in Hl; cbn [rev] in Hl; rewrite <- !app_assoc in Hl; cbn [app] in Hl.
    apply log_ok_app in Hl; apply Hl.
  - apply Forall_rev; exact Hn.
Qed.

Theorem C04_faithful :
  forall W (H : hangul_lib) c src s (reg : list (bytes * translit W)) w word w' tr r,
  parse_spec c src = Ok s ->
  forward H s reg true w word = (w', tr, r) ->
  exists evs, option_map snd tr = Some evs /\ faithful s (rev evs) /\
    (forall out, r = Ok out -> out = last (map t_word (rev evs)) []).
Proof.
  intros W H c src s reg w word w' tr r Hp E.
  destruct (forward_log H s reg w word w' tr r (proj1 (parse_spec_rules c src s Hp)) E)
    as (evs & -> & Hl & Hn & Ho).
  exists evs; split; [reflexivity|]; split; [apply log_ok_faithful; assumption|].
  intros out Er; rewrite <- (Ho out Er); destruct evs as [|e evs]; [reflexivity|].
  cbn [rev last_word]; rewrite map_app; cbn [map]; rewrite last_last; reflexivity.
Qed.
Print Assumptions C04_faithful.

Example C04_example : exists w' prev evs,
  forward go_hangul ex_spec [(lit "up", up)] true 0%nat (lit "ab!") = (w', Some (prev, evs), Ok (lit "가!가")) /\
  map (fun e => (t_step e, t_word e, option_map rule_id (t_rule e))) (rev evs) =
  [(SInput, lit "ab!", None); (STransliterate, lit "ab!d", None); (SRewrite, lit "c!d", Some 0);
   (SRewrite, lit "d!d", Some 1); (STranscribe, lit "가!가", Some 0)].
Proof. do 3 eexists; vm_compute; auto. Qed.

(** ** C34 Transliterators run in declared order and stop at the first failure

    [served reg w x calls w' x']: the transliterators named in [calls] ran one after the
    other, without failing, each on the word beside its name. *)
Inductive served {W} (reg : list (bytes * translit W)) : W -> bytes -> list (bytes * bytes) -> W -> bytes -> Prop :=
| served_none w x : served reg w x [] w x
| served_next w x sc t w1 x1 calls w2 x2 :
    lookup reg sc = Some t -> tl_run t w x = (w1, Ok x1) ->
    served reg w1 x1 calls w2 x2 -> served reg w x ((sc, x) :: calls) w2 x2.

(** The same transliterators, which also write down every call they get. *)
Definition logging {W} (e : bytes * translit W) : bytes * translit (W * list (bytes * bytes)) :=
  (fst e, {| tl_scheme := tl_scheme (snd e);
             tl_run := fun wl x => let '(w1, r) := tl_run (snd e) (fst wl) x in
                                   ((w1, snd wl ++ [(fst e, x)]), r) |}).
Lemma lookup_logging {W} (reg : list (bytes * translit W)) sc :
  lookup (map logging reg) sc = option_map (fun t => snd (logging (sc, t))) (lookup reg sc).
Proof.
  induction reg as [|[k t] reg IH]; [reflexivity|]; cbn [map logging lookup fst snd].
  destruct (beqb k sc) eqn:E; [|exact IH]; apply beqb_eq in E; subst; reflexivity.
Qed.

(** What can happen after [calls] succeeded and [rest] remain. *)
Inductive ended {W} (reg : list (bytes * translit W)) (w1 : W) (x1 : bytes) (calls : list (bytes * bytes))
  : list bytes -> W * list (bytes * bytes) -> res bytes -> Prop :=
| all_served : ended reg w1 x1 calls [] (w1, calls) (Ok x1)
| not_imported sc rest : lookup reg sc = None ->
    ended reg w1 x1 calls (sc :: rest) (w1, calls) (Err (ErrTranslitNotImported sc))
| has_failed sc rest t w2 e : lookup reg sc = Some t -> tl_run t w1 x1 = (w2, Err e) ->
    ended reg w1 x1 calls (sc :: rest) (w2, calls ++ [(sc, x1)]) (Err (ErrTranslit sc))
| has_crashed sc rest t w2 r : lookup reg sc = Some t -> tl_run t w1 x1 = (w2, r) ->
    (forall o, r <> Ok o) -> (forall e, r <> Err e) ->
    ended reg w1 x1 calls (sc :: rest) (w2, calls ++ [(sc, x1)]) r.

Definition early (tr : tracer) : Prop :=
  forall prev evs, tr = Some (prev, evs) -> Forall (fun e => t_step e = SInput \/ t_step e = STransliterate) evs.
Lemma early_word tr st x why : early tr -> st = SInput \/ st = STransliterate -> early (trace_word tr st x why).
Proof.
  intros He Hs prev evs; unfold trace_word, emit; destruct tr as [[p l]|]; [|discriminate]; cbn [t_word].
  destruct (beqb p x); [apply He|]; intros E; injection E as <- <-; constructor; [exact Hs|].
  apply (He p l eq_refl).
Qed.

Lemma transliterate_chain {W} (reg : list (bytes * translit W)) schemes w log tr x :
  early tr ->
  let '(w', tr', r) := transliterate schemes (map logging reg) (w, log) tr x in
  early tr' /\
  exists calls rest w1 x1 w2 log2, schemes = map fst calls ++ rest /\ served reg w x calls w1 x1 /\
    w' = (w2, log ++ log2) /\ ended reg w1 x1 calls rest (w2, log2) r.
Proof.
  revert w log tr x; induction schemes as [|sc schemes IH]; intros w log tr x He; cbn [transliterate].
  - split; [exact He|]; exists [], [], w, x, w, []; rewrite (app_nil_r log).
    split; [reflexivity|]; split; [apply served_none|]; split; [reflexivity|apply all_served].
  - rewrite lookup_logging; destruct (lookup reg sc) as [t|] eqn:El; cbn [option_map logging snd fst tl_run tl_scheme].
    + destruct (tl_run t w x) as [w1 r] eqn:Er.
      destruct r as [x1|e|p| | |].
      * specialize (IH w1 (log ++ [(sc, x)]) (trace_word tr STransliterate x1 (tl_scheme t)) x1
                       (early_word _ _ _ _ He (or_intror eq_refl))).
        destruct (transliterate _ _ _ _ _) as [[w' tr'] r]; destruct IH as [He' (calls & rest & w2 & x2 & w3 & log3 & -> & Hs & -> & Hn)].
        split; [exact He'|]; exists ((sc, x) :: calls), rest, w2, x2, w3, ((sc, x) :: log3).
        rewrite <- app_assoc; cbn [map fst app]; repeat split.
        { econstructor; eassumption. }
        inversion Hn; subst; cbn [app].
        { apply (all_served reg w3 x2 ((sc, x) :: log3)). }
        { apply (not_imported reg w3 x2 ((sc, x) :: log3)); assumption. }
        { eapply (has_failed reg w2 x2 ((sc, x) :: calls)); eassumption. }
        { eapply (has_crashed reg w2 x2 ((sc, x) :: calls)); eassumption. }
      * split; [exact He|]; exists [], (sc :: schemes), w, x, w1, [(sc, x)]; repeat split; [constructor|].
        eapply (has_failed reg w x []); eassumption.
      * split; [exact He|]; exists [], (sc :: schemes), w, x, w1, [(sc, x)]; repeat split; [constructor|].
        eapply (has_crashed reg w x []); [eassumption|eassumption|discriminate|discriminate].
      * split; [exact He|]; exists [], (sc :: schemes), w, x, w1, [(sc, x)]; repeat split; [constructor|].
        eapply (has_crashed reg w x []); [eassumption|eassumption|discriminate|discriminate].
      * split; [exact He|]; exists [], (sc :: schemes), w, x, w1, [(sc, x)]; repeat split; [constructor|].
        eapply (has_crashed reg w x []); [eassumption|eassumption|discriminate|discriminate].
      * split; [exact He|]; exists [], (sc :: schemes), w, x, w1, [(sc, x)]; repeat split; [constructor|].
        eapply (has_crashed reg w x []); [eassumption|eassumption|discriminate|discriminate].
    + split; [exact He|]; exists [], (sc :: schemes), w, x, w, []; rewrite (app_nil_r log); repeat split; [constructor|].
      apply (not_imported reg w x []); exact El.
Qed.

(** For every spec, registry, state, word, with or without tracing: some of the declared
    schemes, from the first on, were called in order, each on the output of the one
    before; the calls made are exactly these and possibly the failing one; unless all
    succeeded, the call ends with the outcome described by [ended] and no step later than
    Transliterate is traced. *)
Theorem C34_chain :
  forall W (H : hangul_lib) s (reg : list (bytes * translit W)) on w word w' log tr r,
  forward H s (map logging reg) on (w, []) word = ((w', log), tr, r) ->
  exists calls rest w1 x1 t, l_translit (s_lang s) = map fst calls ++ rest /\
    served reg w word calls w1 x1 /\ ended reg w1 x1 calls rest (w', log) t /\
    (rest <> [] -> r = t /\ early tr) /\
    (rest = [] -> exists tr', r = map_res snd (after_translit H s tr' x1)).
Proof.
  intros W H s reg on w word w' log tr r; unfold forward.
  pose proof (transliterate_chain reg (l_translit (s_lang s)) w [] (trace_word (new_tracer on) SInput word []) word) as Hc.
  destruct (transliterate _ _ _ _ _) as [[wl tr1] t].
  destruct Hc as [He (calls & rest & w1 & x1 & w2 & log2 & Es & Hs & -> & Hn)].
  { apply early_word; [|left; reflexivity]; intros p e E; destruct on; [|discriminate].
    injection E as <- <-; constructor. }
  intros E; exists calls, rest, w1, x1, t; split; [exact Es|]; split; [exact Hs|].
  cbn [app] in E; destruct t as [x2|e|p| | |];
    try (injection E as <- <- <- <-; repeat split; try assumption;
         intros ->; inversion Hn).
  assert (x2 = x1 /\ rest = [] /\ w' = w2 /\ log = log2) as (-> & -> & -> & ->).
  { assert (x2 = x1 /\ rest = []) as [-> ->].
    { inversion Hn; subst; auto; match goal with Hx : forall o, Ok _ <> Ok o |- _ => exfalso; exact (Hx _ eq_refl) end. }
    destruct (after_translit H s tr1 x1) as [[? ?]| | | | |]; injection E as <- <- <- <-; auto. }
  repeat split; try assumption; try congruence.
  intros _; exists tr1; destruct (after_translit H s tr1 x1) as [[? ?]| | | | |]; injection E as <- <-; reflexivity.
Qed.
Print Assumptions C34_chain.

(** Three schemes, the second fails. *)
Definition bad : translit nat := {| tl_scheme := lit "bad"; tl_run := fun n _ => (S n, Err ErrCodes) |}.
Definition ex_three : spec :=
  {| s_lang := {| l_id := []; l_codes := ([], []); l_english := []; l_korean := []; l_script := [];
                  l_translit := [lit "up"; lit "bad"; lit "up"] |};
     s_config := s_config ex_spec; s_macros := []; s_vars := []; s_normalize := [];
     s_rewrite := s_rewrite ex_spec; s_transcribe := s_transcribe ex_spec; s_test := [];
     s_source := []; s_script := s_script ex_spec; s_puncts := []; s_normReplacer := []; s_normLetters := [] |}.
Example C34_example :
  let '(w, tr, r) := forward go_hangul ex_three (map logging [(lit "up", up); (lit "bad", bad)]) true (0%nat, []) (lit "a") in
  w = (2%nat, [(lit "up", lit "a"); (lit "bad", lit "ad")]) /\ r = Err (ErrTranslit (lit "bad")).
Proof. vm_compute; auto. Qed.
