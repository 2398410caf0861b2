(** C85: text in another script separates words. *)
From Coq Require Import String Lia.
From Verif Require Import GoBase Utf8 Utf8Facts UniTables Unicode Replacer ReplacerFacts Regex Hre Rule Scripts Hsl Spec SpecOrder Jamo Procedure
  ProcFacts ProcLocal ProcChars CaseFacts SeparateFacts BString Bundled Api ApiFacts PropBundled PropProc PropChars.
Open Scope Z_scope.

(** A run of characters that are not of the language and that no rewrite rule matches, in a
    spec that passes the check [spec_separates] (SeparateFacts.v). *)
Lemma forward_apart {W} H s (reg : list (bytes * translit W)) w u0 u run v0 v ru rv :
  spec_separates s = true -> s_script s <> Hrkt -> Forall good_rule (s_rewrite s) -> Forall good_transcribe (s_transcribe s) ->
  transliterate (l_translit (s_lang s)) reg w None (encode u0) = (w, None, Ok (encode u)) ->
  transliterate (l_translit (s_lang s)) reg w None (encode v0) = (w, None, Ok (encode v)) ->
  transliterate (l_translit (s_lang s)) reg w None (encode (u0 ++ run ++ v0)) = (w, None, Ok (encode (u ++ run ++ v))) ->
  scalars u -> scalars v -> run <> [] -> scalars run -> Forall (fun c => meaningful s c = false /\ c <> 0x200B%N) run -> normal_runes s run = run ->
  untouched (s_rewrite s) (encode run) -> edge_meaningful s u v ->
  forward H s reg false w (encode u0) = (w, None, Ok ru) -> forward H s reg false w (encode v0) = (w, None, Ok rv) ->
  forward H s reg false w (encode (u0 ++ run ++ v0)) = (w, None, Ok (ru ++ encode run ++ rv)).
Proof.
  intros Hsep Hl Hrw Htr T1 T2 T3 Su Sv Hne Sr Hrun Hrn Hd He; destruct (separates_parts s Hsep Hl) as (Hsc & _ & Hk & _).
  assert (forallb single_key (s_normReplacer s) = true) as Hkey.
  { apply forallb_forall; intros [k x] Hin; apply (Hk k x Hin). }
  assert (forall rs, scalars rs -> snd (normalize s None (encode rs)) = encode (normal_runes s rs)) as Hnorm by (intros rs Hs; apply normalize_chars; assumption).
  unfold forward; cbn [new_tracer trace_word emit]; rewrite T1, T2, T3.
  rewrite !after_translit_inner, !Hnorm; try assumption; [|apply Forall_app; split; [exact Su|apply Forall_app; split; assumption]].
  rewrite !normal_runes_app, Hrn.
  destruct (inner H s (encode (normal_runes s u))) as [x| | | | |] eqn:Ex; cbn [bind map_res snd]; try discriminate.
  intros E1; injection E1 as <-.
  destruct (inner H s (encode (normal_runes s v))) as [y| | | | |] eqn:Ey; cbn [bind map_res snd]; try discriminate.
  intros E2; injection E2 as <-.
  assert (inner H s (encode (normal_runes s u ++ run ++ normal_runes s v)) = Ok (x ++ encode run ++ y)) as ->.
  { apply inner_around; try apply normal_runes_scalars; try assumption.
    - eapply Forall_impl; [|exact Hrun]; intros c Hc; apply Hc.
    - apply normal_edges; assumption.
    - exists x, y; auto. }
  cbn [bind map_res snd]; do 2 f_equal.
  destruct (inner_chars H s _ x Hrw Htr (normal_runes_scalars s u) Ex) as [Ux _].
  unfold localize_word; rewrite !localize_drops by exact Hsc.
  rewrite runes_app_text by exact Ux; rewrite runes_app_text by (apply encode_utf8_text; exact Sr).
  rewrite runes_encode by exact Sr; rewrite !filter_app, !encode_app; do 3 f_equal.
  clear - Hrun; induction Hrun as [|c run [_ Hc] Hr IH]; [reflexivity|]; cbn [filter]; rewrite IH.
  destruct (N.eqb_spec c 0x200B) as [->|]; [contradiction|reflexivity].
Qed.
Lemma forward_marks {W} H s (reg : list (bytes * translit W)) w u0 u run v0 v ru rv :
  spec_separates s = true -> s_script s <> Hrkt -> Forall good_rule (s_rewrite s) -> Forall good_transcribe (s_transcribe s) ->
  transliterate (l_translit (s_lang s)) reg w None (encode u0) = (w, None, Ok (encode u)) ->
  transliterate (l_translit (s_lang s)) reg w None (encode v0) = (w, None, Ok (encode v)) ->
  transliterate (l_translit (s_lang s)) reg w None (encode (u0 ++ run ++ v0)) = (w, None, Ok (encode (u ++ run ++ v))) ->
  scalars u -> scalars v -> run <> [] -> Forall (fun c => in_ranges elsewhere c = true) run -> edge_meaningful s u v ->
  forward H s reg false w (encode u0) = (w, None, Ok ru) -> forward H s reg false w (encode v0) = (w, None, Ok rv) ->
  forward H s reg false w (encode (u0 ++ run ++ v0)) = (w, None, Ok (ru ++ encode run ++ rv)).
Proof.
  intros Hsep Hl Hrw Htr T1 T2 T3 Su Sv Hne Hrun He; destruct (separates_parts s Hsep Hl) as (_ & Hd & _).
  assert (scalars run) as Sr by (eapply Forall_impl; [|exact Hrun]; intros c; apply elsewhere_scalar).
  apply (forward_apart H s reg w u0 u run v0 v ru rv); try assumption.
  - eapply Forall_impl; [|exact Hrun]; intros c Hc; split; [apply elsewhere_meaningful; assumption|].
    intros ->; vm_compute in Hc; discriminate.
  - apply elsewhere_normal; assumption.
  - eapply Forall_impl; [|exact Hd]; intros r Hr; eapply deaf_find; [exact Hr|exact Sr|].
    eapply Forall_impl; [|exact Hrun]; intros c Hc; apply in_ranges_set; exact Hc.
Qed.
Lemma forward_separate {W} H s (reg : list (bytes * translit W)) w u run v ru rv :
  spec_separates s = true -> l_translit (s_lang s) = [] -> Forall good_rule (s_rewrite s) -> Forall good_transcribe (s_transcribe s) ->
  scalars u -> scalars v -> run <> [] -> Forall (fun c => in_ranges elsewhere c = true) run -> edge_meaningful s u v ->
  forward H s reg false w (encode u) = (w, None, Ok ru) -> forward H s reg false w (encode v) = (w, None, Ok rv) ->
  forward H s reg false w (encode (u ++ run ++ v)) = (w, None, Ok (ru ++ encode run ++ rv)).
Proof.
  intros Hsep Hl Hrw Htr Su Sv Hne Hrun He E1 E2; apply (forward_marks H s reg w u u run v v ru rv); try assumption; try (rewrite Hl; reflexivity).
  apply separates_script; assumption.
Qed.

(** The bundled languages pass the check. *)
Lemma bundled_separates c path src s : choices_ok c -> lookup bundled_files path = Some src -> parse_spec c src = Ok s ->
  exists s0, parse_spec choices0 src = Ok s0 /\ same_but_order s0 s /\ unambiguous (s_normReplacer s0) /\ spec_separates s0 = true.
Proof.
  intros Hc Es Ep; destruct (file_ok_parses src c (bundled_file_ok _ _ Es) Hc) as (s0 & s1 & E0 & Ep1 & Ho & Hu & _).
  assert (s1 = s) as -> by congruence; exists s0; repeat (split; [assumption|]).
  pose proof bundled_fits as Hf; rewrite forallb_forall in Hf; specialize (Hf _ (PropBundled.lookup_in _ _ _ Es)).
  unfold file_fits in Hf; cbn [fst snd] in Hf; rewrite E0 in Hf; do 5 (apply andb_true_iff in Hf; destruct Hf as [_ Hf]); apply andb_true_iff in Hf; apply Hf.
Qed.

(** What Hangulize returns for a word in a bundled language. *)
Definition result {W} (H : hangul_lib) c (reg : list (bytes * translit W)) w lang (rs : list rune) : res returned :=
  snd (hangulize H bundled_files c [] reg w lang (encode rs)).

Lemma result_forward {W} H c (reg : list (bytes * translit W)) w lang src s rs :
  choices_ok c -> lookup bundled_files (specs_dir ++ lang ++ ext) = Some src -> parse_spec c src = Ok s -> l_translit (s_lang s) = [] ->
  exists out, result H c reg w lang rs = Ok (out, None) /\ forward H s reg false w (encode rs) = (w, None, Ok out).
Proof.
  intros Hc Es Ep Hl; unfold result, hangulize, load_spec; cbn [lookup]; rewrite Es, Ep; unfold run_hangulizer.
  destruct (forward H s reg false w (encode rs)) as [[w1 tr] r] eqn:E.
  destruct (C06_returns_word W H _ src c s reg false w (encode rs) w1 tr r (PropBundled.lookup_in _ _ _ Es) Hc Ep Hl E) as (out & ->).
  exists out; split; [reflexivity|]; revert E; unfold forward; cbn [new_tracer trace_word emit]; rewrite Hl; cbn [transliterate].
  rewrite after_translit_inner; destruct (inner H s _); cbn [bind map_res snd]; intros E; try discriminate.
  injection E as <- <- <-; reflexivity.
Qed.

(** Between two words of a bundled language that needs no transliterator, a run of digits or
    of letters of other scripts ([elsewhere], SeparateFacts.v, lists their ranges) is left as
    it is, and what is before it and what is behind it come out as they do alone. The words
    end or begin with a character that the language speaks about, or are empty. *)
Theorem C85_separate : forall W (H : hangul_lib) c lang src s (reg : list (bytes * translit W)) w u run v,
  choices_ok c -> lookup bundled_files (specs_dir ++ lang ++ ext) = Some src -> parse_spec c src = Ok s ->
  l_translit (s_lang s) = [] ->
  scalars u -> scalars v -> run <> [] -> Forall (fun x => exists lo hi, In (lo, hi) elsewhere /\ (lo <= x <= hi)%N) run ->
  (forall p x, u = p ++ [x] -> of_language s x) -> (forall x p, v = x :: p -> of_language s x) ->
  exists ru rv, result H c reg w lang u = Ok (ru, None) /\ result H c reg w lang v = Ok (rv, None) /\
    result H c reg w lang (u ++ run ++ v) = Ok (ru ++ encode run ++ rv, None).
Proof.
  intros W H c lang src s reg w u run v Hc Es Ep Hl Su Sv Hne Hrun Hu Hv.
  destruct (result_forward H c reg w lang src s u Hc Es Ep Hl) as (ru & E1 & F1).
  destruct (result_forward H c reg w lang src s v Hc Es Ep Hl) as (rv & E2 & F2).
  destruct (result_forward H c reg w lang src s (u ++ run ++ v) Hc Es Ep Hl) as (out & E3 & F3).
  exists ru, rv; split; [exact E1|]; split; [exact E2|]; rewrite E3; do 2 f_equal.
  destruct (bundled_rules _ _ _ _ Es Hc Ep) as (_ & Hrw & Htr & _).
  destruct (bundled_separates c _ src s Hc Es Ep) as (s0 & E0 & Ho & Hamb & Hsep).
  rewrite (forward_order H s0 s reg false w _ Ho Hamb) in F1; rewrite (forward_order H s0 s reg false w _ Ho Hamb) in F2.
  rewrite (forward_order H s0 s reg false w _ Ho Hamb) in F3; destruct Ho as [Ho _].
  assert (s_lang s = s_lang s0) as El by (rewrite Ho; reflexivity).
  assert (s_rewrite s = s_rewrite s0) as Er by (rewrite Ho; reflexivity).
  assert (s_transcribe s = s_transcribe s0) as Et by (rewrite Ho; reflexivity).
  assert (forall x, of_language s x -> of_language s0 x) as Hlang.
  { intros x; unfold of_language; rewrite Ho; cbn [s_script s_puncts]; auto. }
  clear Ho; rewrite El, Er, Et in *.
  enough (forward H s0 reg false w (encode (u ++ run ++ v)) = (w, None, Ok (ru ++ encode run ++ rv))) as F by congruence.
  apply forward_separate; try assumption.
  - eapply Forall_impl; [|exact Hrun]; cbv beta; intros x (lo & hi & Hin & Hx).
    eapply elsewhere_ranges; eassumption.
  - split.
    + intros p x E; apply of_language_meaningful; [|apply Hlang; eapply Hu; exact E].
      rewrite E in Su; apply Forall_app in Su; destruct Su as [_ Su]; inversion Su; assumption.
    + intros x p E; apply of_language_meaningful; [|apply Hlang; eapply Hv; exact E].
      rewrite E in Sv; inversion Sv; assumption.
Qed.
Print Assumptions C85_separate.

(** The same for any number of runs. *)
Theorem C85_many : forall W (H : hangul_lib) c lang src s (reg : list (bytes * translit W)) w u parts,
  choices_ok c -> lookup bundled_files (specs_dir ++ lang ++ ext) = Some src -> parse_spec c src = Ok s ->
  l_translit (s_lang s) = [] ->
  scalars u -> (forall p x, u = p ++ [x] -> of_language s x) ->
  Forall (fun q => let '(run, v) := q in
    run <> [] /\ Forall (fun x => exists lo hi, In (lo, hi) elsewhere /\ (lo <= x <= hi)%N) run /\
    scalars v /\ v <> [] /\ (forall x p, v = x :: p -> of_language s x) /\ (forall p x, v = p ++ [x] -> of_language s x)) parts ->
  exists ru rs, result H c reg w lang u = Ok (ru, None) /\
    Forall2 (fun q r => result H c reg w lang (snd q) = Ok (r, None)) parts rs /\
    result H c reg w lang (u ++ concat (map (fun q => fst q ++ snd q) parts)) =
    Ok (ru ++ concat (map (fun z => encode (fst (fst z)) ++ snd z) (combine parts rs)), None).
Proof.
  intros W H c lang src s reg w u parts Hc Es Ep Hl Su Hu Hp; revert u Su Hu; induction Hp as [|[run v] parts (Hne & Hrun & Sv & Hv0 & Hv1 & Hv2) Hp IH]; intros u Su Hu.
  - destruct (result_forward H c reg w lang src s u Hc Es Ep Hl) as (ru & E & _); exists ru, []; split; [exact E|]; split; [constructor|].
    cbn [map concat combine]; rewrite !app_nil_r; exact E.
  - destruct (IH v Sv Hv2) as (rv & rs & E1 & Ers & E2); cbn [map concat fst snd].
    set (rest := concat (map (fun q => fst q ++ snd q) parts)) in *.
    assert (scalars rest) as Srest.
    { unfold rest, scalars; clear - Hp; induction Hp as [|[run v] parts (_ & Hr & Hs & _) Hp IH]; [constructor|]; cbn [map concat fst snd].
      apply Forall_app; split; [|exact IH]; apply Forall_app; split; [|exact Hs].
      eapply Forall_impl; [|exact Hr]; cbv beta; intros x (lo & hi & Hin & Hx); apply elsewhere_scalar; eapply elsewhere_ranges; eassumption. }
    destruct (C85_separate W H c lang src s reg w u run (v ++ rest) Hc Es Ep Hl Su) as (ru & rv' & F1 & F2 & F3); try assumption.
    + apply Forall_app; split; assumption.
    + intros x p E; destruct v as [|y v]; [contradiction|]; injection E as <- _; eapply Hv1; reflexivity.
    + assert (rv' = rv ++ concat (map (fun z => encode (fst (fst z)) ++ snd z) (combine parts rs))) as -> by congruence.
      exists ru, (rv :: rs); split; [exact F1|]; split; [constructor; assumption|].
      rewrite <- (app_assoc run v rest); refine (eq_trans F3 _); cbn [combine map concat fst snd]; rewrite <- !app_assoc; reflexivity.
Qed.
Print Assumptions C85_many.

(** A run alone is left as it is. *)
Corollary C85_alone : forall W (H : hangul_lib) c lang src s (reg : list (bytes * translit W)) w run,
  choices_ok c -> lookup bundled_files (specs_dir ++ lang ++ ext) = Some src -> parse_spec c src = Ok s ->
  l_translit (s_lang s) = [] ->
  Forall (fun x => exists lo hi, In (lo, hi) elsewhere /\ (lo <= x <= hi)%N) run ->
  result H c reg w lang run = Ok (encode run, None).
Proof.
  intros W H c lang src s reg w run Hc Es Ep Hl Hrun.
  assert (result H c reg w lang [] = Ok ([], None)) as E0.
  { unfold result, hangulize, load_spec; cbn [lookup]; rewrite Es, Ep; unfold run_hangulizer, forward; cbn [new_tracer trace_word emit].
    rewrite Hl; cbn [transliterate].
    destruct (bundled_separates c _ src s Hc Es Ep) as (s0 & Ep0 & Ho & Hamb & Hsep).
    assert (no_empty_key (s_normReplacer s)) as Hk.
    { destruct Ho as [Ho Hperm]; assert (s_lang s = s_lang s0) as El by (rewrite Ho; reflexivity); rewrite El in Hl.
      destruct (separates_parts s0 Hsep (separates_script s0 Hsep Hl)) as (_ & _ & Hk & _); intros v Hin.
      apply Permutation.Permutation_sym in Hperm; destruct (Hk [] v (Permutation.Permutation_in _ Hperm Hin)) as (Hs & _ & _).
      destruct (single_key_char _ Hs) as (r & _ & E & _); cbn [fst] in E; symmetry in E; exact (encode_rune_nonnil _ E). }
    rewrite after_translit_inner; unfold normalize; cbn [snd encode flat_map]; unfold replacer_replace; rewrite rep_from_nil by exact Hk.
    reflexivity. }
  destruct run as [|x run]; [exact E0|].
  destruct (C85_separate W H c lang src s reg w [] (x :: run) [] Hc Es Ep Hl) as (ru & rv & F1 & F2 & F3);
    [constructor|constructor|discriminate|exact Hrun|intros p y E; destruct p; discriminate|discriminate|].
  assert (ru = [] /\ rv = []) as [-> ->] by (split; congruence).
  cbn [app] in F3; rewrite !app_nil_r in F3; exact F3.
Qed.
Print Assumptions C85_alone.

(** A number between Italian words, and Hangul behind one. *)
Example C85_example :
  match lookup bundled_files (specs_dir ++ lit "ita" ++ ext) with
  | Some src => match parse_spec choices0 src with
                | Ok s => l_translit (s_lang s) = [] /\ s_script s = Latn /\ is_space 0x20%N = true
                | _ => False
                end
  | None => False
  end /\
  In (0x2E, 0x3A)%N elsewhere /\ In (0xAC00, 0xD7A3)%N elsewhere /\
  map (fun x => snd (hangulize (W := unit) go_hangul bundled_files choices0 [] [] tt (lit "ita") x))
      [lit "apollo "; lit "gnocchi"; lit "apollo 11gnocchi한글"] =
  [Ok (lit "아폴로 ", None); Ok (lit "뇨키", None); Ok (lit "아폴로 11뇨키한글", None)].
Proof. split; [vm_compute; repeat split|]; split; [cbn [In elsewhere]; auto 30|]; split; [cbn [In elsewhere]; auto 30|vm_compute; reflexivity]. Qed.
