(** Properties C05 and C06: the bundled languages. *)
From Coq Require Import String.
From Verif Require Import GoBase Utf8 Utf8Facts Regex RegexFacts Hre FindFacts Replacer ReplacerFacts Subword Rule RuleFacts
  Hsl Spec SpecOrder Jamo Procedure ProcFacts MaskFacts Scripts ProcChars CaseFacts SeparateFacts BString Bundled Api ApiFacts WordSpec WhiteFacts.
Open Scope Z_scope.

(** One check of every bundled file: it parses, neither the macros nor the normalize
    section have a key that begins with another one, every rule is safe ([rule_ok],
    RuleFacts.v), no transcribe rule matches a NUL ([no_nul], MaskFacts.v), and the texts
    that the rules write are sound ([texts_ok]): valid UTF-8 and, for transcribe rules, with
    every Jamo in its place ([closed_rule], ProcChars.v), no letter of the language's script
    and no ASCII character but the apostrophe and the hyphen. *)
Definition text_char (sc : script) (c : rune) : bool :=
  negb (script_is sc c) && ((128 <=? c)%N || (c =? 0x27)%N || (c =? 0x2D)%N).
Definition texts_ok (s : spec) : bool :=
  forallb (fun r => forallb valid_utf8 (rule_texts r)) (s_rewrite s ++ s_transcribe s) &&
  forallb closed_rule (s_transcribe s) &&
  forallb (fun r => forallb (fun t => forallb (text_char (s_script s)) (runes t)) (rule_texts r)) (s_transcribe s).
Definition spec_ok (s : spec) : bool :=
  unambiguousb (s_macros s) && unambiguousb (norm_args (s_normalize s)) &&
  forallb rule_ok (s_rewrite s ++ s_transcribe s) &&
  forallb (fun r => no_nul (rule_from r)) (s_transcribe s) && texts_ok s.
Definition file_ok (src : bytes) : bool :=
  match parse_spec choices0 src with Ok s => spec_ok s | _ => false end.
(** Also, the file is named after the language, and the names of the language are valid
    UTF-8 and fit into the columns of the command ls. *)
Definition spec_fits (path : bytes) (s : spec) : bool :=
  beqb path (specs_dir ++ l_id (s_lang s) ++ ext) &&
  forallb (fun x => valid_utf8 (fst x) && (length (runes (fst x)) <=? snd x)%nat)
          [(l_id (s_lang s), 8%nat); (c_stage (s_config s), 8%nat);
           (l_english (s_lang s), 24%nat); (l_korean (s_lang s), 24%nat)].
(** Also, the letter case of the word does not matter, except for these letters (C67). *)
Definition case_exceptions (id : bytes) : list rune :=
  if beqb id (lit "aze") || beqb id (lit "tur") then [0x49%N]
  else if beqb id (lit "hbs") then [0x43; 0x1C4; 0x1C5; 0x1C7; 0x1C8; 0x1CA; 0x1CB]%N
  else if beqb id (lit "por") || beqb id (lit "por-br") then [0xCA%N]
  else if beqb id (lit "fin") || beqb id (lit "swe") then [0x212B%N]
  else if beqb id (lit "nld") then [0x1E2E%N]
  else if beqb id (lit "spa") then [0x1D7%N]
  else if beqb id (lit "ell") then
    [0x1F09; 0x1F0D; 0x1F19; 0x1F1D; 0x1F29; 0x1F2D; 0x1F39; 0x1F3D; 0x1F49; 0x1F4D; 0x1F59; 0x1F5D; 0x1F69; 0x1F6D]%N
  else [].
Definition spec_caseless (s : spec) : bool :=
  match s_script s with Geor => true | _ => case_ok (case_exceptions (l_id (s_lang s))) s end.
(** Also, the texts that describe the language are valid UTF-8 (C74), and a transliterator
    it uses is one of these (C73). *)
Definition known_translits : list bytes :=
  [lit "cyrillic[bg]"; lit "cyrillic[mk]"; lit "cyrillic[ru]"; lit "cyrillic[ua]"; lit "furigana"; lit "pinyin"].
Definition spec_described (s : spec) : bool :=
  let l := s_lang s in
  forallb valid_utf8 ([l_id l; fst (l_codes l); snd (l_codes l); l_english l; l_korean l; l_script l; c_stage (s_config s)] ++
                      l_translit l ++ c_authors (s_config s) ++ map fst (s_test s) ++ map snd (s_test s)) &&
  forallb (fun t => existsb (beqb t) known_translits) (l_translit l).
(** The language and the examples are safe in the address of the page (C78). *)
Definition link_safe_runes (rs : list rune) : bool :=
  forallb (fun r => negb (existsb (N.eqb r) [0x9; 0xA; 0xD; 0x23; 0x25; 0x26; 0x2B]%N)) rs &&
  match rev rs with r :: _ => (0x20 <? r)%N | [] => true end.
Definition spec_links (s : spec) : bool :=
  match l_id (s_lang s) with [] => false | _ => true end &&
  forallb (fun w => link_safe_runes (runes w)) (l_id (s_lang s) :: map fst (s_test s)).
(** Also, digits and letters of other scripts separate the words ([spec_separates], [spec_spaces],
    SeparateFacts.v, for C85). *)
(** Also, a comma stays ([spec_comma], SeparateFacts.v, for C96). *)
(** Also, the rules transcribe word by word, but for those for kana ([spec_words],
    WordSpec.v, for C95), except for these. *)
Definition word_exceptions : list bytes := [lit "cym"; lit "nld"; lit "wlm"].
Definition spec_phrases (s : spec) : bool :=
  match l_translit (s_lang s), s_script s with
  | [], _ => existsb (beqb (l_id (s_lang s))) word_exceptions || spec_words s
  | ts, Hrkt => forallb (beqb (lit "furigana")) ts
  | _, _ => spec_words s
  end.
(** Nor do those that need no furigana tell tabs and line breaks from spaces, but for the same three. *)
Definition spec_lines (s : spec) : bool :=
  match l_translit (s_lang s) with
  | [] => existsb (beqb (l_id (s_lang s))) word_exceptions || spec_even s
  | _ => spec_even s
  end.
Definition file_fits (e : bytes * bytes) : bool :=
  match parse_spec choices0 (snd e) with
  | Ok s => spec_ok s && (spec_fits (fst e) s && (spec_caseless s && (spec_described s && (spec_links s && (spec_separates s && (spec_spaces s && (spec_phrases s && (spec_comma s && spec_lines s))))))))
  | _ => false
  end.
Lemma bundled_fits : forallb file_fits bundled_files = true.
Proof. vm_compute; reflexivity. Qed.
Lemma bundled_checked : forallb (fun e => file_ok (snd e)) bundled_files = true.
Proof.
  apply forallb_forall; intros e Hin; pose proof bundled_fits as H; rewrite forallb_forall in H; specialize (H e Hin).
  unfold file_fits, file_ok in *; destruct (parse_spec choices0 (snd e)); try discriminate.
  apply andb_true_iff in H; apply H.
Qed.

Lemma choices0_ok : choices_ok choices0.
Proof. split; intros; apply Permutation.Permutation_refl. Qed.

Lemma file_ok_parses src c :
  file_ok src = true -> choices_ok c ->
  exists s0 s, parse_spec choices0 src = Ok s0 /\ parse_spec c src = Ok s /\ same_but_order s0 s /\
    unambiguous (s_normReplacer s0) /\ spec_numbered s /\ spec_works s.
Proof.
  unfold file_ok; intros Hf Hc; destruct (parse_spec choices0 src) as [s0| | | | |] eqn:E; try discriminate.
  unfold spec_ok in Hf.
  apply andb_true_iff in Hf; destruct Hf as [Hf _].
  apply andb_true_iff in Hf; destruct Hf as [Hf _].
  apply andb_true_iff in Hf; destruct Hf as [Hf Hr]; apply andb_true_iff in Hf; destruct Hf as [Hm Hn].
  apply unambiguousb_ok in Hm, Hn.
  destruct (parse_spec_choices choices0 c src s0 choices0_ok Hc E Hm) as (s & Es & Hs).
  destruct (parse_spec_rules _ _ _ Es) as [Hnum Hcomp].
  exists s0, s; split; [reflexivity|]; split; [exact Es|]; split; [exact Hs|]; split.
  { rewrite (parse_spec_replacer _ _ _ E); exact Hn. }
  split; [exact Hnum|]; apply spec_ok_works; [exact Hcomp|].
  destruct Hs as [-> _]; exact Hr.
Qed.

Lemma lookup_in {A} (m : list (bytes * A)) k v : lookup m k = Some v -> In (k, v) m.
Proof.
  induction m as [|[k' v'] m IH]; cbn [lookup]; [discriminate|].
  destruct (beqb k' k) eqn:E; intros H; [|right; auto].
  apply beqb_eq in E; injection H as <-; subst; left; reflexivity.
Qed.
Lemma in_lookup {A} (m : list (bytes * A)) k v : In (k, v) m -> exists v', lookup m k = Some v'.
Proof.
  induction m as [|[k' v'] m IH]; cbn [lookup]; [contradiction|].
  intros [E|H]; [injection E as -> ->; exists v; rewrite (proj2 (beqb_eq k k) eq_refl); reflexivity|].
  destruct (beqb k' k); [eexists; reflexivity|auto].
Qed.
Lemma bundled_file_ok path src : lookup bundled_files path = Some src -> file_ok src = true.
Proof.
  intros H; apply lookup_in in H; pose proof bundled_checked as Hb; rewrite forallb_forall in Hb.
  exact (Hb _ H).
Qed.

Fixpoint nodupb (l : list bytes) : bool :=
  match l with [] => true | x :: l' => negb (existsb (beqb x) l') && nodupb l' end.
Lemma nodupb_ok l : nodupb l = true -> NoDup l.
Proof.
  induction l as [|x l IH]; intros H; [constructor|]; cbn [nodupb] in H; apply andb_true_iff in H.
  destruct H as [H1 H2]; constructor; [|apply IH; exact H2].
  intros Hin; apply negb_true_iff in H1; rewrite <- not_true_iff_false in H1; apply H1.
  apply existsb_exists; exists x; split; [exact Hin|apply beqb_eq; reflexivity].
Qed.
Lemma bundled_flat : flat_files bundled_files.
Proof.
  split.
  - apply nodupb_ok; vm_compute; reflexivity.
  - unfold bundled_files; rewrite Forall_map; apply Forall_forall; intros e _; cbn [fst]; eexists; reflexivity.
Qed.

(** ** C05 Every bundled language loads

    For all iteration orders of the maps ([c]), whatever is cached ([specs]). *)
Theorem C05_loads : forall lang c specs,
  In lang (list_langs bundled_files) -> choices_ok c ->
  exists specs' s, load_spec bundled_files c specs lang = (specs', Ok s) /\
    lookup specs' lang = Some s /\
    (lookup specs lang = None ->
     exists src, In (specs_dir ++ lang ++ ext, src) bundled_files /\ parse_spec c src = Ok s).
Proof.
  intros lang c specs Hin Hc; unfold load_spec.
  destruct (lookup specs lang) as [s|] eqn:El; [exists specs, s; repeat split; [exact El|discriminate]|].
  apply (list_langs_in _ _ bundled_flat) in Hin; destruct Hin as (src0 & Hin).
  destruct (in_lookup _ _ _ Hin) as (src & Es); rewrite Es.
  destruct (file_ok_parses src c (bundled_file_ok _ _ Es) Hc) as (s0 & s & _ & Ep & _); rewrite Ep.
  exists ((lang, s) :: specs), s; repeat split.
  - cbn [lookup]; rewrite (proj2 (beqb_eq lang lang) eq_refl); reflexivity.
  - intros _; exists src; split; [apply lookup_in; exact Es|exact Ep].
Qed.
Print Assumptions C05_loads.

Example C05_example : length (list_langs bundled_files) = 40%nat /\ In (lit "ita") (list_langs bundled_files).
Proof. vm_compute; split; [reflexivity|]; repeat ((left; reflexivity) || right). Qed.

(** ** C06 Bundled languages never panic *)
Definition returns {A} (r : res A) : Prop := (exists a, r = Ok a) \/ (exists e, r = Err e).

Lemma transliterate_returns {W} schemes (reg : list (bytes * translit W)) w tr word :
  (forall sc t w x, In sc schemes -> lookup reg sc = Some t -> returns (snd (tl_run t w x))) ->
  returns (snd (transliterate schemes reg w tr word)).
Proof.
  revert w tr word; induction schemes as [|sc schemes IH]; intros w tr word Hr; cbn [transliterate].
  - left; eexists; reflexivity.
  - destruct (lookup reg sc) as [t|] eqn:El; [|right; eexists; reflexivity].
    pose proof (Hr sc t w word (or_introl eq_refl) El) as Ht.
    destruct (tl_run t w word) as [w1 r]; cbn [snd] in Ht.
    destruct Ht as [(x & ->)|(e & ->)]; [|right; eexists; reflexivity].
    apply IH; intros; eapply Hr; [right|]; eassumption.
Qed.
Lemma forward_returns {W} H s (reg : list (bytes * translit W)) on w word :
  spec_numbered s -> spec_works s ->
  (forall sc t w x, In sc (l_translit (s_lang s)) -> lookup reg sc = Some t -> returns (snd (tl_run t w x))) ->
  returns (snd (forward H s reg on w word)).
Proof.
  intros Hn Hw Ht; pose proof (forward_total H s reg on w word Hn Hw) as Hf.
  pose proof (transliterate_returns (l_translit (s_lang s)) reg w (trace_word (new_tracer on) SInput word []) word Ht) as Hr.
  destruct (forward H s reg on w word) as [[w1 tr1] r]; destruct (transliterate _ _ _ _ _) as [[w2 tr2] t].
  cbn [snd] in *; destruct Hf as [(out & mid & _ & ->)|[-> _]]; [left; eexists; reflexivity|exact Hr].
Qed.

(** Every bundled spec, as parsed in any iteration order, returns on every byte string as
    long as the transliterators it names return. *)
Theorem C06_returns : forall W (H : hangul_lib) path src c s (reg : list (bytes * translit W)) on w word w' tr r,
  In (path, src) bundled_files -> choices_ok c -> parse_spec c src = Ok s ->
  (forall sc t w x, In sc (l_translit (s_lang s)) -> lookup reg sc = Some t -> returns (snd (tl_run t w x))) ->
  forward H s reg on w word = (w', tr, r) ->
  (exists out, r = Ok out) \/ (exists sc, r = Err (ErrTranslit sc) \/ r = Err (ErrTranslitNotImported sc)).
Proof.
  intros W H path src c s reg on w word w' tr r Hin Hc Hp Ht E.
  assert (file_ok src = true) as Hf.
  { pose proof bundled_checked as Hb; rewrite forallb_forall in Hb; exact (Hb _ Hin). }
  destruct (file_ok_parses src c Hf Hc) as (s0 & s' & _ & Es & _ & _ & Hn & Hw).
  assert (s' = s) as -> by congruence.
  pose proof (forward_returns H s reg on w word Hn Hw Ht) as Hr; rewrite E in Hr; cbn [snd] in Hr.
  destruct Hr as [Hr|(e & ->)]; [left; exact Hr|right].
  destruct (forward_err _ _ _ _ _ _ _ _ _ E) as (sc & _ & [->|[-> _]]); exists sc; auto.
Qed.
Print Assumptions C06_returns.

(** Without transliterators the result is always a word. *)
Theorem C06_returns_word : forall W (H : hangul_lib) path src c s (reg : list (bytes * translit W)) on w word w' tr r,
  In (path, src) bundled_files -> choices_ok c -> parse_spec c src = Ok s -> l_translit (s_lang s) = [] ->
  forward H s reg on w word = (w', tr, r) -> exists out, r = Ok out.
Proof.
  intros W H path src c s reg on w word w' tr r Hin Hc Hp Hl E.
  destruct (C06_returns W H path src c s reg on w word w' tr r Hin Hc Hp) as [Hr|(sc & Hr)]; try assumption.
  - rewrite Hl; intros ? ? ? ? [].
  - exfalso; assert (exists e, r = Err e) as (e & ->) by (destruct Hr as [->| ->]; eexists; reflexivity).
    destruct (forward_err _ _ _ _ _ _ _ _ _ E) as (sc' & Hin' & _); rewrite Hl in Hin'; contradiction.
Qed.
Print Assumptions C06_returns_word.

Example C06_example : exists src s,
  In (specs_dir ++ lit "ita" ++ ext, src) bundled_files /\ parse_spec choices0 src = Ok s /\
  l_translit (s_lang s) = [] /\
  forward (W := unit) go_hangul s [] false tt (lit "Cappuccino, gnocchi!") = (tt, None, Ok (lit "카푸치노, 뇨키!")).
Proof.
  destruct (lookup bundled_files (specs_dir ++ lit "ita" ++ ext)) as [src|] eqn:E; [|vm_compute in E; discriminate].
  destruct (parse_spec choices0 src) as [s| | | | |] eqn:Es;
    try (pose proof (bundled_file_ok _ _ E) as Hf; unfold file_ok in Hf; rewrite Es in Hf; discriminate).
  exists src, s; split; [apply lookup_in; exact E|]; split; [exact Es|].
  assert (forall (P : spec -> Prop), (match lookup bundled_files (specs_dir ++ lit "ita" ++ ext) with
    | Some src => match parse_spec choices0 src with Ok s => P s | _ => False end | None => False end) -> P s) as Hcompute.
  { intros P; rewrite E, Es; auto. }
  split; [apply (Hcompute (fun s => l_translit (s_lang s) = []))|
          apply (Hcompute (fun s => forward (W := unit) go_hangul s [] false tt (lit "Cappuccino, gnocchi!")
                                    = (tt, None, Ok (lit "카푸치노, 뇨키!"))))]; vm_compute; reflexivity.
Qed.
