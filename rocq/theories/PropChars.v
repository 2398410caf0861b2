(** Properties C58 and C59: where the characters of the result come from. *)
From Coq Require Import String.
From Verif Require Import GoBase Utf8 Utf8Facts UniTables Unicode Replacer ReplacerFacts Regex Hre Subword Rule RuleFacts Scripts Spec SpecOrder LettersFacts Jamo JamoFacts
  Procedure ProcFacts LocalizeFacts ProcLocal MaskFacts ProcChars PropTrace BString Bundled Api PropBundled PropProc.
Open Scope Z_scope.

(** ** What the check of the bundled files says about the rules *)
Lemma bundled_rules path src c s :
  lookup bundled_files path = Some src -> choices_ok c -> parse_spec c src = Ok s ->
  spec_numbered s /\ Forall good_rule (s_rewrite s) /\ Forall good_transcribe (s_transcribe s) /\
  forallb closed_rule (s_transcribe s) = true /\
  forall ch, char_of (flat_map rule_texts (s_transcribe s)) ch -> text_char (s_script s) ch = true.
Proof.
  intros Hl Hc Hp; pose proof (bundled_file_ok _ _ Hl) as Hf; unfold file_ok in Hf.
  destruct (parse_spec choices0 src) as [s0| | | | |] eqn:E0; try discriminate.
  unfold spec_ok in Hf.
  apply andb_true_iff in Hf; destruct Hf as [Hf Ht]; apply andb_true_iff in Hf; destruct Hf as [Hf Hnn].
  apply andb_true_iff in Hf; destruct Hf as [Hf Hr]; apply andb_true_iff in Hf; destruct Hf as [Hm _].
  apply unambiguousb_ok in Hm.
  destruct (parse_spec_choices choices0 c src s0 choices0_ok Hc E0 Hm) as (s' & Es & Ho & _).
  rewrite Hp in Es; apply ok_inj in Es; subst s'.
  assert (s_transcribe s = s_transcribe s0) as Et by (rewrite Ho; reflexivity).
  assert (s_rewrite s = s_rewrite s0) as Ew by (rewrite Ho; reflexivity).
  assert (s_script s = s_script s0) as Ec by (rewrite Ho; reflexivity).
  unfold texts_ok in Ht; rewrite <- Et, <- ?Ew, <- ?Ec in *; clear Ho Et Ew Ec E0 Hm s0.
  apply andb_true_iff in Ht; destruct Ht as [Ht Hch]; apply andb_true_iff in Ht; destruct Ht as [Hu Hcl].
  destruct (parse_spec_rules _ _ _ Hp) as [Hnum Hcomp]; apply Forall_app in Hcomp; destruct Hcomp as [Hc1 Hc2].
  rewrite forallb_app in Hr, Hu; apply andb_true_iff in Hr, Hu; destruct Hr as [Hr1 Hr2], Hu as [Hu1 Hu2].
  rewrite forallb_forall in Hr1, Hr2, Hu1, Hu2, Hnn, Hch; rewrite Forall_forall in Hc1, Hc2.
  assert (forall r, forallb valid_utf8 (rule_texts r) = true -> Forall utf8_text (rule_texts r)) as Hv.
  { intros r Hv; rewrite forallb_forall in Hv; apply Forall_forall; intros t Hin; apply valid_utf8_text, Hv, Hin. }
  split; [exact Hnum|]; split; [apply Forall_forall; intros r Hin; repeat split; auto|].
  split; [apply Forall_forall; intros r Hin; repeat split; auto|]; split; [exact Hcl|].
  intros ch (t & Hin & Hr); apply in_flat_map in Hin; destruct Hin as (r & Hin & Hrt).
  specialize (Hch r Hin); rewrite forallb_forall in Hch; specialize (Hch t Hrt); rewrite forallb_forall in Hch; auto.
Qed.

(** No script of the package has a Hangul syllable among its letters. *)
Lemma ranges_apart tab c :
  forallb (fun r => (snd r <? 0xAC00)%N || (0xD7A3 <? fst r)%N) tab = true -> is_syllable c = true -> in_ranges tab c = false.
Proof.
  intros Ht Hc; unfold is_syllable in Hc; induction tab as [|[lo hi] tab IH]; [reflexivity|].
  cbn [forallb fst snd in_ranges] in *; apply andb_true_iff in Ht; destruct Ht as [Ht1 Ht2].
  destruct (N.ltb_spec c lo); [reflexivity|]; destruct (N.leb_spec c hi); [exfalso; lia|auto].
Qed.
Lemma syllable_no_letter sc c : is_syllable c = true -> script_is sc c = false.
Proof.
  intros Hc; destruct sc; cbn [script_is]; unfold is_mark;
    repeat rewrite (ranges_apart _ c) by (try exact Hc; vm_compute; reflexivity); try reflexivity.
  destruct (N.eqb_spec c 0x30FC) as [->|_]; [vm_compute in Hc; discriminate|reflexivity].
Qed.
Lemma punct_no_letter sc c :
  In c [0x20; 0x2E; 0x2C; 0x3A; 0x21; 0x3F; 0x7E; 0x27; 0x22]%N -> script_is sc c = false.
Proof. cbn [In]; intros Hin; repeat (destruct Hin as [<-|Hin]; [destruct sc; vm_compute; reflexivity|]); destruct Hin. Qed.

(** ** C58 No letter of the source script reaches the result

    For every bundled language, order of the maps, registered transliterators, word, and
    Hangul library that satisfies the laws. *)
Theorem C58_no_leak : forall W (H : hangul_lib) path src c s (reg : list (bytes * translit W)) on w word w' tr out ch,
  hangul_laws H -> (forall r, (r < 128)%N -> hl_is_hangul H r = false) ->
  lookup bundled_files path = Some src -> choices_ok c -> parse_spec c src = Ok s ->
  forward H s reg on w word = (w', tr, Ok out) ->
  In ch (runes out) -> script_is (s_script s) ch = false.
Proof.
  intros W H path src c s reg on w word w' tr out ch laws ascii Hl Hc Hp E Hin.
  destruct (bundled_rules _ _ _ _ Hl Hc Hp) as (Hn & Hrw & Htr & Hcl & Htx).
  destruct (forward_closed H s reg on w word w' tr out laws ascii Hn Hrw Htr Hcl E) as (mid & _ & Hch).
  destruct (Hch ch Hin) as (b & y & a & Hy & Hs); apply localized_char in Hy.
  destruct Hy as [->|[_ Hy]]; [|apply punct_no_letter; exact Hy].
  destruct Hs as [[_ Hm]|[Hs|[->|(_ & _ & Ht)]]].
  - unfold meaningful in Hm; apply orb_false_iff in Hm; destruct Hm as [Hm _]; apply orb_false_iff in Hm; apply Hm.
  - apply syllable_no_letter; exact Hs.
  - apply punct_no_letter; left; reflexivity.
  - apply Htx in Ht; unfold text_char in Ht; apply andb_true_iff in Ht; destruct Ht as [Ht _]; apply negb_true_iff; exact Ht.
Qed.
Print Assumptions C58_no_leak.

(** The same for any spec and any Hangul library: a letter of the script in the result was
    written by a transcribe rule, or is one that the library joins from parts. The rules
    have to be safe ([good_rule], [good_transcribe]: ProcChars.v). *)
Theorem C58_source_partial : forall W (H : hangul_lib) s (reg : list (bytes * translit W)) on w word w' tr out ch,
  spec_numbered s -> Forall good_rule (s_rewrite s) -> Forall good_transcribe (s_transcribe s) ->
  forward H s reg on w word = (w', tr, Ok out) ->
  In ch (runes out) -> script_is (s_script s) ch = true ->
  (exists r t, In r (s_transcribe s) /\ In t (rule_texts r) /\ In ch (runes t)) \/
  (exists l m t, ch = fix_rune (hl_join H l m t)).
Proof.
  intros W H s reg on w word w' tr out ch Hn Hrw Htr E Hin Hsc.
  destruct (forward_chars H s reg on w word w' tr out Hn Hrw Htr E) as (mid & _ & Hch).
  destruct (Hch ch Hin) as (b & y & a & Hy & Hs); apply localized_char in Hy.
  destruct Hy as [->|[_ Hy]]; [|rewrite (punct_no_letter _ _ Hy) in Hsc; discriminate].
  destruct Hs as [[_ Hm]|[->|[Ht|Hj]]].
  - unfold meaningful in Hm; rewrite Hsc in Hm; discriminate.
  - rewrite (punct_no_letter _ 0x20%N (or_introl eq_refl)) in Hsc; discriminate.
  - left; destruct Ht as (t & Hin' & Ht); apply in_flat_map in Hin'; destruct Hin' as (r & Hr & Hrt); exists r, t; auto.
  - right; exact Hj.
Qed.
Print Assumptions C58_source_partial.

(** ** C59 Only Hangul is written

    Every character of a result is a Hangul syllable, a space, an apostrophe, a character of
    the input (after transliteration and normalization) that is neither a letter of the
    script nor punctuation the rules know, or, in Japanese, Korean punctuation. *)
Theorem C59_only_hangul : forall W (H : hangul_lib) path src c s (reg : list (bytes * translit W)) on w word w' tr out,
  hangul_laws H -> (forall r, (r < 128)%N -> hl_is_hangul H r = false) ->
  lookup bundled_files path = Some src -> choices_ok c -> parse_spec c src = Ok s ->
  forward H s reg on w word = (w', tr, Ok out) ->
  exists mid, snd (transliterate (l_translit (s_lang s)) reg w None word) = Ok mid /\
    forall ch, In ch (runes out) ->
      (0xAC00 <= ch <= 0xD7A3)%N \/ ch = 0x20%N \/ ch = 0x27%N \/
      (In ch (runes (snd (normalize s None mid))) /\ ~ of_language s ch) \/
      (s_script s = Hrkt /\ In ch [0x2E; 0x2C; 0x3A; 0x21; 0x3F; 0x7E; 0x22]%N).
Proof.
  intros W H path src c s reg on w word w' tr out laws ascii Hl Hc Hp E.
  destruct (bundled_rules _ _ _ _ Hl Hc Hp) as (Hn & Hrw & Htr & Hcl & Htx).
  destruct (forward_closed H s reg on w word w' tr out laws ascii Hn Hrw Htr Hcl E) as (mid & Em & Hch).
  exists mid; split; [exact Em|]; intros ch Hin.
  destruct (Hch ch Hin) as (b & y & a & Hy & Hs); apply localized_char in Hy.
  destruct Hy as [->|[Hsc Hy]].
  - destruct Hs as [[Hin' Hm]|[Hs|[->|(Ha & Hd & Ht)]]].
    + right; right; right; left; split; [exact Hin'|]; intros Ho; apply of_language_meaningful in Ho; [congruence|].
      pose proof (runes_scalar (snd (normalize s None mid))) as Hs; unfold scalars in Hs; rewrite Forall_forall in Hs; apply Hs; exact Hin'.
    + left; unfold is_syllable in Hs; lia.
    + auto.
    + right; right; left; apply Htx in Ht; unfold text_char in Ht; lia.
  - cbn [In] in *; intuition auto 12.
Qed.
Print Assumptions C59_only_hangul.

(** A bundled language at work: letters, rule punctuation, foreign letters and digits. *)
Example C59_example : exists src s,
  lookup bundled_files (specs_dir ++ lit "ita" ++ ext) = Some src /\ parse_spec choices0 src = Ok s /\
  (forall r, (r < 128)%N -> hl_is_hangul go_hangul r = false) /\
  forward (W := unit) go_hangul s [] false tt (lit "gnocchi-жq 7 né!") = (tt, None, Ok (lit "뇨키-ж크 7 네!")).
Proof.
  destruct (lookup bundled_files (specs_dir ++ lit "ita" ++ ext)) as [src|] eqn:E; [|vm_compute in E; discriminate].
  destruct (parse_spec choices0 src) as [s| | | | |] eqn:Es;
    try (pose proof (bundled_file_ok _ _ E) as Hf; unfold file_ok in Hf; rewrite Es in Hf; discriminate).
  exists src, s; split; [reflexivity|]; split; [exact Es|].
  split; [intros r Hr; cbn; unfold gh_is_hangul, gh_is_jaeum, gh_is_moeum, in_rg; lia|].
  assert (forall (P : spec -> Prop), (match lookup bundled_files (specs_dir ++ lit "ita" ++ ext) with
    | Some src => match parse_spec choices0 src with Ok s => P s | _ => False end | None => False end) -> P s) as Hcompute.
  { intros P; rewrite E, Es; auto. }
  apply (Hcompute (fun s => forward (W := unit) go_hangul s [] false tt (lit "gnocchi-жq 7 né!")
                                    = (tt, None, Ok (lit "뇨키-ж크 7 네!")))); vm_compute; reflexivity.
Qed.

(** A letter that a transcribe rule writes does reach the result, in a spec of one's own. *)
Definition ex_src58 : bytes := lit
"lang:
 id = x
 codes = x, xx
 english = X
 korean = X
 script = Latn
transcribe:
 a -> 가x
 b -> ""ㄴㅏ""
".
Definition ex_spec58 : spec := or_empty (parse_spec choices0 ex_src58).
Example C58_source_example :
  parse_spec choices0 ex_src58 = Ok ex_spec58 /\
  Forall good_rule (s_rewrite ex_spec58) /\ Forall good_transcribe (s_transcribe ex_spec58) /\
  forward (W := unit) go_hangul ex_spec58 [] false tt (lit "abcx") = (tt, None, Ok (lit "가x나")) /\
  script_is (s_script ex_spec58) 0x78%N = true.
Proof.
  assert (parse_spec choices0 ex_src58 = Ok ex_spec58) as E by (vm_compute; reflexivity).
  split; [exact E|]; split; [constructor|]; split; [|vm_compute; split; reflexivity].
  destruct (parse_spec_rules _ _ _ E) as [_ Hc]; apply Forall_app in Hc; destruct Hc as [_ Hc].
  assert (forallb (fun r => rule_ok r && forallb valid_utf8 (rule_texts r) && no_nul (rule_from r)) (s_transcribe ex_spec58) = true)
    as Hb by (vm_compute; reflexivity).
  rewrite forallb_forall in Hb; rewrite Forall_forall in *; intros r Hin; specialize (Hb r Hin).
  apply andb_true_iff in Hb; destruct Hb as [Hb H3]; apply andb_true_iff in Hb; destruct Hb as [H1 H2].
  split; [split; [apply Hc; exact Hin|split; [exact H1|]]|exact H3].
  rewrite forallb_forall in H2; apply Forall_forall; intros t Ht; apply valid_utf8_text, H2, Ht.
Qed.
