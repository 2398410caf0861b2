(** Properties C07, C50, C51 and C52: the phases between transliteration and localization. *)
From Coq Require Import String.
From Verif Require Import GoBase Utf8 Utf8Facts Unicode Replacer ReplacerFacts Regex Hre FindFacts Subword SubwordFacts Rule RuleFacts Scripts
  Hsl Spec SpecOrder LettersFacts Jamo Procedure ProcFacts ProcSem ProcLocal MaskFacts LocalizeFacts PropTrace BString Bundled
  Api PropBundled.
Open Scope Z_scope.

(** A character the spec speaks about: of its script, a punctuation of its rules, or a space. *)
Definition of_language (s : spec) (c : rune) : Prop :=
  script_is (s_script s) c = true \/ In c (s_puncts s) \/ is_space c = true.
Lemma of_language_meaningful s c : is_scalar c = true -> meaningful s c = true <-> of_language s c.
Proof.
  intros Hc; unfold meaningful, of_language.
  assert (has_space_only (encode_rune c) = is_space c) as ->.
  { unfold has_space_only; destruct (encode_rune c) eqn:E; [exfalso; exact (encode_rune_nonnil c E)|]; rewrite <- E.
    replace (encode_rune c) with (encode [c]) by (unfold encode; cbn; apply app_nil_r).
    rewrite runes_encode by (constructor; [exact Hc|constructor]); cbn; apply andb_true_r. }
  rewrite !orb_true_iff, nmem_in_iff; tauto.
Qed.
Lemma foreign_not_meaningful s rs :
  scalars rs -> Forall (fun c => ~ of_language s c) rs -> Forall (fun c => meaningful s c = false) rs.
Proof.
  unfold scalars; rewrite !Forall_forall; intros Hs Hn c Hin.
  destruct (meaningful s c) eqn:E; [|reflexivity]; exfalso; apply (Hn c Hin), of_language_meaningful; [apply Hs; exact Hin|exact E].
Qed.

(** ** C52 Partitioning is a faithful split *)
Definition partitioned (s : spec) (sw : subword) : Prop :=
  (sw_level sw = 1 /\ Forall (of_language s) (runes (sw_word sw))) \/
  (sw_level sw = 0 /\ Forall (fun c => ~ of_language s c) (runes (sw_word sw))).
Lemma partition_faithful s rs : scalars rs ->
  exists sws, partition s (encode rs) = Ok sws /\ concat (map sw_word sws) = encode rs /\
    Forall (partitioned s) sws /\ Forall (fun sw => sw_word sw <> []) sws /\ levels_alternate sws.
Proof.
  intros Hs; destruct (partition_cells s rs Hs) as (sws & E & Hc & Ha & Hn & Hu).
  exists sws; split; [exact E|]; split.
  { rewrite cells_text by exact Hu; rewrite Hc; unfold word_of; rewrite map_map; cbn [fst]; rewrite map_id; reflexivity. }
  split; [|split; assumption].
  apply Forall_forall; intros sw Hin.
  assert (forall c, In c (runes (sw_word sw)) -> In c rs /\ sw_level sw = if meaningful s c then 1 else 0) as Hcell.
  { intros c Hcin; assert (In (c, sw_level sw) (cells_of sws)) as Hx.
    { apply in_flat_map; exists sw; split; [exact Hin|apply in_map_iff; exists c; auto]. }
    rewrite Hc in Hx; apply in_map_iff in Hx; destruct Hx as (c' & Ec & Hin'); injection Ec as -> <-; auto. }
  unfold scalars in Hs; rewrite Forall_forall in Hs, Hn; unfold partitioned; rewrite !Forall_forall.
  destruct (runes (sw_word sw)) as [|c0 cs] eqn:Er; [exfalso; apply (Hn sw Hin), runes_nil_inv; exact Er|].
  destruct (Hcell c0 (or_introl eq_refl)) as [_ E0]; destruct (meaningful s c0) eqn:E1; [left|right]; (split; [exact E0|]);
    intros c Hcin; destruct (Hcell c Hcin) as [Hr El]; rewrite <- (of_language_meaningful s c (Hs _ Hr));
    destruct (meaningful s c); congruence.
Qed.
Theorem C52_partition : forall s word, utf8_text word ->
  exists sws, partition s word = Ok sws /\ concat (map sw_word sws) = word /\
    Forall (partitioned s) sws /\ Forall (fun sw => sw_word sw <> []) sws /\ levels_alternate sws.
Proof. intros s word (rs & Hs & ->); apply partition_faithful; exact Hs. Qed.
Print Assumptions C52_partition.

(** The word that is partitioned is always such a text. *)
Theorem C52_normalized_text : forall s tr word, utf8_text (snd (normalize s tr word)).
Proof. intros s tr word; apply encode_utf8_text. Qed.
Print Assumptions C52_normalized_text.

(** [ex_spec] (PropTrace.v) is Latin and has no punctuation in its rules. *)
Definition pieces_of (r : res (list subword)) : list (bytes * Z) :=
  match r with Ok sws => map (fun sw => (sw_word sw, sw_level sw)) sws | _ => [] end.
Example C52_example :
  pieces_of (partition ex_spec (lit "ab ж!cd")) = [(lit "ab ", 1); (lit "ж!", 0); (lit "cd", 1)].
Proof. vm_compute; reflexivity. Qed.

(** ** C51 Rewriting is sequential composition

    [sequence rules w w'] (ProcSem.v): [w'] comes from [w] by Rule.Replace of each rule, one
    after another. The text after the step is the concatenation of the results (a string
    made of invalid UTF-8 would be sanitized by the loop over its characters). *)
Theorem C51_sequential : forall c src s tr sws tr' out,
  parse_spec c src = Ok s -> rewrite s tr sws = Ok (tr', out) ->
  exists ws, Forall2 (fun sw w => sequence (s_rewrite s) (sw_word sw) w) sws ws /\
    concat (map sw_word out) = concat (map (fun w => encode (runes w)) ws).
Proof.
  intros c src s tr sws tr' out Hp; apply rewrite_sequential; apply (proj1 (parse_spec_rules _ _ _ Hp)).
Qed.
Print Assumptions C51_sequential.
(** Conversely the step returns when the composition is defined. *)
Theorem C51_returns : forall s sws ws,
  Forall2 (fun sw w => sequence (s_rewrite s) (sw_word sw) w) sws ws ->
  exists out, rewrite s None sws = Ok (None, out).
Proof. exact sequential_rewrite. Qed.
Print Assumptions C51_returns.

(** The second rule applies to what the first one made. *)
Example C51_example :
  match rewrite ex_spec None [{| sw_word := lit "abe"; sw_level := 1 |}; {| sw_word := lit "!"; sw_level := 0 |}] with
  | Ok (_, out) => pieces_of (Ok out)
  | _ => []
  end = [(lit "de", 1); (lit "!", 0)].
Proof. vm_compute; reflexivity. Qed.

(** ** C07 Text outside of the language passes through unchanged *)

(** A word made of foreign characters only: the result is the localized word. [occurs]
    (ProcLocal.v) is plain substring; a normalization source that occurs in the word would
    be replaced, whatever its script. *)
Theorem C07_foreign : forall W (H : hangul_lib) s (reg : list (bytes * translit W)) w rs,
  l_translit (s_lang s) = [] -> scalars rs -> rs <> [] ->
  Forall (fun c => ~ of_language s c) rs ->
  (forall k v, In (k, v) (s_normReplacer s) -> ~ occurs k (encode rs)) ->
  Forall (fun r => find (rule_from r) (encode rs) (-1) = Ok []) (s_rewrite s) ->
  forward H s reg false w (encode rs) = (w, None, Ok (localize_word (s_script s) (encode rs))).
Proof.
  intros W H s reg w rs Ht Hs Hn Hf Hk Hu; apply foreign_not_meaningful in Hf; [|exact Hs].
  unfold forward; rewrite Ht; cbn [transliterate new_tracer trace_word emit].
  rewrite after_translit_inner, normalize_foreign by assumption.
  assert (inner H s (encode rs) = Ok (encode rs)) as ->; [|reflexivity].
  replace rs with ([] ++ rs ++ []) at 1 by apply app_nil_r.
  apply inner_around; try assumption; try constructor.
  - intros p c E; destruct p; discriminate.
  - intros c p E; discriminate.
  - exists [], []; rewrite app_nil_r; repeat split.
Qed.
Print Assumptions C07_foreign.

(** Without punctuation and U+200B it comes out as it went in. *)
Theorem C07_identity : forall W (H : hangul_lib) s (reg : list (bytes * translit W)) w rs,
  l_translit (s_lang s) = [] -> scalars rs -> rs <> [] ->
  Forall (fun c => ~ of_language s c /\ is_punct c = false /\ c <> 0x200B%N) rs ->
  (forall k v, In (k, v) (s_normReplacer s) -> ~ occurs k (encode rs)) ->
  Forall (fun r => find (rule_from r) (encode rs) (-1) = Ok []) (s_rewrite s) ->
  forward H s reg false w (encode rs) = (w, None, Ok (encode rs)).
Proof.
  intros W H s reg w rs Ht Hs Hn Hf Hk Hu.
  rewrite C07_foreign; try assumption.
  - unfold localize_word; rewrite runes_encode by exact Hs; rewrite localize_plain; [reflexivity|].
    eapply Forall_impl; [|exact Hf]; cbv beta; tauto.
  - eapply Forall_impl; [|exact Hf]; cbv beta; tauto.
Qed.
Print Assumptions C07_identity.

(** A foreign run between other text: the result is that of the text before it, the run,
    and that of the text after it, localized as a whole. [inner] (ProcLocal.v) is everything
    between normalization and localization. *)
Theorem C07_between : forall W (H : hangul_lib) s (reg : list (bytes * translit W)) w word a run b out,
  l_translit (s_lang s) = [] ->
  snd (normalize s None word) = encode (a ++ run ++ b) ->
  scalars a -> scalars run -> scalars b -> run <> [] ->
  Forall (fun c => ~ of_language s c) run ->
  (forall p c, a = p ++ [c] -> of_language s c) -> (forall c p, b = c :: p -> of_language s c) ->
  Forall (fun r => find (rule_from r) (encode run) (-1) = Ok []) (s_rewrite s) ->
  forward H s reg false w word = (w, None, Ok out) <->
  exists x y, inner H s (encode a) = Ok x /\ inner H s (encode b) = Ok y /\
    out = localize_word (s_script s) (x ++ encode run ++ y).
Proof.
  intros W H s reg w word a run b out Ht Hnorm Sa Sr Sb Hn Hf Ha Hb Hu.
  apply foreign_not_meaningful in Hf; [|exact Sr].
  assert (edge_meaningful s a b) as He.
  { split.
    - intros p c E; apply of_language_meaningful; [|eapply Ha; exact E].
      unfold scalars in Sa; rewrite E in Sa; apply Forall_app in Sa; destruct Sa as [_ Sa]; inversion Sa; assumption.
    - intros c p E; apply of_language_meaningful; [|eapply Hb; exact E].
      unfold scalars in Sb; rewrite E in Sb; inversion Sb; assumption. }
  pose proof (fun z => inner_around H s a run b z Sa Sr Sb Hn Hf He Hu) as Hin.
  unfold forward; rewrite Ht; cbn [transliterate new_tracer trace_word emit].
  rewrite after_translit_inner, Hnorm.
  split.
  - intros E; destruct (inner H s (encode (a ++ run ++ b))) as [z| | | | |]; cbn [bind map_res] in E; try discriminate.
    injection E as <-; destruct (proj1 (Hin z) eq_refl) as (x & y & Hx & Hy & ->); exists x, y; auto.
  - intros (x & y & Hx & Hy & ->).
    rewrite (proj2 (Hin (x ++ encode run ++ y))) by (exists x, y; auto); reflexivity.
Qed.
Print Assumptions C07_between.

(** Cyrillic in an English-like spec; the dash is punctuation and survives localization. *)
Definition ex_src7 : bytes := lit
"lang:
 id = x
 codes = x, xx
 english = X
 korean = X
 script = Latn
normalize:
 q = á
rewrite:
 ab -> c
transcribe:
 c -> 가
".
Definition ex_spec7 : spec := or_empty (parse_spec choices0 ex_src7).
Lemma not_language s c :
  script_is (s_script s) c || nmem c (s_puncts s) || is_space c = false -> ~ of_language s c.
Proof.
  rewrite !orb_false_iff; intros [[H1 H2] H3] [H|[H|H]]; try congruence.
  apply nmem_in_iff in H; congruence.
Qed.
Lemma no_matches rules word :
  forallb (fun r => match find (rule_from r) word (-1) with Ok [] => true | _ => false end) rules = true ->
  Forall (fun r => find (rule_from r) word (-1) = Ok []) rules.
Proof.
  intros Hb; rewrite forallb_forall in Hb; apply Forall_forall; intros r Hr; specialize (Hb r Hr).
  destruct (find (rule_from r) word (-1)) as [[|m l]| | | | |]; try discriminate; reflexivity.
Qed.
Example C07_example :
  parse_spec choices0 ex_src7 = Ok ex_spec7 /\
  let word := lit "ж-жщ" in
  word = encode (runes word) /\
  Forall (fun c => ~ of_language ex_spec7 c) (runes word) /\
  Forall (fun r => find (rule_from r) word (-1) = Ok []) (s_rewrite ex_spec7) /\
  forward (W := unit) go_hangul ex_spec7 [] false tt word = (tt, None, Ok word) /\
  forward (W := unit) go_hangul ex_spec7 [] false tt (lit "abжщab") = (tt, None, Ok (lit "가жщ가")).
Proof.
  cbv zeta; split; [vm_compute; reflexivity|]; split; [vm_compute; reflexivity|]; split.
  { repeat (constructor; [apply not_language; vm_compute; reflexivity|]); constructor. }
  split; [|split; vm_compute; reflexivity].
  apply no_matches; vm_compute; reflexivity.
Qed.

(** ** C50 Transcription does not re-transcribe its own output

    A [marked] text tells of each byte whether a rule has produced it. [transcribes] applies
    the rules one after another to what is [visible], NUL for each produced byte, and asks
    that each replaced range is [fresh], unproduced (MaskFacts.v). *)

(** With rules that are safe and match no NUL, the step does just that. *)
Theorem C50_fresh_partial : forall rules n i sws buf recs buf' recs',
  Forall unseen rules -> transcribe_loop false n rules i sws buf recs = Ok (buf', recs') ->
  exists outs, buf' = buf ++ concat outs /\
    Forall2 (fun sw out =>
      (sw_level sw = 0 -> out = [sw]) /\
      (sw_level sw <> 0 ->
       exists m, transcribes rules (map (fun b => (b, false)) (sw_word sw)) m /\
         concat (map sw_word out) = encode (runes (map fst m)))) sws outs.
Proof.
  intros rules n i sws buf recs buf' recs' Hu E; rewrite transcribe_loop_plain in E.
  destruct (mapm _ sws) as [outs| | | | |] eqn:Em; cbn [bind] in E; try discriminate.
  injection E as <- _; exists outs; split; [reflexivity|].
  apply mapm_forall2 in Em; clear -Hu Em; induction Em as [|sw o sws outs Ho Em IH]; constructor; [|exact IH].
  split; intros Hl; [|apply transcribe_piece_marked; assumption].
  unfold transcribe_piece in Ho; apply Z.eqb_eq in Hl; rewrite Hl in Ho; injection Ho as <-; reflexivity.
Qed.
Print Assumptions C50_fresh_partial.

(** All transcribe rules of the bundled languages are of that kind. *)
Theorem C50_bundled : forall path src c s,
  lookup bundled_files path = Some src -> choices_ok c -> parse_spec c src = Ok s -> Forall unseen (s_transcribe s).
Proof.
  intros path src c s Hl Hc Hp.
  pose proof (bundled_file_ok _ _ Hl) as Hf; unfold file_ok in Hf.
  destruct (parse_spec choices0 src) as [s0| | | | |] eqn:E0; try discriminate.
  unfold spec_ok in Hf.
  apply andb_true_iff in Hf; destruct Hf as [Hf _].
  apply andb_true_iff in Hf; destruct Hf as [Hf Hnn]; apply andb_true_iff in Hf; destruct Hf as [Hf Hr].
  apply andb_true_iff in Hf; destruct Hf as [Hm _]; apply unambiguousb_ok in Hm.
  destruct (parse_spec_choices choices0 c src s0 choices0_ok Hc E0 Hm) as (s' & Es & Ho & _).
  rewrite Hp in Es; apply ok_inj in Es; subst s'.
  destruct (parse_spec_rules _ _ _ Hp) as [_ Hcomp]; apply Forall_app in Hcomp; destruct Hcomp as [_ Hcomp].
  rewrite forallb_app in Hr; apply andb_true_iff in Hr; destruct Hr as [_ Hr].
  assert (s_transcribe s = s_transcribe s0) as Et by (rewrite Ho; reflexivity).
  rewrite <- Et in *; rewrite forallb_forall in Hr, Hnn; rewrite Forall_forall in *; intros r Hin.
  split; [apply Hcomp; exact Hin|split; [apply Hr; exact Hin|apply Hnn; exact Hin]].
Qed.
Print Assumptions C50_bundled.

(** The statement is false for a rule with a dot: it matches the mask. *)
Definition ex_src50 : bytes := lit
"lang:
 id = x
 codes = x, xx
 english = X
 korean = X
 script = Latn
transcribe:
 a -> 가
 ""."" -> ""나""
".
Definition ex_spec50 : spec := or_empty (parse_spec choices0 ex_src50).
Theorem C50_dot_refuted : exists c src s r1 r2 word,
  parse_spec c src = Ok s /\ s_transcribe s = [r1; r2] /\
  (exists repls repls2,
    let m := map (fun b => (b, false)) word in
    replacements r1 (visible m) = Ok repls /\ Forall (fresh m) repls /\
    replacements r2 (visible (edit m 0 repls)) = Ok repls2 /\ ~ Forall (fresh (edit m 0 repls)) repls2) /\
  forward (W := unit) go_hangul s [] false tt word = (tt, None, Ok (lit "나나나")).
Proof.
  assert (exists r1 r2, s_transcribe ex_spec50 = [r1; r2] /\
            replacements r1 (lit "a") = Ok [{| rp_start := 0; rp_stop := 1; rp_word := lit "가" |}] /\
            exists y, replacements r2 [0; 0; 0]%N = Ok ({| rp_start := 0; rp_stop := 1; rp_word := lit "나" |} :: y)) as (r1 & r2 & Et & E1 & y & E2).
  { eexists _, _; split; [vm_compute; reflexivity|]; split; [vm_compute; reflexivity|]; eexists; vm_compute; reflexivity. }
  exists choices0, ex_src50, ex_spec50, r1, r2, (lit "a"); split; [vm_compute; reflexivity|]; split; [exact Et|]; split.
  - eexists _, _; split; [exact E1|]; split.
    + constructor; [|constructor]; unfold fresh; cbn; split; [lia|]; split; [lia|].
      intros i b Hi; assert (i = 0%nat) as -> by lia; discriminate.
    + split; [exact E2|]; intros Hf; inversion Hf as [|? ? (_ & _ & Hx) _]; subst.
      apply (Hx 0%nat 0xEA%N); [cbn; lia|reflexivity].
  - vm_compute; reflexivity.
Qed.
Print Assumptions C50_dot_refuted.

(** The rules of [ex_spec] are of the good kind; the 나 of the second rule stays. *)
Definition ex_src50b : bytes := lit
"lang:
 id = x
 codes = x, xx
 english = X
 korean = X
 script = Latn
transcribe:
 a -> 나b
 b -> 가
".
Definition ex_spec50b : spec := or_empty (parse_spec choices0 ex_src50b).
Example C50_example :
  Forall unseen (s_transcribe ex_spec50b) /\
  forward (W := unit) go_hangul ex_spec50b [] false tt (lit "bab") = (tt, None, Ok (lit "가나b가")).
Proof.
  split; [|vm_compute; reflexivity].
  assert (parse_spec choices0 ex_src50b = Ok ex_spec50b) as E by (vm_compute; reflexivity).
  destruct (parse_spec_rules _ _ _ E) as [_ Hc]; apply Forall_app in Hc; destruct Hc as [_ Hc].
  assert (forallb (fun r => rule_ok r && no_nul (rule_from r)) (s_transcribe ex_spec50b) = true) as Hb by (vm_compute; reflexivity).
  rewrite forallb_forall in Hb; rewrite Forall_forall in *; intros r Hin; specialize (Hb r Hin).
  apply andb_true_iff in Hb; split; [apply Hc; exact Hin|exact Hb].
Qed.
