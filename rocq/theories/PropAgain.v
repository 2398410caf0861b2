(** C93: Transcribing a result again. *)
From Coq Require Import String Lia.
From Verif Require Import GoBase Utf8 Utf8Facts UniTables Unicode Replacer ReplacerFacts Regex Hre Subword SubwordFacts Rule Scripts Hsl Spec SpecOrder Jamo JamoFacts Procedure
  ProcFacts ProcSem ProcLocal ProcChars CaseFacts LocalizeFacts LettersFacts ScriptFacts SeparateFacts BString Bundled Api ApiFacts PropBundled PropProc PropChars PropSplit.
Open Scope Z_scope.

(** ** Spaces alone *)
Definition one (w : bytes) : subword := {| sw_word := w; sw_level := 1 |}.

Lemma one_piece run sws : scalars run -> run <> [] ->
  cells_of sws = map (fun c => (c, 1)) run -> levels_alternate sws ->
  Forall (fun sw => sw_word sw <> []) sws -> Forall (fun sw => utf8_text (sw_word sw)) sws -> sws = [one (encode run)].
Proof.
  intros Hs Hn Hc Ha Hne Hu; apply cells_unique; try assumption.
  - rewrite Hc; unfold cells_of; cbn [flat_map sw_word sw_level one]; rewrite app_nil_r, runes_encode by exact Hs; reflexivity.
  - exact I.
  - constructor; [|constructor]; cbn [sw_word one]; intros Er; apply Hn, encode_nil_inv; exact Er.
  - constructor; [|constructor]; apply encode_utf8_text.
Qed.

Lemma untouched_transcribe n rules i word rep dum recs :
  untouched rules word -> rep_wf rep -> rep_wf dum -> rr_word dum = word ->
  transcribe_rules false n rules i word rep dum recs = Ok (rep, recs).
Proof.
  intros Hu; revert rep dum; induction Hu as [|r rules Hr Hu IH]; intros rep dum Hw Hd Ed; cbn [transcribe_rules]; [reflexivity|].
  unfold replacements at 1; rewrite Hr; cbn [bind rule_repls map].
  assert (forall r0, rep_wf r0 -> replacer_string (replace_by r0 []) = Ok (r0, rr_word r0)) as Hnone.
  { intros [w rp lv nx] [Hl Hr']; cbn [rr_repls rr_word rr_levels] in *; subst.
    unfold replace_by, replacer_string, commit; cbn [rr_repls rr_word rr_levels rr_next app commit_loop]; rewrite !slice_all; reflexivity. }
  rewrite !Hnone by assumption; cbn [bind record_subword negb]; rewrite Ed; apply IH; assumption.
Qed.

Lemma rewrite_spaces rules run : scalars run -> run <> [] -> untouched rules (encode run) ->
  rewrite_piece rules (one (encode run)) = Ok [one (encode run)].
Proof.
  intros Hs Hn Hu; unfold rewrite_piece; cbn [sw_word sw_level one].
  rewrite untouched_rules by (try assumption; try reflexivity; apply new_replacer_wf); cbn [bind].
  rewrite new_replacer_cells.
  destruct (replacer_subwords_ok (map (fun c => (c, 1)) run) 1) as (sws & E & Hc & Ha & Hne & Hu').
  { unfold scalar_cells; rewrite map_map; cbn [fst]; rewrite map_id; exact Hs. }
  rewrite E; cbn [bind]; f_equal; apply one_piece; assumption.
Qed.
Lemma transcribe_spaces rules run : scalars run -> run <> [] -> untouched rules (encode run) ->
  transcribe_piece rules (one (encode run)) = Ok [one (encode run)].
Proof.
  intros Hs Hn Hu; unfold transcribe_piece; cbn [sw_word sw_level one Z.eqb].
  rewrite untouched_transcribe by (try assumption; try reflexivity; apply new_replacer_wf); cbn [bind].
  rewrite new_replacer_cells.
  destruct (replacer_subwords_ok (map (fun c => (c, 1)) run) 2) as (sws & E & Hc & Ha & Hne & Hu').
  { unfold scalar_cells; rewrite map_map; cbn [fst]; rewrite map_id; exact Hs. }
  rewrite E; cbn [bind]; f_equal; apply one_piece; assumption.
Qed.

Definition spaces_only (run : list rune) : Prop := Forall (fun c => c = 0x20%N) run.
Lemma spaces_scalars run : spaces_only run -> scalars run.
Proof. intros H; eapply Forall_impl; [|exact H]; cbv beta; intros c ->; reflexivity. Qed.
Lemma space_meaningful s : meaningful s 0x20%N = true.
Proof. unfold meaningful; change (has_space_only (encode_rune 0x20%N)) with true; apply orb_true_r. Qed.

Lemma inner_spaces H s run : hl_is_hangul H 0x20%N = false -> spec_spaces s = true -> run <> [] -> spaces_only run ->
  inner H s (encode run) = Ok [0x20%N].
Proof.
  intros Hh Hsp Hn Hrun; pose proof (spaces_scalars run Hrun) as Hs.
  unfold spec_spaces in Hsp; apply andb_true_iff in Hsp; destruct Hsp as [Hsp _]; apply andb_true_iff in Hsp; destruct Hsp as [Hr Ht].
  assert (forall rules, forallb (fun r => deaf space_set (prog (p_re (rule_from r)))) rules = true -> untouched rules (encode run)) as Hu.
  { intros rules Hf; rewrite forallb_forall in Hf; apply Forall_forall; intros r Hin; eapply deaf_find; [apply Hf; exact Hin|exact Hs|].
    eapply Forall_impl; [|exact Hrun]; cbv beta; intros c ->; reflexivity. }
  rewrite inner_pieces.
  destruct (partition_cells s run Hs) as (sws & Ep & Hc & Ha & Hne & Hu').
  assert (sws = [one (encode run)]) as ->.
  { apply one_piece; try assumption; rewrite Hc; apply map_ext_in; intros c Hin; unfold spaces_only in Hrun; rewrite Forall_forall in Hrun.
    rewrite (Hrun c Hin), space_meaningful; reflexivity. }
  rewrite Ep; cbn [bind mapm]; rewrite rewrite_spaces by (try assumption; apply Hu; exact Hr); cbn [bind concat app].
  change (builder_subwords [one (encode run)]) with [one (encode run)]; cbn [mapm].
  rewrite transcribe_spaces by (try assumption; apply Hu; exact Ht); cbn [bind concat app]; f_equal.
  unfold settle; change (builder_subwords [one (encode run)]) with [one (encode run)].
  assert (has_space (encode run) = true) as Eh.
  { unfold has_space; rewrite runes_encode by exact Hs; destruct Hrun as [|c run Hc' _]; [contradiction|]; cbn [existsb]; rewrite Hc'; reflexivity. }
  unfold discard_level1; cbn [flat_map sw_level sw_word one Z.eqb app]; rewrite Eh; cbn.
  unfold compose_hangul, compose_runes; change (runes [0x20%N]) with [0x20%N]; cbn [compose_loop N.eqb]; rewrite Hh; reflexivity.
Qed.

Lemma forward_spaces {W} H s (reg : list (bytes * translit W)) w run :
  hl_is_hangul H 0x20%N = false -> spec_separates s = true -> spec_spaces s = true -> l_translit (s_lang s) = [] ->
  run <> [] -> spaces_only run -> forward H s reg false w (encode run) = (w, None, Ok [0x20%N]).
Proof.
  intros Hh Hsep Hsp Hl Hn Hrun; destruct (separates_parts s Hsep (separates_script s Hsep Hl)) as (Hsc & _ & Hk & _).
  assert (forallb single_key (s_normReplacer s) = true) as Hkey.
  { apply forallb_forall; intros [k x] Hin; apply (Hk k x Hin). }
  unfold forward; cbn [new_tracer trace_word emit]; rewrite Hl; cbn [transliterate].
  rewrite after_translit_inner, normalize_chars by (try assumption; apply spaces_scalars; exact Hrun).
  assert (concat (map (norm_char s) run) = run) as ->.
  { clear Hn; induction Hrun as [|c run -> Hrun IH]; [reflexivity|]; cbn [map concat]; rewrite IH, norm_char_one; [|reflexivity|].
    - assert (script_is (s_script s) 0x20%N = false) as Es by (destruct (s_script s); vm_compute; reflexivity).
      unfold norm_rune; rewrite Es; cbn [negb]; rewrite orb_true_r; reflexivity.
    - intros Hin; apply in_flat_map in Hin; destruct Hin as ([k v] & Hin & Hr); cbn [fst] in Hr.
      unfold spec_spaces in Hsp; apply andb_true_iff in Hsp; destruct Hsp as [_ Hsp]; rewrite forallb_forall in Hsp; specialize (Hsp _ Hin).
      cbn [fst] in Hsp; apply negb_true_iff in Hsp; apply nmem_in_iff in Hr; congruence. }
  rewrite inner_spaces by assumption; cbn [bind map_res snd].
  unfold localize_word; rewrite localize_drops by exact Hsc; reflexivity.
Qed.

Lemma bundled_spaces c path src s : choices_ok c -> lookup bundled_files path = Some src -> parse_spec c src = Ok s ->
  exists s0, parse_spec choices0 src = Ok s0 /\ same_but_order s0 s /\ unambiguous (s_normReplacer s0) /\ spec_separates s0 = true /\ spec_spaces s0 = true.
Proof.
  intros Hc Es Ep; destruct (bundled_separates c path src s Hc Es Ep) as (s0 & E0 & Ho & Hu & Hs).
  exists s0; repeat (split; [assumption|]).
  pose proof bundled_fits as Hf; rewrite forallb_forall in Hf; specialize (Hf _ (PropBundled.lookup_in _ _ _ Es)).
  unfold file_fits in Hf; cbn [fst snd] in Hf; rewrite E0 in Hf; do 6 (apply andb_true_iff in Hf; destruct Hf as [_ Hf]); apply andb_true_iff in Hf; apply Hf.
Qed.

(** Each run of spaces shrinks to one space. *)
Fixpoint single_spaces (rs : list rune) : list rune :=
  match rs with
  | [] => []
  | c :: rest =>
    match rest with
    | d :: _ => if (c =? 0x20)%N && (d =? 0x20)%N then single_spaces rest else c :: single_spaces rest
    | [] => [c]
    end
  end.
Definition from_elsewhere (x : rune) : Prop := exists lo hi, In (lo, hi) elsewhere /\ (lo <= x <= hi)%N.
Lemma elsewhere_not_space x : from_elsewhere x -> x <> 0x20%N.
Proof.
  intros (lo & hi & Hin & Hx) ->; cbn [elsewhere In] in Hin.
  repeat (destruct Hin as [Hin|Hin]; [injection Hin as <- <-; lia|]); destruct Hin.
Qed.

Lemma single_spaces_run run rest : Forall from_elsewhere run -> single_spaces (run ++ rest) = run ++ single_spaces rest.
Proof.
  induction 1 as [|x run Hx Hr IH]; [reflexivity|]; cbn [app single_spaces]; rewrite IH.
  apply elsewhere_not_space in Hx; apply N.eqb_neq in Hx; unfold rune in *; rewrite Hx; cbn [andb].
  destruct (run ++ rest) eqn:E; [|reflexivity]; apply app_eq_nil in E; destruct E as [-> ->]; reflexivity.
Qed.
Lemma single_spaces_gap gap x rest : gap <> [] -> spaces_only gap -> from_elsewhere x ->
  single_spaces (gap ++ x :: rest) = 0x20%N :: single_spaces (x :: rest).
Proof.
  intros Hn Hg Hx; apply elsewhere_not_space in Hx; induction Hg as [|c gap -> Hg IH]; [contradiction|].
  destruct gap as [|d gap].
  - cbn [app]; change (single_spaces (0x20%N :: x :: rest)) with
      (if (0x20 =? 0x20)%N && (x =? 0x20)%N then single_spaces (x :: rest) else 0x20%N :: single_spaces (x :: rest)).
    apply N.eqb_neq in Hx; unfold rune in *; rewrite Hx; rewrite andb_false_r; reflexivity.
  - inversion Hg as [|? ? Hd _]; subst d; cbn [app] in *.
    refine (eq_trans _ (IH _)); [reflexivity|discriminate].
Qed.
Lemma single_spaces_only gap : gap <> [] -> spaces_only gap -> single_spaces gap = [0x20%N].
Proof.
  intros Hn Hg; induction Hg as [|c gap -> Hg IH]; [contradiction|]; destruct gap as [|d gap]; [reflexivity|].
  inversion Hg as [|? ? Hd _]; subst d; refine (eq_trans _ (IH _)); [reflexivity|discriminate].
Qed.
(** Nothing else is changed, and no two spaces are left beside each other. *)
Lemma single_spaces_twice rs : single_spaces (single_spaces rs) = single_spaces rs.
Proof.
  assert (forall rs, hd_error (single_spaces rs) = hd_error rs) as Hhd.
  { clear; induction rs as [|c [|d rest] IH]; [reflexivity|reflexivity|].
    change (single_spaces (c :: d :: rest)) with (if (c =? 0x20)%N && (d =? 0x20)%N then single_spaces (d :: rest) else c :: single_spaces (d :: rest)).
    destruct ((c =? 0x20)%N && (d =? 0x20)%N) eqn:E; [|reflexivity].
    rewrite IH; apply andb_true_iff in E; destruct E as [E1 E2]; apply N.eqb_eq in E1, E2; subst; reflexivity. }
  induction rs as [|c [|d rest] IH]; [reflexivity|reflexivity|].
  change (single_spaces (c :: d :: rest)) with (if (c =? 0x20)%N && (d =? 0x20)%N then single_spaces (d :: rest) else c :: single_spaces (d :: rest)).
  destruct ((c =? 0x20)%N && (d =? 0x20)%N) eqn:E; [exact IH|].
  pose proof (Hhd (d :: rest)) as Hd; destruct (single_spaces (d :: rest)) as [|y l] eqn:El; [discriminate|]; injection Hd as ->.
  change (single_spaces (c :: d :: l)) with (if (c =? 0x20)%N && (d =? 0x20)%N then single_spaces (d :: l) else c :: single_spaces (d :: l)).
  rewrite E, IH; reflexivity.
Qed.

(** ** C93: Korean text passes through
    In a bundled language without a transliterator, a text of Hangul syllables, other
    characters of [elsewhere] and spaces comes out as it is, but for runs of spaces: each
    becomes one space. *)
Theorem C93_korean : forall W (H : hangul_lib) c lang src s (reg : list (bytes * translit W)) w text,
  hl_is_hangul H 0x20%N = false ->
  choices_ok c -> lookup bundled_files (specs_dir ++ lang ++ ext) = Some src -> parse_spec c src = Ok s ->
  l_translit (s_lang s) = [] ->
  Forall (fun x => x = 0x20%N \/ exists lo hi, In (lo, hi) elsewhere /\ (lo <= x <= hi)%N) text ->
  result H c reg w lang text = Ok (encode (single_spaces text), None).
Proof.
  intros W H c lang src s reg w text Hh Hc Es Ep Hl.
  assert (of_language s 0x20%N) as Hsp by (right; right; reflexivity).
  assert (forall gap, spaces_only gap -> result H c reg w lang gap = Ok (encode (single_spaces gap), None)) as Hgap.
  { intros gap Hg; destruct gap as [|g gap]; [exact (C85_alone W H c lang src s reg w [] Hc Es Ep Hl (Forall_nil _))|].
    rewrite single_spaces_only by (try assumption; discriminate).
    destruct (result_forward H c reg w lang src s (g :: gap) Hc Es Ep Hl) as (out & E1 & F1); rewrite E1; do 2 f_equal.
    destruct (bundled_spaces c _ src s Hc Es Ep) as (s0 & E0 & Ho & Hamb & Hsep & Hspc).
    rewrite (forward_order H s0 s reg false w _ Ho Hamb) in F1; destruct Ho as [Ho _].
    assert (s_lang s = s_lang s0) as El by (rewrite Ho; reflexivity).
    rewrite forward_spaces in F1 by (try assumption; try discriminate; congruence).
    injection F1 as <-; reflexivity. }
  assert (forall n text, (length text <= n)%nat -> Forall (fun x => x = 0x20%N \/ from_elsewhere x) text ->
    result H c reg w lang text = Ok (encode (single_spaces text), None)) as Hall; [|intros Ht; exact (Hall _ text (le_n _) Ht)].
  clear text; induction n as [|n IH]; intros text Hn Ht.
  { destruct text; [apply Hgap; constructor|cbn in Hn; lia]. }
  assert (forall P Q : rune -> Prop, (forall x, P x -> Q x -> False) -> forall l, Forall (fun x => P x \/ Q x) l -> exists a b, l = a ++ b /\ Forall P a /\ match b with [] => True | x :: _ => Q x end) as Hspan.
  { clear; intros P Q _ l Hf; induction Hf as [|x l [Hx|Hx] Hf (a & b & -> & Ha & Hb)].
    - exists [], []; repeat split; constructor.
    - exists (x :: a), b; split; [reflexivity|]; split; [constructor; assumption|exact Hb].
    - exists [], (x :: a ++ b); split; [reflexivity|]; split; [constructor|exact Hx]. }
  destruct (Hspan (fun x => x = 0x20%N) from_elsewhere) with (l := text) as (gap & rest & -> & Hg & Hr); [|exact Ht|].
  { intros x -> Hx; apply elsewhere_not_space in Hx; apply Hx; reflexivity. }
  destruct rest as [|x rest]; [rewrite app_nil_r; apply Hgap; exact Hg|].
  apply Forall_app in Ht; destruct Ht as [_ Ht]; inversion Ht as [|? ? _ Ht']; subst.
  destruct (Hspan from_elsewhere (fun x => x = 0x20%N)) with (l := rest) as (run & tail & -> & Hrun & Htail).
  { intros y Hy ->; apply elsewhere_not_space in Hy; apply Hy; reflexivity. }
  { eapply Forall_impl; [|exact Ht']; cbv beta; tauto. }
  apply Forall_app in Ht'; destruct Ht' as [_ Ht'].
  assert (scalars tail) as St.
  { eapply Forall_impl; [|exact Ht']; cbv beta; intros y [->|(lo & hi & Hin & Hy)]; [reflexivity|].
    apply elsewhere_scalar; eapply elsewhere_ranges; eassumption. }
  assert (Forall from_elsewhere (x :: run)) as Hxr by (constructor; assumption).
  destruct (C85_separate W H c lang src s reg w gap (x :: run) tail Hc Es Ep Hl) as (ru & rv & F1 & F2 & F3).
  - apply spaces_scalars; exact Hg.
  - exact St.
  - discriminate.
  - exact Hxr.
  - intros p y ->; apply Forall_app in Hg; destruct Hg as [_ Hg]; inversion Hg; subst; exact Hsp.
  - intros y p ->; subst y; exact Hsp.
  - assert (length tail <= n)%nat as Hlen by (rewrite app_length in Hn; cbn [length] in Hn; rewrite app_length in Hn; lia).
    rewrite (Hgap gap Hg) in F1; rewrite (IH tail Hlen Ht') in F2; injection F1 as <-; injection F2 as <-.
    change (x :: run ++ tail) with ((x :: run) ++ tail); refine (eq_trans F3 _); do 2 f_equal.
    rewrite <- !encode_app; f_equal.
    destruct gap as [|g gap]; [cbn [app]; symmetry; exact (single_spaces_run (x :: run) tail Hxr)|].
    refine (eq_trans _ (eq_sym (single_spaces_gap (g :: gap) x (run ++ tail) _ Hg Hr))); [|discriminate].
    rewrite single_spaces_only by (try assumption; discriminate).
    cbn [app]; f_equal; symmetry; exact (single_spaces_run (x :: run) tail Hxr).
Qed.
Print Assumptions C93_korean.

(** Once the result consists of such characters, the languages leave it alone, whichever
    they are: the second call at most shrinks runs of spaces and the third does nothing. *)
Theorem C93_again : forall W (H : hangul_lib) c lang1 src1 s1 lang2 src2 s2 lang3 src3 s3 (reg : list (bytes * translit W)) w word out,
  hangul_laws H -> (forall r, (r < 128)%N -> hl_is_hangul H r = false) -> choices_ok c ->
  lookup bundled_files (specs_dir ++ lang1 ++ ext) = Some src1 -> parse_spec c src1 = Ok s1 -> l_translit (s_lang s1) = [] ->
  lookup bundled_files (specs_dir ++ lang2 ++ ext) = Some src2 -> parse_spec c src2 = Ok s2 -> l_translit (s_lang s2) = [] ->
  lookup bundled_files (specs_dir ++ lang3 ++ ext) = Some src3 -> parse_spec c src3 = Ok s3 -> l_translit (s_lang s3) = [] ->
  (forall x, In x (runes (snd (normalize s1 None (encode word)))) ->
     of_language s1 x \/ exists lo hi, In (lo, hi) elsewhere /\ (lo <= x <= hi)%N) ->
  result H c reg w lang1 word = Ok (encode out, None) -> scalars out -> ~ In 0x27%N out ->
  result H c reg w lang2 out = Ok (encode (single_spaces out), None) /\
  result H c reg w lang3 (single_spaces out) = Ok (encode (single_spaces out), None).
Proof.
  intros W H c lang1 src1 s1 lang2 src2 s2 lang3 src3 s3 reg w word out laws ascii Hc L1 P1 T1 L2 P2 T2 L3 P3 T3 Hin Hres So Hap.
  assert (Forall (fun x => x = 0x20%N \/ from_elsewhere x) out) as Hout.
  { destruct (result_forward H c reg w lang1 src1 s1 word Hc L1 P1 T1) as (out1 & E1 & F1).
    assert (out1 = encode out) as -> by congruence.
    destruct (C59_only_hangul W H _ src1 c s1 reg false w _ _ _ _ laws ascii L1 Hc P1 F1) as (mid & Em & Hch).
    rewrite T1 in Em; cbn [transliterate snd] in Em; injection Em as <-.
    rewrite runes_encode in Hch by exact So; apply Forall_forall; intros x Hx.
    destruct (Hch x Hx) as [Hr|[->|[->|[[Hn Hl]|[Hs _]]]]].
    - right; exists 0xAC00%N, 0xD7A3%N; split; [cbn [In elsewhere]; auto 40|exact Hr].
    - left; reflexivity.
    - contradiction.
    - destruct (Hin x Hn) as [Hl'|He]; [contradiction|right; exact He].
    - exfalso; destruct (bundled_separates c _ src1 s1 Hc L1 P1) as (s0 & _ & Ho & _ & Hsep); destruct Ho as [Ho _].
      assert (s_lang s1 = s_lang s0 /\ s_script s1 = s_script s0) as [El Esc] by (rewrite Ho; split; reflexivity).
      rewrite El in T1; apply (separates_script s0 Hsep T1); congruence. }
  assert (hl_is_hangul H 0x20%N = false) as Hh by (apply ascii; lia).
  split; [eapply C93_korean; eassumption|].
  rewrite <- (single_spaces_twice out) at 2; eapply C93_korean; try eassumption.
  apply Forall_forall; intros x Hx; rewrite Forall_forall in Hout; apply Hout; clear - Hx.
  induction out as [|a [|b rest] IH]; [exact Hx|exact Hx|].
  change (In x (if (a =? 0x20)%N && (b =? 0x20)%N then single_spaces (b :: rest) else a :: single_spaces (b :: rest))) in Hx.
  destruct ((a =? 0x20)%N && (b =? 0x20)%N); [right; apply IH; exact Hx|].
  destruct Hx as [->|Hx]; [left; reflexivity|right; apply IH; exact Hx].
Qed.
Print Assumptions C93_again.

(** A result need not be left as it is: a zero width space between two spaces vanishes from
    the result and leaves them beside each other; the next call joins them. *)
Theorem C93_refuted : exists lang (word out out2 : list rune),
  result (W := unit) go_hangul choices0 [] tt lang word = Ok (encode out, None) /\
  result (W := unit) go_hangul choices0 [] tt lang out = Ok (encode out2, None) /\ out2 <> out.
Proof.
  exists (lit "ita"), [0x61; 0x20; 0x200B; 0x20; 0x61]%N, [0xC544; 0x20; 0x20; 0xC544]%N, [0xC544; 0x20; 0xC544]%N.
  split; [vm_compute; reflexivity|]; split; [vm_compute; reflexivity|discriminate].
Qed.
Print Assumptions C93_refuted.

(** Italian words, transcribed and then read as Polish and as Italian. *)
Example C93_example :
  result (W := unit) go_hangul choices0 [] tt (lit "ita") (runes (lit "gnocchi 11 한글")) = Ok (lit "뇨키 11 한글", None) /\
  result (W := unit) go_hangul choices0 [] tt (lit "pol") (runes (lit "뇨키  11 한글")) = Ok (lit "뇨키 11 한글", None) /\
  single_spaces (runes (lit "뇨키  11 한글")) = runes (lit "뇨키 11 한글") /\
  match lookup bundled_files (specs_dir ++ lit "ita" ++ ext) with
  | Some src => match parse_spec choices0 src with Ok s => l_translit (s_lang s) = [] | _ => False end
  | None => False
  end.
Proof. split; [vm_compute; reflexivity|]; split; [vm_compute; reflexivity|]; split; vm_compute; reflexivity. Qed.
