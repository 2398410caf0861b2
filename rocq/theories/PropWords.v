(** C95: a phrase is transcribed word by word. *)
From Coq Require Import String Lia Permutation.
From Verif Require Import GoBase Utf8 Utf8Facts UniTables Unicode Replacer ReplacerFacts Regex Hre Rule Scripts Hsl Spec SpecOrder Jamo Procedure
  ProcFacts ProcLocal ProcChars CaseFacts SeparateFacts BString Bundled Api ApiFacts WordSpec CyrDict Translit PropBundled PropProc PropChars PropTranslit PropSplit.
Open Scope Z_scope.

(** The bundled languages pass the check [spec_words] (WordSpec.v), except for three and those
    with furigana. *)
Definition by_words (lang : bytes) (s : spec) : Prop :=
  l_translit (s_lang s) = [] /\ ~ In lang word_exceptions \/
  exists sc, In sc (l_translit (s_lang s)) /\ sc <> lit "furigana".
Lemma bundled_words c lang src s : choices_ok c -> lookup bundled_files (specs_dir ++ lang ++ ext) = Some src -> parse_spec c src = Ok s ->
  by_words lang s ->
  exists s0, parse_spec choices0 src = Ok s0 /\ same_but_order s0 s /\ unambiguous (s_normReplacer s0) /\ spec_words s0 = true.
Proof.
  intros Hc Es Ep Hl; destruct (bundled_separates c _ src s Hc Es Ep) as (s0 & E0 & Ho & Hu & Hs).
  exists s0; repeat (split; [assumption|]).
  pose proof bundled_fits as Hf; rewrite forallb_forall in Hf; specialize (Hf _ (PropBundled.lookup_in _ _ _ Es)).
  unfold file_fits in Hf; cbn [fst snd] in Hf; rewrite E0 in Hf; apply andb_true_iff in Hf; destruct Hf as [_ Hf].
  apply andb_true_iff in Hf; destruct Hf as [Hid Hf]; do 5 (apply andb_true_iff in Hf; destruct Hf as [_ Hf]); apply andb_true_iff in Hf; destruct Hf as [Hf _].
  unfold spec_fits in Hid; apply andb_true_iff in Hid; destruct Hid as [Hid _]; apply beqb_eq in Hid.
  apply app_inv_head in Hid; apply app_inv_tail in Hid.
  destruct Ho as [Ho _]; assert (s_lang s = s_lang s0) as El by (rewrite Ho; reflexivity).
  assert (s_script s = s_script s0) as Esc by (rewrite Ho; reflexivity).
  unfold spec_phrases in Hf; rewrite <- Hid, <- El, <- Esc in Hf; destruct Hl as [[Hl Hlang]|(sc & Hin & Hsc)].
  - rewrite Hl in Hf; apply orb_true_iff in Hf; destruct Hf as [Hf|Hf]; [|exact Hf].
    exfalso; apply Hlang; apply existsb_exists in Hf; destruct Hf as (x & Hin & E); apply beqb_eq in E; subst x; exact Hin.
  - destruct (l_translit (s_lang s)) as [|t ts]; [contradiction|]; destruct (s_script s); try exact Hf.
    exfalso; rewrite forallb_forall in Hf; specialize (Hf sc Hin); apply beqb_eq in Hf; apply Hsc; symmetry; exact Hf.
Qed.

(** A word of a language: characters that the language speaks about, no spaces. It may be empty,
    which makes the phrases below contain spaces in any place. *)
Definition word_of (s : spec) (u : list rune) : Prop :=
  scalars u /\ Forall (fun x => of_language s x /\ is_space x = false) u.

(** What Hangulize returns is what [forward] returns. *)
Lemma forward_result {W} H c (reg : list (bytes * translit W)) w lang src s rs out :
  lookup bundled_files (specs_dir ++ lang ++ ext) = Some src -> parse_spec c src = Ok s ->
  forward H s reg false w (encode rs) = (w, None, Ok out) -> result H c reg w lang rs = Ok (out, None).
Proof.
  intros Es Ep E; unfold result, hangulize, load_spec; cbn [lookup]; rewrite Es, Ep; unfold run_hangulizer; rewrite E; reflexivity.
Qed.

(** It returns when the transliterators do. *)
Lemma forward_returns {W} H c (reg : list (bytes * translit W)) w lang src s x y :
  choices_ok c -> lookup bundled_files (specs_dir ++ lang ++ ext) = Some src -> parse_spec c src = Ok s ->
  transliterate (l_translit (s_lang s)) reg w None x = (w, None, Ok y) ->
  exists out, forward H s reg false w x = (w, None, Ok out).
Proof.
  intros Hc Es Ep E; destruct (file_ok_parses src c (bundled_file_ok _ _ Es) Hc) as (s1 & s2 & _ & Es2 & _ & _ & Hn & Hwk).
  assert (s2 = s) as -> by congruence.
  pose proof (forward_total H s reg false w x Hn Hwk) as Hf; unfold forward in *; cbn [new_tracer trace_word emit] in *.
  rewrite E in *; rewrite after_translit_inner in *; destruct (inner H s _) as [z| | | | |]; cbn [bind map_res snd] in *;
    try (exfalso; destruct Hf as [(out & mid & _ & Hf)|[Hf _]]; discriminate).
  eexists; reflexivity.
Qed.

(** In a bundled language without transliterators other than Dutch, Welsh and Middle Welsh, and in
    one with any but furigana, when the transliterators make words
    of the language of words, and of the phrase the phrase of those, the result for the phrase
    is the results for the words with spaces between them ([spaced], WordSpec.v). A word between the
    first and the last that has an empty result may vanish together with a space ([thin],
    WordSpec.v). *)
Theorem C95_transliterated : forall W (H : hangul_lib) c lang src s (reg : list (bytes * translit W)) w us ws,
  hl_is_hangul H 0x20%N = false -> choices_ok c ->
  lookup bundled_files (specs_dir ++ lang ++ ext) = Some src -> parse_spec c src = Ok s ->
  l_translit (s_lang s) = [] /\ ~ In lang [lit "cym"; lit "nld"; lit "wlm"] \/
    (exists sc, In sc (l_translit (s_lang s)) /\ sc <> lit "furigana") ->
  ws <> [] -> Forall (word_of s) ws ->
  Forall2 (fun u v => transliterate (l_translit (s_lang s)) reg w None (encode u) = (w, None, Ok (encode v))) us ws ->
  transliterate (l_translit (s_lang s)) reg w None (encode (spaced us)) = (w, None, Ok (encode (spaced ws))) ->
  exists r rs rs', Forall2 (fun u x => result H c reg w lang u = Ok (x, None)) us (r :: rs) /\ thin rs rs' /\
    result H c reg w lang (spaced us) = Ok (spaced (r :: rs'), None).
Proof.
  intros W H c lang src s reg w us ws Hh Hc Es Ep Hl Hne Hws Ht Hp.
  destruct (bundled_rules _ _ _ _ Es Hc Ep) as (_ & Hrw & Htr & _).
  destruct (bundled_words c lang src s Hc Es Ep Hl) as (s0 & E0 & Ho & Hamb & Hw).
  assert (forall u v, transliterate (l_translit (s_lang s)) reg w None (encode u) = (w, None, Ok (encode v)) ->
    exists out, forward H s reg false w (encode u) = (w, None, Ok out)) as Hout.
  { intros u v E; exact (forward_returns H c reg w lang src s _ _ Hc Es Ep E). }
  assert (exists rs, Forall2 (fun u x => result H c reg w lang u = Ok (x, None)) us rs /\
    Forall2 (fun u x => forward H s0 reg false w (encode u) = (w, None, Ok x)) us rs) as (rs & F1 & F2).
  { clear Hne Hws Hp; induction Ht as [|u v us ws Hu Ht IH]; [exists []; split; constructor|].
    destruct IH as (rs & F1 & F2); destruct (Hout u v Hu) as (r & F).
    exists (r :: rs); split; constructor; try assumption; [apply (forward_result H c reg w lang src s u r Es Ep F)|].
    rewrite (forward_order H s0 s reg false w _ Ho Hamb) in F; exact F. }
  pose proof (fun x E => forward_result H c reg w lang src s (spaced us) x Es Ep E) as Hres.
  rewrite (forward_order H s0 s reg false w _ Ho Hamb) in Hres; destruct Ho as [Ho _].
  assert (s_lang s = s_lang s0) as El by (rewrite Ho; reflexivity).
  assert (s_rewrite s = s_rewrite s0) as Er by (rewrite Ho; reflexivity).
  assert (s_transcribe s = s_transcribe s0) as Et by (rewrite Ho; reflexivity).
  assert (forall x, of_language s x -> of_language s0 x) as Hlg.
  { intros x; unfold of_language; rewrite Ho; cbn [s_script s_puncts]; auto. }
  clear Ho; rewrite Er in Hrw; rewrite Et in Htr; rewrite El in Ht, Hp.
  destruct (forward_words H s0 reg w us ws rs Hh Hw Hrw Htr Hne) as (rs' & Hthin & F4); [|exact Ht|exact Hp|exact F2|].
  - eapply Forall_impl; [|exact Hws]; intros u (H2 & H3); split; [exact H2|].
    apply Forall_forall; intros x Hx; rewrite Forall_forall in H3; destruct (H3 x Hx) as [H4 H5]; split; [|exact H5].
    apply of_language_meaningful; [|apply Hlg; exact H4]; unfold scalars in H2; rewrite Forall_forall in H2; apply H2; exact Hx.
  - destruct rs as [|r rs]; [inversion F1; subst; inversion Ht; subst; contradiction|]; cbn [hd tl] in *.
    exists r, rs, rs'; split; [exact F1|]; split; [exact Hthin|]; apply Hres; exact F4.
Qed.
Print Assumptions C95_transliterated.

(** In a bundled language that needs no transliterator, other than Dutch, Welsh
    and Middle Welsh. *)
Corollary C95_phrase : forall W (H : hangul_lib) c lang src s (reg : list (bytes * translit W)) w ws,
  hl_is_hangul H 0x20%N = false -> choices_ok c ->
  lookup bundled_files (specs_dir ++ lang ++ ext) = Some src -> parse_spec c src = Ok s -> l_translit (s_lang s) = [] ->
  ~ In lang [lit "cym"; lit "nld"; lit "wlm"] ->
  ws <> [] -> Forall (word_of s) ws ->
  exists r rs rs', Forall2 (fun u x => result H c reg w lang u = Ok (x, None)) ws (r :: rs) /\ thin rs rs' /\
    result H c reg w lang (spaced ws) = Ok (spaced (r :: rs'), None).
Proof.
  intros W H c lang src s reg w ws Hh Hc Es Ep Hl Hlang Hne Hws.
  apply (C95_transliterated W H c lang src s reg w ws ws Hh Hc Es Ep (or_introl (conj Hl Hlang)) Hne Hws); rewrite Hl; [|reflexivity].
  clear; induction ws; constructor; [reflexivity|assumption].
Qed.
Print Assumptions C95_phrase.

(** The Cyrillic transliterators replace parts of a word that have no space in them, so each
    word is replaced for itself. *)
Lemma replacer_apart t b : (forall k v, In (k, v) t -> k <> [] /\ ~ In b k) -> forall n x y, (length x <= n)%nat ->
  rep_from 0 t (x ++ b :: y) = rep_from 0 t x ++ b :: rep_from 0 t y.
Proof.
  intros Hk; assert (no_empty_key t) as He by (intros v Hin; destruct (Hk _ _ Hin) as [H _]; apply H; reflexivity).
  assert (forall t' x y, (forall k v, In (k, v) t' -> k <> [] /\ ~ In b k) -> rep_lookup t' (x ++ b :: y) false = rep_lookup t' x false) as Hl.
  { intros t' x y; induction t' as [|[k v] t' IH]; intros Hk'; [reflexivity|]; cbn [rep_lookup].
    rewrite IH by (intros k' v' Hin; apply (Hk' k' v'); right; exact Hin).
    destruct (Hk' k v (or_introl eq_refl)) as [H1 H2]; destruct k as [|k0 k]; [contradiction|].
    assert (has_prefix (x ++ b :: y) (k0 :: k) = has_prefix x (k0 :: k)) as ->; [|reflexivity].
    revert H2; clear; generalize (k0 :: k); clear; intros p; revert x; induction p as [|c p IH]; intros x Hb; [destruct x; reflexivity|].
    destruct x as [|a x]; cbn [app has_prefix].
    - destruct (b =? c)%N eqn:E; [|reflexivity]; apply N.eqb_eq in E; subst c; exfalso; apply Hb; left; reflexivity.
    - rewrite IH; [reflexivity|]; intros Hin; apply Hb; right; exact Hin. }
  assert (forall y, rep_from 0 t (b :: y) = rep_from 0 t [] ++ b :: rep_from 0 t y) as H0.
  { intros y; rewrite rep_step_char; [rewrite rep_from_nil by exact He; reflexivity|].
    pose proof (Hl t [] y Hk) as E; cbn [app] in E; rewrite E; destruct (rep_lookup t [] false) as [[v m]|] eqn:E2; [|reflexivity].
    apply rep_lookup_some in E2; destruct E2 as (k & Hin & E2 & _); destruct (Hk _ _ Hin) as [H1 _]; exfalso; apply H1.
    unfold matches in E2; destruct k; [reflexivity|discriminate]. }
  induction n as [|n IH]; intros x y Hx; destruct x as [|a x]; cbn [length] in Hx; try lia; try apply H0.
  cbn [app]; pose proof (Hl t (a :: x) y Hk) as E; cbn [app] in E; destruct (rep_lookup t (a :: x) false) as [[v m]|] eqn:E2.
  - pose proof E2 as E3; apply rep_lookup_some in E3; destruct E3 as (k & Hin & Hm & ->); destruct (Hk _ _ Hin) as [H1 _].
    apply matches_prefix in Hm; destruct Hm as (q & Hq); destruct k as [|k0 k]; [contradiction|]; cbn [app] in Hq; injection Hq as _ Hq.
    cbn [length] in E, E2; rewrite (rep_step_key t v _ _ _ He E), (rep_step_key t v _ _ _ He E2), <- app_assoc; f_equal.
    assert (length x = length k + length q)%nat as Hlen by (rewrite Hq, app_length; reflexivity).
    rewrite (rep_from_skip t (length k) (x ++ b :: y)), (rep_from_skip t (length k) x); [|lia|exact He|rewrite app_length; lia|exact He].
    rewrite skipn_app; replace (length k - length x)%nat with 0%nat by lia; cbn [skipn]; apply IH; rewrite skipn_length; lia.
  - rewrite (rep_step_char _ _ _ E), (rep_step_char _ _ _ E2); cbn [app]; f_equal; apply IH; lia.
Qed.
Definition keys_unspaced (t : list (bytes * bytes)) : bool :=
  forallb (fun e => match fst e with [] => false | k => negb (nmem 0x20%N k) end) t.
Lemma dict_unspaced : forallb (fun e => keys_unspaced (snd e)) cyr_dict = true.
Proof. vm_compute; reflexivity. Qed.
Lemma dict_keys country t : lookup cyr_dict country = Some t -> keys_unspaced t = true.
Proof.
  intros Ht; pose proof dict_unspaced as Hd; rewrite forallb_forall in Hd; apply (Hd (country, t)), PropTranslit.lookup_in, Ht.
Qed.
Lemma cyrillic_spaced order country t us : lookup cyr_dict country = Some t -> an_order t order -> us <> [] ->
  forall vs, Forall2 (fun u v => cyrillic_run order country (encode u) = Ok (encode v)) us vs ->
  cyrillic_run order country (encode (spaced us)) = Ok (encode (spaced vs)).
Proof.
  intros Ht P Hne vs HF; unfold cyrillic_run, cyrillic_new in *; rewrite Ht in *; cbn [bind] in *; unfold cyrillic_transliterate, replacer_replace in *.
  assert (forall k v, In (k, v) (order t) -> k <> [] /\ ~ In 0x20%N k) as Hk.
  { intros k v Hin; apply (Permutation_in _ (Permutation_sym P)) in Hin; pose proof (dict_keys country t Ht) as Hd.
    unfold keys_unspaced in Hd; rewrite forallb_forall in Hd; specialize (Hd _ Hin); cbn [fst] in Hd.
    destruct k as [|k0 k]; [discriminate|]; split; [discriminate|]; intros H; apply negb_true_iff in Hd.
    unfold nmem in Hd; rewrite <- not_true_iff_false in Hd; apply Hd, existsb_exists; exists 0x20%N; split; [exact H|reflexivity]. }
  revert Hne; induction HF as [|u v us vs Hu HF IH]; intros Hne; [contradiction|]; destruct us as [|u2 us].
  - inversion HF; subst; exact Hu.
  - assert (vs <> []) as Hv by (inversion HF; discriminate).
    rewrite (spaced_cons u) by discriminate; rewrite (spaced_cons v) by exact Hv.
    change (0x20%N :: spaced (u2 :: us)) with ([0x20%N] ++ spaced (u2 :: us)); change (0x20%N :: spaced vs) with ([0x20%N] ++ spaced vs).
    rewrite !encode_app; change (encode [0x20%N]) with [0x20%N].
    refine (eq_trans (f_equal (@Ok bytes) (replacer_apart _ _ Hk (length (encode u)) (encode u) (encode (spaced (u2 :: us))) (le_n _))) _).
    specialize (IH ltac:(discriminate)); injection Hu as Hu.
    assert (forall a b : bytes, Ok a = Ok b -> a = b) as Hok by (intros a b E; injection E as E; exact E).
    apply Hok in IH; rewrite Hu, IH; reflexivity.
Qed.

(** In the bundled languages with a Cyrillic transliterator (translit/cyrillic): whatever the
    order of its table in this run, a phrase is transliterated and transcribed word by word. *)
Theorem C95_cyrillic : forall W (H : hangul_lib) c lang src s country t order tl (reg : list (bytes * translit W)) w us,
  hl_is_hangul H 0x20%N = false -> choices_ok c ->
  lookup bundled_files (specs_dir ++ lang ++ ext) = Some src -> parse_spec c src = Ok s ->
  l_translit (s_lang s) = [cyrillic_scheme country] -> lookup cyr_dict country = Some t -> an_order t order ->
  lookup reg (cyrillic_scheme country) = Some tl -> (forall x, tl_run tl w x = (w, cyrillic_run order country x)) ->
  us <> [] -> Forall (fun u => exists v, cyrillic_run order country (encode u) = Ok (encode v) /\ word_of s v) us ->
  exists r rs rs', Forall2 (fun u x => result H c reg w lang u = Ok (x, None)) us (r :: rs) /\ thin rs rs' /\
    result H c reg w lang (spaced us) = Ok (spaced (r :: rs'), None).
Proof.
  intros W H c lang src s country t order tl reg w us Hh Hc Es Ep Hl Ht P Hreg Hrun Hne Hus.
  assert (exists vs, Forall2 (fun u v => cyrillic_run order country (encode u) = Ok (encode v)) us vs /\ Forall (word_of s) vs) as (vs & HF & Hvs).
  { clear - Hus; induction Hus as [|u us (v & Hv & Hw) Hus (vs & HF & IH)]; [exists []; split; constructor|].
    exists (v :: vs); split; constructor; assumption. }
  assert (forall x y, cyrillic_run order country x = Ok y -> transliterate (l_translit (s_lang s)) reg w None x = (w, None, Ok y)) as Hrun'.
  { intros x y E; rewrite Hl; cbn [transliterate]; rewrite Hreg, Hrun, E; reflexivity. }
  apply (C95_transliterated W H c lang src s reg w us vs); try assumption.
  - right; exists (cyrillic_scheme country); rewrite Hl; split; [left; reflexivity|]; unfold cyrillic_scheme; discriminate.
  - destruct HF; [contradiction|discriminate].
  - clear - HF Hrun'; induction HF; constructor; auto.
  - apply Hrun', (cyrillic_spaced order country t); assumption.
Qed.
Print Assumptions C95_cyrillic.

(** Words in Cyrillic letters need no more than that. *)
Corollary C95_cyrillic_text : forall W (H : hangul_lib) c lang src s country t order tl (reg : list (bytes * translit W)) w us,
  hl_is_hangul H 0x20%N = false -> choices_ok c ->
  lookup bundled_files (specs_dir ++ lang ++ ext) = Some src -> parse_spec c src = Ok s ->
  l_translit (s_lang s) = [cyrillic_scheme country] -> In country cyrillic_countries -> lookup cyr_dict country = Some t -> an_order t order ->
  lookup reg (cyrillic_scheme country) = Some tl -> (forall x, tl_run tl w x = (w, cyrillic_run order country x)) ->
  us <> [] -> Forall (word_of s) us -> (forall u x, In u us -> In x u -> ~ latin x /\ x <> 0x27%N) ->
  exists r rs rs', Forall2 (fun u x => result H c reg w lang u = Ok (x, None)) us (r :: rs) /\ thin rs rs' /\
    result H c reg w lang (spaced us) = Ok (spaced (r :: rs'), None).
Proof.
  intros W H c lang src s country t order tl reg w us Hh Hc Es Ep Hl Hin Ht P Hreg Hrun Hne Hus Hx.
  apply (C95_cyrillic W H c lang src s country t order tl reg w us); try assumption.
  apply Forall_forall; intros u Hu; exists u; rewrite Forall_forall in Hus; split; [|apply Hus; exact Hu].
  destruct (Hus u Hu) as (Hs & _).
  apply (C20_unchanged_partial country t order); try assumption; rewrite runes_encode by exact Hs.
  - intros x Hxu; apply (Hx u x Hu Hxu).
  - intros _ Hxu; destruct (Hx u _ Hu Hxu) as [_ H0]; apply H0; reflexivity.
Qed.
Print Assumptions C95_cyrillic_text.

(** Moscow, in Latin letters, and Red Square. *)
Definition russian : translit unit :=
  {| tl_scheme := cyrillic_scheme (lit "ru"); tl_run := fun w x => (w, cyrillic_run (fun t => t) (lit "ru") x) |}.
Example C95_cyrillic_example :
  match lookup bundled_files (specs_dir ++ lit "rus" ++ ext) with
  | Some src => match parse_spec choices0 src with
                | Ok s => l_translit (s_lang s) = [cyrillic_scheme (lit "ru")] /\
                    map (fun x => snd (forward go_hangul s [(cyrillic_scheme (lit "ru"), russian)] false tt (lit x)))
                      ["Moskva"; "Красная"; "площадь"; "Moskva Красная площадь"]%string =
                    map (fun x => Ok (lit x)) ["모스크바"; "크라스나야"; "플로샤디"; "모스크바 크라스나야 플로샤디"]%string /\
                    forallb (script_is (s_script s)) (runes (lit "Краснаяплощадь")) = true
                | _ => False
                end
  | None => False
  end /\ cyrillic_run (fun t => t) (lit "ru") (lit "Moskva") = Ok (lit "Москва").
Proof. split; vm_compute; [repeat split|reflexivity]. Qed.
(** When the results between the first and the last are not empty, nothing vanishes. *)
Corollary C95_words : forall W (H : hangul_lib) c lang src s (reg : list (bytes * translit W)) w ws,
  hl_is_hangul H 0x20%N = false -> choices_ok c ->
  lookup bundled_files (specs_dir ++ lang ++ ext) = Some src -> parse_spec c src = Ok s -> l_translit (s_lang s) = [] ->
  ~ In lang [lit "cym"; lit "nld"; lit "wlm"] ->
  ws <> [] -> Forall (word_of s) ws ->
  (forall a u b, ws = a ++ u :: b -> a <> [] -> b <> [] -> result H c reg w lang u <> Ok ([], None)) ->
  exists rs, Forall2 (fun u x => result H c reg w lang u = Ok (x, None)) ws rs /\
    result H c reg w lang (spaced ws) = Ok (spaced rs, None).
Proof.
  intros W H c lang src s reg w ws Hh Hc Es Ep Hl Hlang Hne Hws Hmid.
  destruct (C95_phrase W H c lang src s reg w ws Hh Hc Es Ep Hl Hlang Hne Hws) as (r & rs & rs' & F & Hthin & E).
  exists (r :: rs); split; [exact F|]; rewrite E; do 2 f_equal.
  rewrite (thin_full rs rs' Hthin); [reflexivity|]; intros a x b -> Hb ->.
  inversion F as [|u0 ? us ? F0 F']; subst; apply Forall2_app_inv_r in F'; destruct F' as (l1 & l2 & G1 & G2 & ->).
  inversion G2 as [|u ? l3 ? G3 G4]; subst; apply (Hmid (u0 :: l1) u l3); [reflexivity|discriminate| |exact G3].
  intros ->; inversion G4; subst; contradiction.
Qed.
Print Assumptions C95_words.

(** Two words. *)
Corollary C95_two : forall W (H : hangul_lib) c lang src s (reg : list (bytes * translit W)) w u v,
  hl_is_hangul H 0x20%N = false -> choices_ok c ->
  lookup bundled_files (specs_dir ++ lang ++ ext) = Some src -> parse_spec c src = Ok s -> l_translit (s_lang s) = [] ->
  ~ In lang [lit "cym"; lit "nld"; lit "wlm"] ->
  word_of s u -> word_of s v ->
  exists ru rv, result H c reg w lang u = Ok (ru, None) /\ result H c reg w lang v = Ok (rv, None) /\
    result H c reg w lang (u ++ 0x20%N :: v) = Ok (ru ++ 0x20%N :: rv, None).
Proof.
  intros W H c lang src s reg w u v Hh Hc Es Ep Hl Hlang Hu Hv.
  destruct (C95_words W H c lang src s reg w [u; v] Hh Hc Es Ep Hl Hlang) as (rs & F & E); [discriminate|auto| |].
  - intros a x b E Ha Hb; destruct a as [|a1 [|a2 a]]; [contradiction| |]; injection E as _ _ E.
    + subst b; contradiction.
    + destruct a; discriminate.
  - inversion F as [|? ru ? ? F1 F']; subst; inversion F' as [|? rv ? ? F2 F'']; subst; inversion F''; subst.
    exists ru, rv; auto.
Qed.
Print Assumptions C95_two.

(** The rules of Welsh, Middle Welsh and Dutch look across a space: the phrase comes out as
    its words do not. *)
Definition heard (lang word : bytes) : res returned := result (W := unit) go_hangul choices0 [] tt lang (runes word).
Definition whole_differs (lang : bytes) : Prop := exists u v ru rv out : bytes,
  ~ In 0x20%N u /\ ~ In 0x20%N v /\ heard lang u = Ok (ru, None) /\ heard lang v = Ok (rv, None) /\
  heard lang (u ++ 0x20%N :: v) = Ok (out, None) /\ out <> ru ++ 0x20%N :: rv.
Ltac differs u v ru rv out :=
  exists (lit u), (lit v), (lit ru), (lit rv), (lit out);
  split; [vm_compute; intuition discriminate|]; split; [vm_compute; intuition discriminate|];
  split; [vm_compute; reflexivity|]; split; [vm_compute; reflexivity|]; split; [vm_compute; reflexivity|];
  vm_compute; discriminate.
Theorem C95_welsh_refuted : whole_differs (lit "cym").
Proof. differs "fy"%string "ngwely"%string "버"%string "응웰리"%string "벙 웰리"%string. Qed.
Print Assumptions C95_welsh_refuted.
Theorem C95_middle_welsh_refuted : whole_differs (lit "wlm").
Proof. differs "fym"%string "mhen"%string "빔"%string "음헨"%string "빔 헨"%string. Qed.
Print Assumptions C95_middle_welsh_refuted.
Theorem C95_dutch_refuted : whole_differs (lit "nld").
Proof. differs "de"%string "boer"%string "더"%string "부르"%string "더부르"%string. Qed.
Print Assumptions C95_dutch_refuted.

(** A word with an empty result vanishes between two others, and one of the spaces too. *)
Theorem C95_empty_refuted : exists lang ws rs out,
  Forall2 (fun u x => heard lang u = Ok (x, None)) ws rs /\ heard lang (spaced ws) = Ok (out, None) /\
  out <> spaced rs /\ exists rs', thin (tl rs) rs' /\ out = spaced (hd [] rs :: rs').
Proof.
  exists (lit "ita"), [lit "a"; lit "h"; lit "a"], [lit "아"; []; lit "아"], (lit "아 아").
  split; [repeat constructor; vm_compute; reflexivity|]; split; [vm_compute; reflexivity|]; split; [vm_compute; discriminate|].
  exists [lit "아"]; split; [|vm_compute; reflexivity].
  apply thin_drop; [discriminate|]; apply thin_keep; constructor.
Qed.
Print Assumptions C95_empty_refuted.

Example C95_example :
  heard (lit "ita") (lit "la") = Ok (lit "라", None) /\ heard (lit "ita") (lit "dolce") = Ok (lit "돌체", None) /\
  heard (lit "ita") (lit "vita") = Ok (lit "비타", None) /\ heard (lit "ita") (lit "la dolce vita") = Ok (lit "라 돌체 비타", None) /\
  match lookup bundled_files (specs_dir ++ lit "ita" ++ ext) with
  | Some src => match parse_spec choices0 src with
                | Ok s => l_translit (s_lang s) = [] /\
                    forallb (fun x => script_is (s_script s) x && negb (is_space x)) (lit "ladolcevita") = true
                | _ => False
                end
  | None => False
  end /\ hl_is_hangul go_hangul 0x20%N = false.
Proof.
  split; [vm_compute; reflexivity|]; split; [vm_compute; reflexivity|]; split; [vm_compute; reflexivity|]; split; [vm_compute; reflexivity|].
  split; vm_compute; [split|]; reflexivity.
Qed.
(** In Catalan, t is silent after n unless a vowel follows it; that of the next word does not count. *)
Example C95_catalan_example :
  heard (lit "cat") (lit "mont") = Ok (lit "몬", None) /\ heard (lit "cat") (lit "monta") = Ok (lit "몬타", None) /\
  heard (lit "cat") (lit "mont alt") = Ok (lit "몬 알", None).
Proof. split; [vm_compute; reflexivity|]; split; vm_compute; reflexivity. Qed.
