(** C98: spaces beside each other are read as one. *)
From Coq Require Import String Lia List Bool ZArith Permutation.
From Verif Require Import GoBase Utf8 Utf8Facts UniTables Unicode Replacer ReplacerFacts Regex Hre Rule Scripts Hsl Spec SpecOrder Jamo Procedure
  ProcFacts ProcLocal ProcChars CaseFacts SeparateFacts BString Bundled Api ApiFacts WordFacts WordScan WordRules WordProc WordSpec WhiteFacts CyrDict Translit
  PropBundled PropProc PropChars PropTranslit PropSplit PropWords PropMarks PropLines.
Import ListNotations.
Open Scope Z_scope.

(** The rules make of a phrase what they make of its words. *)
Definition made_of (s : spec) (t : list rune) (d : SubwordFacts.cells) : Prop :=
  exists c, worked SubwordFacts.word_of 1 (s_rewrite s) (ones t) c /\ worked seen_by_transcribe 2 (s_transcribe s) c d.
Lemma phrase_made s ts ds : spec_words s = true -> Forall good_rule (s_rewrite s) -> Forall good_transcribe (s_transcribe s) ->
  ts <> [] -> Forall (Forall (word_char s)) ts -> Forall2 (made_of s) ts ds ->
  Forall quiet ds /\ made_of s (spaced ts) (joins ds).
Proof.
  intros Hw Hrw Htr Hne Hc HF; destruct (words_parts s Hw) as (_ & Hr & Ht & _).
  assert (Forall (fun r => FindFacts.compiled (rule_from r) /\ RuleFacts.rule_ok r = true /\ wordwise_pattern (rule_from r) = true /\
            forall c, char_of (rule_texts r) c -> is_space (fst (c, 1)) = false) (s_rewrite s)) as Gr.
  { rewrite Forall_forall in *; intros r Hin; destruct (Hr r Hin) as [H1 H2]; destruct (Hrw r Hin) as (H3 & H4 & _); auto. }
  assert (Forall (fun r => FindFacts.compiled (rule_from r) /\ RuleFacts.rule_ok r = true /\ wordwise_pattern (rule_from r) = true /\
            forall c, char_of (rule_texts r) c -> snd (c, 2) = 2 \/ is_space (fst (c, 2)) = false) (s_transcribe s)) as Gt.
  { rewrite Forall_forall in *; intros r Hin; destruct (Htr r Hin) as [(H3 & H4 & _) _]; specialize (Ht r Hin); auto. }
  unfold made_of; rewrite <- ones_spaced.
  induction HF as [|t d ts ds (c & Wc & Wd) HF IH]; [contradiction|]; inversion Hc as [|? ? Hc1 Hc2]; subst.
  assert (Forall (fun x : rune * Z => is_space (fst x) = false) (ones t)) as Ho.
  { unfold ones; apply Forall_map; eapply Forall_impl; [|exact Hc1]; intros x [_ Hx]; exact Hx. }
  assert (quiet c) as Qc.
  { assert (Forall (fun x : rune * Z => is_space (fst x) = false) c) as H0
      by (eapply (worked_joined SubwordFacts.word_of 1 _ _ joined_word (fun c => eq_refl) unspaced_word Gr); eassumption).
    eapply Forall_impl; [|exact H0]; cbv beta; auto. }
  assert (quiet d) as Qd by (eapply (worked_joined seen_by_transcribe 2 _ _ joined_visible visible_len unspaced_seen Gt); eassumption).
  destruct ts as [|t2 ts].
  - inversion HF; subst; split; [repeat constructor; exact Qd|]; exists c; auto.
  - destruct (IH ltac:(discriminate) Hc2) as (Hq & c2 & W1 & W2); split; [constructor; assumption|].
    assert (ds <> []) as Hds by (inversion HF; discriminate).
    exists (joined c c2); cbn [map] in *; rewrite (joins_cons (ones t)) by discriminate; rewrite (joins_cons d ds Hds); split.
    + apply (worked_joined SubwordFacts.word_of 1 _ _ joined_word (fun c => eq_refl) unspaced_word Gr); assumption.
    + apply (worked_joined seen_by_transcribe 2 _ _ joined_visible visible_len unspaced_seen Gt); assumption.
Qed.
Lemma word_made s t : Forall good_rule (s_rewrite s) -> Forall good_transcribe (s_transcribe s) -> scalars t -> exists d, made_of s t d.
Proof.
  intros Hrw Htr Hs; destruct (rewrite_worked (s_rewrite s) (ones t) Hrw (const_scalar _ _ Hs)) as (c & Wc).
  destruct (transcribe_worked (s_transcribe s) c Htr) as (d & Wd); [eapply worked_scalar; [exact Wc|apply const_scalar; exact Hs]|].
  exists d, c; auto.
Qed.
Lemma words_made s ts : Forall good_rule (s_rewrite s) -> Forall good_transcribe (s_transcribe s) -> Forall scalars ts -> exists ds, Forall2 (made_of s) ts ds.
Proof.
  intros Hrw Htr; induction 1 as [|t ts Ht Hts (ds & IH)]; [exists []; constructor|].
  destruct (word_made s t Hrw Htr Ht) as (d & Hd); exists (d :: ds); constructor; assumption.
Qed.
Lemma empty_made s d : made_of s [] d -> d = [].
Proof.
  intros (c & Wc & Wd); pose proof (worked_empty _ _ _ _ _ Wc eq_refl eq_refl) as ->; exact (worked_empty _ _ _ _ _ Wd eq_refl eq_refl).
Qed.

Lemma gist_empty_word da db b : Forall quiet da -> da <> [] -> db <> [] -> gist b (joins (da ++ [] :: db)) = gist b (joins (da ++ db)).
Proof.
  intros Hq Ha Hb; revert b; induction Hq as [|a da Qa Hq IH]; intros b; [contradiction|]; cbn [app].
  destruct da as [|a2 da].
  - cbn [app].
    refine (eq_trans (f_equal (gist b) (joins_cons a ([] :: db) ltac:(discriminate))) (eq_trans _ (f_equal (gist b) (eq_sym (joins_cons a db Hb))))).
    rewrite !(gist_joined a) by exact Qa.
    assert (gist true (joins ([] :: db)) = gist true (joins db)) as ->; [|reflexivity].
    refine (eq_trans (f_equal (gist true) (joins_cons [] db Hb)) (gist_joined [] (joins db) true (Forall_nil _))).
  - rewrite !(joins_cons a) by discriminate; rewrite !(gist_joined a) by exact Qa; rewrite (IH ltac:(discriminate) true); reflexivity.
Qed.

(** An empty word between others changes nothing. *)
Lemma phases_empty H s us vs : spec_words s = true -> Forall good_rule (s_rewrite s) -> Forall good_transcribe (s_transcribe s) ->
  us <> [] -> vs <> [] -> Forall (fun u => scalars u /\ Forall (word_char s) u) us -> Forall (fun u => scalars u /\ Forall (word_char s) u) vs ->
  after_translit H s None (encode (spaced (us ++ [] :: vs))) = after_translit H s None (encode (spaced (us ++ vs))).
Proof.
  intros Hw Hrw Htr Hu Hv Fu Fv; destruct (words_parts s Hw) as (Hsc & _ & _ & Hk).
  assert (forallb single_key (s_normReplacer s) = true) as Hkey.
  { apply forallb_forall; intros p Hin; specialize (Hk p Hin); unfold norm_words in Hk.
    apply andb_true_iff in Hk; destruct Hk as [Hk _]; apply andb_true_iff in Hk; apply Hk. }
  assert (forall us, Forall (fun u => scalars u /\ Forall (word_char s) u) us -> scalars (spaced us)) as Hsp.
  { clear; induction 1 as [|u ws (Hu & _) Hws IH]; [constructor|]; destruct ws; [exact Hu|]; rewrite spaced_cons by discriminate.
    apply Forall_app; split; [exact Hu|]; constructor; [reflexivity|exact IH]. }
  assert (Forall (fun u => scalars u /\ Forall (word_char s) u) (us ++ [] :: vs)) as F1.
  { apply Forall_app; split; [exact Fu|]; constructor; [split; constructor|exact Fv]. }
  assert (Forall (fun u => scalars u /\ Forall (word_char s) u) (us ++ vs)) as F2 by (apply Forall_app; split; assumption).
  rewrite !after_translit_inner, !normalize_chars by (try assumption; apply Hsp; assumption).
  refine (f_equal (fun z => bind z _) _).
  refine (eq_trans (f_equal (fun z => inner H s (encode z)) (normal_spaced s (us ++ [] :: vs) Hw))
           (eq_trans _ (f_equal (fun z => inner H s (encode z)) (eq_sym (normal_spaced s (us ++ vs) Hw))))).
  rewrite !map_app; cbn [map]; change (normal_runes s []) with (@nil rune).
  set (ts := map (normal_runes s) us); set (rs := map (normal_runes s) vs).
  assert (forall us, Forall (fun u => scalars u /\ Forall (word_char s) u) us -> Forall (Forall (word_char s)) (map (normal_runes s) us)) as Hnw.
  { intros l Hl; apply Forall_map; eapply Forall_impl; [|exact Hl]; cbv beta; intros u (H2 & H3); apply normal_word; assumption. }
  assert (forall us, Forall scalars (map (normal_runes s) us)) as Hns by (intros l; apply Forall_map, Forall_forall; intros u _; apply normal_runes_scalars).
  destruct (words_made s ts Hrw Htr (Hns us)) as (da & Da), (words_made s rs Hrw Htr (Hns vs)) as (db & Db).
  destruct (word_made s [] Hrw Htr (Forall_nil _)) as (d0 & D0); pose proof (empty_made s d0 D0) as ->.
  assert (ts <> []) as Hts by (subst ts; destruct us; [contradiction|discriminate]).
  assert (da <> []) as Hda by (destruct Da; [contradiction|discriminate]).
  assert (db <> []) as Hdb by (subst rs; destruct vs; [contradiction|]; inversion Db; discriminate).
  assert (ts ++ rs <> []) as H2ne by (destruct ts; [contradiction|discriminate]).
  assert (ts ++ [] :: rs <> []) as H1ne by (destruct ts; discriminate).
  destruct (phrase_made s (ts ++ [] :: rs) (da ++ [] :: db) Hw Hrw Htr H1ne) as (Q1 & c1 & W1 & V1).
  { apply Forall_app; split; [apply Hnw; exact Fu|]; constructor; [constructor|apply Hnw; exact Fv]. }
  { apply Forall2_app; [exact Da|]; constructor; assumption. }
  destruct (phrase_made s (ts ++ rs) (da ++ db) Hw Hrw Htr H2ne) as (Q2 & c2 & W2 & V2).
  { apply Forall_app; split; apply Hnw; assumption. }
  { apply Forall2_app; assumption. }
  assert (forall l, scalars (spaced l) -> forall l', Forall (Forall (word_char s)) l' -> l' = l -> Forall (fun x => meaningful s x = true) (spaced l)) as Hmean.
  { intros l _ l' Hl ->; clear - Hl; induction Hl as [|t ts Ht Hts IH]; [constructor|].
    assert (Forall (fun x => meaningful s x = true) t) as H0 by (eapply Forall_impl; [|exact Ht]; intros x [Hx _]; exact Hx).
    destruct ts; [exact H0|]; rewrite spaced_cons by discriminate; apply Forall_app; split; [exact H0|]; constructor; [|exact IH].
    unfold meaningful; rewrite orb_true_iff; right; reflexivity. }
  assert (forall l, Forall scalars l -> scalars (spaced l)) as Hss.
  { clear; induction 1 as [|u ws Hu Hws IH]; [constructor|]; destruct ws; [exact Hu|]; rewrite spaced_cons by discriminate.
    apply Forall_app; split; [exact Hu|]; constructor; [reflexivity|exact IH]. }
  assert (scalars (spaced (ts ++ [] :: rs))) as S1 by (apply Hss, Forall_app; split; [apply Hns|]; constructor; [constructor|apply Hns]).
  assert (scalars (spaced (ts ++ rs))) as S2 by (apply Hss, Forall_app; split; apply Hns).
  rewrite (inner_text H s _ c1 (joins (da ++ [] :: db)) Hrw Htr S1); [|eapply Hmean; [exact S1| |reflexivity]|exact W1|exact V1].
  2:{ apply Forall_app; split; [apply Hnw; exact Fu|]; constructor; [constructor|apply Hnw; exact Fv]. }
  rewrite (inner_text H s _ c2 (joins (da ++ db)) Hrw Htr S2); [|eapply Hmean; [exact S2| |reflexivity]|exact W2|exact V2].
  2:{ apply Forall_app; split; apply Hnw; assumption. }
  apply Forall_app in Q2; rewrite gist_empty_word by tauto; reflexivity.
Qed.

(** ** Texts *)
Lemma spaced_app us vs : us <> [] -> vs <> [] -> spaced (us ++ vs) = spaced us ++ 0x20%N :: spaced vs.
Proof.
  intros Hu Hv; induction us as [|u us IH]; [contradiction|]; cbn [app]; destruct us as [|u2 us].
  - cbn [app]; rewrite spaced_cons by exact Hv; reflexivity.
  - rewrite !(spaced_cons u) by discriminate; rewrite IH by discriminate; rewrite <- app_assoc; reflexivity.
Qed.
Lemma split_spaces (P : N -> Prop) t : Forall (fun x => P x \/ x = 0x20%N) t -> exists ws, ws <> [] /\ Forall (Forall P) ws /\ t = spaced ws.
Proof.
  induction 1 as [|x t Hx Ht (ws & Hne & Hws & ->)]; [exists [[]]; split; [discriminate|]; split; [repeat constructor|reflexivity]|].
  destruct Hx as [Hx| ->].
  - destruct ws as [|w ws]; [contradiction|]; inversion Hws as [|? ? H1 H2]; subst; exists ((x :: w) :: ws); split; [discriminate|]; split.
    + constructor; [constructor; assumption|assumption].
    + destruct ws; reflexivity.
  - exists ([] :: ws); split; [discriminate|]; split; [constructor; [constructor|exact Hws]|]; rewrite spaced_cons by exact Hne; reflexivity.
Qed.
Definition fine (s : spec) (x : rune) : Prop := is_scalar x = true /\ word_char s x.
Lemma fine_words s ws : Forall (Forall (fine s)) ws -> Forall (fun u => scalars u /\ Forall (word_char s) u) ws.
Proof.
  intros H; eapply Forall_impl; [|exact H]; cbv beta; intros u Hu; split; [eapply Forall_impl; [|exact Hu]|eapply Forall_impl; [|exact Hu]]; intros x Hx; apply Hx.
Qed.
Lemma two_spaces H s u v : spec_words s = true -> Forall good_rule (s_rewrite s) -> Forall good_transcribe (s_transcribe s) ->
  Forall (fun x => fine s x \/ x = 0x20%N) u -> Forall (fun x => fine s x \/ x = 0x20%N) v ->
  after_translit H s None (encode (u ++ 0x20%N :: 0x20%N :: v)) = after_translit H s None (encode (u ++ 0x20%N :: v)).
Proof.
  intros Hw Hrw Htr Hu Hv.
  destruct (split_spaces (fine s) u Hu) as (us & Hun & Hus & ->), (split_spaces (fine s) v Hv) as (vs & Hvn & Hvs & ->).
  pose proof (phases_empty H s us vs Hw Hrw Htr Hun Hvn (fine_words s us Hus) (fine_words s vs Hvs)) as E.
  assert (spaced (us ++ [] :: vs) = spaced us ++ 0x20%N :: 0x20%N :: spaced vs) as E1.
  { refine (eq_trans (spaced_app us ([] :: vs) Hun ltac:(discriminate)) _).
    exact (f_equal (fun z => spaced us ++ 0x20%N :: z) (spaced_cons [] vs Hvn)). }
  refine (eq_trans (f_equal (fun z => after_translit H s None (encode z)) (eq_sym E1)) (eq_trans E _)).
  exact (f_equal (fun z => after_translit H s None (encode z)) (spaced_app us vs Hun Hvn)).
Qed.
Definition text_char (s : spec) (x : rune) : Prop := fine s x \/ a_blank x.
Lemma text_meaningful s x : text_char s x -> is_scalar x = true /\ meaningful s x = true.
Proof.
  intros [[H1 [H2 _]]|H]; [split; assumption|]; split; [|apply meaningful_blend, blank_white; exact H].
  unfold a_blank in H; cbn [In] in H; repeat (destruct H as [<-|H]; [reflexivity|]); contradiction.
Qed.
Lemma text_blend s t : Forall (text_char s) t -> Forall (fun x => fine s x \/ x = 0x20%N) (map blend t).
Proof.
  intros H; apply Forall_map; eapply Forall_impl; [|exact H]; cbv beta; intros x [Hx|Hx].
  - left; rewrite blend_plain; [exact Hx|]; destruct (white x) eqn:E; [|reflexivity]; apply white_space in E; destruct Hx as [_ [_ Hx]]; congruence.
  - right; unfold blend; rewrite (blank_white x Hx); reflexivity.
Qed.
Lemma phases_run H s u bs v : spec_words s = true -> spec_even s = true -> Forall good_rule (s_rewrite s) -> Forall good_transcribe (s_transcribe s) ->
  Forall (text_char s) u -> Forall (text_char s) v -> bs <> [] -> Forall a_blank bs ->
  after_translit H s None (encode (u ++ bs ++ v)) = after_translit H s None (encode (u ++ 0x20%N :: v)).
Proof.
  intros Hw He Hrw Htr Hu Hv Hne Hbs.
  assert (forall t, Forall (text_char s) t -> after_translit H s None (encode t) = after_translit H s None (encode (map blend t))) as Hbl.
  { intros t Ht; symmetry; apply phases_blend; try assumption; [unfold scalars|]; eapply Forall_impl; [|exact Ht| |exact Ht]; intros x Hx; apply (text_meaningful s x Hx). }
  assert (Forall (text_char s) bs) as Hb by (eapply Forall_impl; [|exact Hbs]; intros x Hx; right; exact Hx).
  assert (text_char s 0x20%N) as Hsp by (right; unfold a_blank; cbn [In]; tauto).
  rewrite (Hbl (u ++ bs ++ v)) by (apply Forall_app; split; [exact Hu|]; apply Forall_app; split; assumption).
  rewrite (Hbl (u ++ 0x20%N :: v)) by (apply Forall_app; split; [exact Hu|]; constructor; assumption).
  rewrite !map_app; cbn [map]; change (blend 0x20%N) with 0x20%N.
  pose proof (text_blend s u Hu) as Bu; pose proof (text_blend s v Hv) as Bv; clear - Hw Hrw Htr Bu Bv Hne Hbs.
  induction Hbs as [|b bs Hb Hbs IH]; [contradiction|]; cbn [map app].
  assert (blend b = 0x20%N) as -> by (unfold blend; rewrite (blank_white b Hb); reflexivity).
  destruct bs as [|b2 bs]; [reflexivity|]; inversion Hbs as [|? ? Hb2 Hbs2]; subst.
  rewrite <- (IH ltac:(discriminate)); cbn [map app].
  assert (blend b2 = 0x20%N) as -> by (unfold blend; rewrite (blank_white b2 Hb2); reflexivity).
  apply two_spaces; try assumption; apply Forall_app; split; [|exact Bv].
  apply text_blend; eapply Forall_impl; [|exact Hbs2]; intros x Hx; right; exact Hx.
Qed.

(** ** The bundled languages *)
Definition text_of (s : spec) (t : list rune) : Prop :=
  Forall (fun x => is_scalar x = true /\ of_language s x /\ is_space x = false \/ a_blank x) t.

(** In a bundled language without transliterators other than Dutch, Welsh and Middle Welsh, and in
    one with any but furigana: if the transliterators make of two texts of the language two texts that differ in how
    many spaces, tabs and line breaks there are in one place, but at least one, then the results are the same. *)
Theorem C98_transliterated : forall W (H : hangul_lib) c lang src s (reg : list (bytes * translit W)) w x y u bs v,
  choices_ok c -> lookup bundled_files (specs_dir ++ lang ++ ext) = Some src -> parse_spec c src = Ok s ->
  l_translit (s_lang s) = [] /\ ~ In lang [lit "cym"; lit "nld"; lit "wlm"] \/
    (exists sc, In sc (l_translit (s_lang s)) /\ sc <> lit "furigana") ->
  transliterate (l_translit (s_lang s)) reg w None (encode x) = (w, None, Ok (encode (u ++ bs ++ v))) ->
  transliterate (l_translit (s_lang s)) reg w None (encode y) = (w, None, Ok (encode (u ++ 0x20%N :: v))) ->
  text_of s u -> text_of s v -> bs <> [] -> Forall a_blank bs ->
  exists r, result H c reg w lang x = Ok (r, None) /\ result H c reg w lang y = Ok (r, None).
Proof.
  intros W H c lang src s reg w x y u bs v Hc Es Ep Hl T1 T2 Hu Hv Hne Hbs.
  destruct (forward_returns H c reg w lang src s _ _ Hc Es Ep T1) as (r & F1).
  exists r; split; [exact (forward_result H c reg w lang src s x r Es Ep F1)|].
  apply (forward_result H c reg w lang src s y r Es Ep).
  destruct (bundled_rules _ _ _ _ Es Hc Ep) as (_ & Hrw & Htr & _).
  destruct (bundled_lines c lang src s Hc Es Ep Hl) as (s0 & E0 & Ho & Hamb & Hw & He).
  rewrite (forward_order H s0 s reg false w _ Ho Hamb) in F1; rewrite (forward_order H s0 s reg false w _ Ho Hamb); destruct Ho as [Ho _].
  assert (s_lang s = s_lang s0) as El by (rewrite Ho; reflexivity).
  assert (s_rewrite s = s_rewrite s0) as Er by (rewrite Ho; reflexivity).
  assert (s_transcribe s = s_transcribe s0) as Et by (rewrite Ho; reflexivity).
  assert (forall x, of_language s x -> of_language s0 x) as Hlg.
  { intros z; unfold of_language; rewrite Ho; cbn [s_script s_puncts]; auto. }
  clear Ho; rewrite Er in Hrw; rewrite Et in Htr; rewrite El in T1, T2.
  assert (forall t, text_of s t -> Forall (text_char s0) t) as Htx.
  { intros t Ht; eapply Forall_impl; [|exact Ht]; cbv beta; intros z [(H1 & H2 & H3)|Hz]; [left|right; exact Hz].
    split; [exact H1|]; split; [apply of_language_meaningful; auto|exact H3]. }
  unfold forward in *; cbn [new_tracer trace_word emit] in *; rewrite T1 in F1; rewrite T2.
  rewrite <- (phases_run H s0 u bs v Hw He Hrw Htr (Htx u Hu) (Htx v Hv) Hne Hbs); exact F1.
Qed.
Print Assumptions C98_transliterated.

(** In a bundled language that needs no transliterator, other than Dutch, Welsh and Middle Welsh. *)
Corollary C98_run : forall W (H : hangul_lib) c lang src s (reg : list (bytes * translit W)) w u bs v,
  choices_ok c -> lookup bundled_files (specs_dir ++ lang ++ ext) = Some src -> parse_spec c src = Ok s -> l_translit (s_lang s) = [] ->
  ~ In lang [lit "cym"; lit "nld"; lit "wlm"] ->
  text_of s u -> text_of s v -> bs <> [] -> Forall a_blank bs ->
  exists r, result H c reg w lang (u ++ bs ++ v) = Ok (r, None) /\ result H c reg w lang (u ++ 0x20%N :: v) = Ok (r, None).
Proof.
  intros W H c lang src s reg w u bs v Hc Es Ep Hl Hlang Hu Hv Hne Hbs.
  apply (C98_transliterated W H c lang src s reg w _ _ u bs v Hc Es Ep (or_introl (conj Hl Hlang))); try assumption; rewrite Hl; reflexivity.
Qed.
Print Assumptions C98_run.

(** Two texts that differ only in how many spaces, tabs and line breaks, and which of them, stand in their gaps. *)
Inductive same_gaps : list rune -> list rune -> Prop :=
| gaps_end : same_gaps [] []
| gaps_char x u v : same_gaps u v -> same_gaps (x :: u) (x :: v)
| gaps_run b1 b2 u v : b1 <> [] -> b2 <> [] -> Forall a_blank b1 -> Forall a_blank b2 -> same_gaps u v -> same_gaps (b1 ++ u) (b2 ++ v).
Lemma gaps_text s u v : same_gaps u v -> text_of s u -> text_of s v.
Proof.
  unfold text_of; induction 1 as [|x u v _ IH|b1 b2 u v _ _ _ Hb _ IH]; intros Hu; [constructor| |].
  - inversion Hu; subst; constructor; auto.
  - apply Forall_app in Hu; destruct Hu as [_ Hu]; apply Forall_app; split; [|auto]; eapply Forall_impl; [|exact Hb]; intros x Hx; right; exact Hx.
Qed.
Lemma gaps_nonnil u v : same_gaps u v -> u <> [] -> v <> [].
Proof. intros [|x u' v' _|b1 b2 u' v' _ Hb _ _ _] H; [contradiction|discriminate|]; destruct b2; [contradiction|discriminate]. Qed.
Lemma text_of_text s t : text_of s t -> of_text s t.
Proof.
  intros H; split; [unfold scalars|]; (eapply Forall_impl; [|exact H]); cbv beta; intros x [(H1 & H2 & _)|Hx]; try assumption.
  - unfold a_blank in Hx; cbn [In] in Hx; repeat (destruct Hx as [<-|Hx]; [reflexivity|]); contradiction.
  - right; right; apply white_space, blank_white; exact Hx.
Qed.

(** Any number of gaps at once. *)
Theorem C98_gaps : forall W (H : hangul_lib) c lang src s (reg : list (bytes * translit W)) w u v,
  choices_ok c -> lookup bundled_files (specs_dir ++ lang ++ ext) = Some src -> parse_spec c src = Ok s -> l_translit (s_lang s) = [] ->
  ~ In lang [lit "cym"; lit "nld"; lit "wlm"] ->
  text_of s u -> same_gaps u v ->
  exists r, result H c reg w lang u = Ok (r, None) /\ result H c reg w lang v = Ok (r, None).
Proof.
  intros W H c lang src s reg w u v Hc Es Ep Hl Hlang Hu Huv.
  cut (forall p, text_of s p -> result H c reg w lang (p ++ u) = result H c reg w lang (p ++ v)).
  { intros Hp; specialize (Hp [] (Forall_nil _)); cbn [app] in Hp.
    destruct (C97_lines W H c lang src s reg w u u Hc Es Ep Hl Hlang) as (r & E & _);
      [apply (text_of_text s u Hu)|apply (text_of_text s u Hu)|clear; induction u; constructor; [left; reflexivity|assumption]|].
    exists r; split; [exact E|]; rewrite <- Hp; exact E. }
  assert (forall b, a_blank b -> text_of s [b]) as Hb1 by (intros b Hb; constructor; [right; exact Hb|constructor]).
  assert (a_blank 0x20%N) as Hsp by (unfold a_blank; cbn [In]; tauto).
  induction Huv as [|x u v Huv IH|b1 b2 u v N1 N2 B1 B2 Huv IH]; intros p Hp; [reflexivity| |].
  - assert (text_of s u /\ text_of s [x]) as [Hu' Hx] by (inversion Hu; subst; split; [assumption|constructor; [assumption|constructor]]).
    specialize (IH Hu' (p ++ [x])); rewrite <- !app_assoc in IH; apply IH; unfold text_of in *; apply Forall_app; split; assumption.
  - assert (text_of s u) as Hu' by (unfold text_of in *; apply Forall_app in Hu; apply Hu).
    destruct (C98_run W H c lang src s reg w p b1 u Hc Es Ep Hl Hlang Hp Hu' N1 B1) as (r1 & E1 & E2).
    destruct (C98_run W H c lang src s reg w p b2 v Hc Es Ep Hl Hlang Hp (gaps_text s u v Huv Hu') N2 B2) as (r2 & E3 & E4).
    rewrite E1, E3, <- E2, <- E4.
    specialize (IH Hu' (p ++ [0x20%N])); rewrite <- !app_assoc in IH; apply IH.
    unfold text_of in *; apply Forall_app; split; [exact Hp|apply Hb1; exact Hsp].
Qed.
Print Assumptions C98_gaps.

(** In sentences with punctuation, too. *)
Theorem C98_sentence : forall W (H : hangul_lib) c lang src s (reg : list (bytes * translit W)) w u v ps qs,
  choices_ok c -> lookup bundled_files (specs_dir ++ lang ++ ext) = Some src -> parse_spec c src = Ok s -> l_translit (s_lang s) = [] ->
  ~ In lang [lit "cym"; lit "nld"; lit "wlm"] ->
  text_of s u -> well_marked s ps -> Forall (fun p => text_of s (snd p)) ps -> same_gaps u v ->
  Forall2 (fun p q => fst p = fst q /\ same_gaps (snd p) (snd q)) ps qs ->
  exists r, result H c reg w lang (marked_text u ps) = Ok (r, None) /\ result H c reg w lang (marked_text v qs) = Ok (r, None).
Proof.
  intros W H c lang src s reg w u v ps qs Hc Es Ep Hl Hlang Hu Hp Ht Huv Hpq; revert u v Hu Huv Hp Ht.
  induction Hpq as [|[m u1] [m' v1] ps qs [E Hm] Hpq IH]; intros u v Hu Huv Hp Ht.
  - unfold marked_text; cbn [map concat]; rewrite !app_nil_r.
    apply (C98_gaps W H c lang src s reg w u v Hc Es Ep Hl Hlang); assumption.
  - cbn [fst snd] in E, Hm; subst m'; destruct Hp as (Hmark & Hu1 & Hne & Hp); inversion Ht as [|? ? Ht1 Ht2]; subst; cbn [snd] in Ht1.
    destruct (IH u1 v1 Ht1 Hm Hp Ht2) as (r & E1 & E2).
    pose proof (text_of_text s v (gaps_text s u v Huv Hu)) as Hv; pose proof (text_of_text s v1 (gaps_text s u1 v1 Hm Ht1)) as Hv1.
    assert (well_marked s qs) as Hq.
    { clear - Hpq Hp Ht2; induction Hpq as [|[a b] [a' b'] ps qs [E1 E2] Hpq IH]; [exact I|]; cbn [fst snd] in *; subst a'.
      inversion Ht2 as [|? ? H5 H6]; subst; cbn [snd] in H5.
      destruct Hp as (H1 & H2 & H3 & H4); split; [exact H1|]; split; [apply text_of_text, (gaps_text s b b' E2 H5)|]; split; [|apply IH; assumption].
      destruct H3 as [H3| ->]; [left; apply (gaps_nonnil b b' E2 H3)|right; inversion Hpq; reflexivity]. }
    assert (forall a, of_text s a -> (forall p y, a = p ++ [y] -> of_language s y)) as Hlast.
    { intros a [_ Ha] p y ->; apply Forall_app in Ha; destruct Ha as [_ Ha]; inversion Ha; assumption. }
    assert (forall a l, of_text s a -> a <> [] \/ l = [] -> forall y p, marked_text a l = y :: p -> of_language s y) as Hfirst.
    { intros [|b a] l [_ Ha] Hx y p; unfold marked_text.
      - destruct Hx as [Hx| ->]; [contradiction|discriminate].
      - cbn [app]; intros E; injection E as -> _; inversion Ha; assumption. }
    assert (forall a b l, marked_text a ((m, b) :: l) = a ++ m ++ marked_text b l) as Hsplit.
    { intros a b l; unfold marked_text; cbn [map concat fst snd]; rewrite <- app_assoc; reflexivity. }
    rewrite !Hsplit.
    assert (v1 <> [] \/ qs = []) as Hne'.
    { destruct Hne as [Hne| ->]; [left; apply (gaps_nonnil u1 v1 Hm Hne)|right; inversion Hpq; reflexivity]. }
    destruct (C98_gaps W H c lang src s reg w u v Hc Es Ep Hl Hlang Hu Huv) as (x & X1 & X2).
    apply text_of_text in Hu.
    destruct (C96_mark W H c lang src s reg w u m (marked_text u1 ps)) as (a1 & b1 & A1 & B1 & R1); try assumption;
      [apply Hu|apply (marked_scalars s); assumption|apply (Hlast u); exact Hu|apply Hfirst; assumption|].
    destruct (C96_mark W H c lang src s reg w v m (marked_text v1 qs)) as (a2 & b2 & A2 & B2 & R2); try assumption;
      [apply Hv|apply (marked_scalars s); assumption|apply (Hlast v); exact Hv|apply Hfirst; assumption|].
    exists (a1 ++ encode m ++ b1); split; [exact R1|]; rewrite R2.
    rewrite X1 in A1; rewrite X2 in A2; rewrite E1 in B1; rewrite E2 in B2; injection A1 as <-; injection A2 as <-; injection B1 as <-; injection B2 as <-; reflexivity.
Qed.
Print Assumptions C98_sentence.

(** Texts without Latin letters and apostrophes, in the languages with a Cyrillic transliterator. *)
Corollary C98_cyrillic : forall W (H : hangul_lib) c lang src s country t order tl (reg : list (bytes * translit W)) w u bs v,
  choices_ok c -> lookup bundled_files (specs_dir ++ lang ++ ext) = Some src -> parse_spec c src = Ok s ->
  l_translit (s_lang s) = [cyrillic_scheme country] -> In country cyrillic_countries -> lookup cyr_dict country = Some t -> an_order t order ->
  lookup reg (cyrillic_scheme country) = Some tl -> (forall x, tl_run tl w x = (w, cyrillic_run order country x)) ->
  text_of s u -> text_of s v -> Forall (fun x => ~ latin x /\ x <> 0x27%N) (u ++ v) -> bs <> [] -> Forall a_blank bs ->
  exists r, result H c reg w lang (u ++ bs ++ v) = Ok (r, None) /\ result H c reg w lang (u ++ 0x20%N :: v) = Ok (r, None).
Proof.
  intros W H c lang src s country t order tl reg w u bs v Hc Es Ep Hl Hin Ht P Hreg Hrun Hu Hv Hn Hne Hbs.
  assert (forall x, scalars x -> Forall (fun x => ~ latin x /\ x <> 0x27%N) x ->
    transliterate (l_translit (s_lang s)) reg w None (encode x) = (w, None, Ok (encode x))) as Htl.
  { intros x Sx Hx; rewrite Hl; cbn [transliterate]; rewrite Hreg, Hrun.
    assert (cyrillic_run order country (encode x) = Ok (encode x)) as ->; [|reflexivity].
    apply (C20_unchanged_partial country t order); try assumption; rewrite runes_encode by exact Sx; rewrite Forall_forall in Hx.
    - intros y Hy; apply (Hx y Hy).
    - intros _ Hy; destruct (Hx _ Hy) as [_ H0]; apply H0; reflexivity. }
  assert (forall x, a_blank x -> is_scalar x = true /\ ~ latin x /\ x <> 0x27%N) as Hb.
  { intros x; unfold a_blank; cbn [In]; intros Hx; repeat (destruct Hx as [<-|Hx]; [split; [reflexivity|split; [vm_compute; discriminate|vm_compute; discriminate]]|]); contradiction. }
  assert (forall t, text_of s t -> scalars t) as Hs.
  { intros t0 H0; eapply Forall_impl; [|exact H0]; cbv beta; intros x [(H1 & _)|Hx]; [exact H1|apply (Hb x Hx)]. }
  assert (forall x, Forall a_blank x -> scalars x /\ Forall (fun x => ~ latin x /\ x <> 0x27%N) x) as Hbl.
  { intros x Hx; split; (eapply Forall_impl; [|exact Hx]); intros y Hy; apply (Hb y Hy). }
  apply Forall_app in Hn; destruct Hn as [Nu Nv].
  assert (forall x, Forall a_blank x -> transliterate (l_translit (s_lang s)) reg w None (encode (u ++ x ++ v)) = (w, None, Ok (encode (u ++ x ++ v)))) as Hrn.
  { intros x Hx; destruct (Hbl x Hx) as [B1 B2]; pose proof (Hs u Hu) as Su; pose proof (Hs v Hv) as Sv; unfold scalars in *.
    apply Htl; apply Forall_app; (split; [assumption|]); apply Forall_app; split; assumption. }
  apply (C98_transliterated W H c lang src s reg w _ _ u bs v Hc Es Ep); try assumption.
  - right; exists (cyrillic_scheme country); rewrite Hl; split; [left; reflexivity|]; unfold cyrillic_scheme; discriminate.
  - apply Hrn; exact Hbs.
  - apply (Hrn [0x20%N]); repeat constructor; unfold a_blank; cbn [In]; tauto.
Qed.
Print Assumptions C98_cyrillic.

Lemma gaps_same {X} (Q : rune -> Prop) (R : list rune -> X) u v : (forall b, a_blank b -> Q b) ->
  (forall p bs t, Forall Q p -> Forall Q t -> bs <> [] -> Forall a_blank bs -> R (p ++ bs ++ t) = R (p ++ 0x20%N :: t)) ->
  same_gaps u v -> Forall Q u -> Forall Q v /\ forall p, Forall Q p -> R (p ++ u) = R (p ++ v).
Proof.
  intros Hb HR; induction 1 as [|x u v Huv IH|b1 b2 u v N1 N2 B1 B2 Huv IH]; intros Hu.
  - split; [constructor|reflexivity].
  - inversion Hu as [|? ? Hx Hu']; subst; destruct (IH Hu') as [Hv HI]; split; [constructor; assumption|]; intros p Hp.
    specialize (HI (p ++ [x])); rewrite <- !app_assoc in HI; apply HI; apply Forall_app; split; [exact Hp|constructor; [exact Hx|constructor]].
  - apply Forall_app in Hu; destruct Hu as [_ Hu]; destruct (IH Hu) as [Hv HI].
    split; [apply Forall_app; split; [eapply Forall_impl; [|exact B2]; exact Hb|exact Hv]|]; intros p Hp.
    rewrite (HR p b1 u Hp Hu N1 B1), (HR p b2 v Hp Hv N2 B2).
    specialize (HI (p ++ [0x20%N])); rewrite <- !app_assoc in HI; apply HI; apply Forall_app; split; [exact Hp|].
    constructor; [apply Hb; unfold a_blank; cbn [In]; tauto|constructor].
Qed.
Theorem C98_cyrillic_gaps : forall W (H : hangul_lib) c lang src s country t order tl (reg : list (bytes * translit W)) w u v,
  choices_ok c -> lookup bundled_files (specs_dir ++ lang ++ ext) = Some src -> parse_spec c src = Ok s ->
  l_translit (s_lang s) = [cyrillic_scheme country] -> In country cyrillic_countries -> lookup cyr_dict country = Some t -> an_order t order ->
  lookup reg (cyrillic_scheme country) = Some tl -> (forall x, tl_run tl w x = (w, cyrillic_run order country x)) ->
  text_of s u -> Forall (fun x => ~ latin x /\ x <> 0x27%N) u -> same_gaps u v ->
  exists r, result H c reg w lang u = Ok (r, None) /\ result H c reg w lang v = Ok (r, None).
Proof.
  intros W H c lang src s country t order tl reg w u v Hc Es Ep Hl Hin Ht P Hreg Hrun Hu Hn Huv.
  set (Q := fun x => (is_scalar x = true /\ of_language s x /\ is_space x = false \/ a_blank x) /\ (~ latin x /\ x <> 0x27%N)).
  assert (forall l, Forall Q l -> text_of s l /\ Forall (fun x => ~ latin x /\ x <> 0x27%N) l) as HQ.
  { intros l Hlq; split; [unfold text_of|]; (eapply Forall_impl; [|exact Hlq]); intros x Hx; apply Hx. }
  assert (Forall Q u) as Qu.
  { unfold text_of in Hu; rewrite Forall_forall in Hu, Hn |- *; intros x Hx; split; [apply (Hu x Hx)|apply (Hn x Hx)]. }
  assert (forall b, a_blank b -> Q b) as Qb.
  { intros b Hb; split; [right; exact Hb|]; unfold a_blank in Hb; cbn [In] in Hb.
    repeat (destruct Hb as [<-|Hb]; [split; vm_compute; discriminate|]); contradiction. }
  destruct (gaps_same Q (result H c reg w lang) u v Qb) as [_ HI]; try assumption.
  { intros p bs l Hp Hlq Hne Hbs; destruct (HQ p Hp) as [P1 P2], (HQ l Hlq) as [L1 L2].
    destruct (C98_cyrillic W H c lang src s country t order tl reg w p bs l) as (r & E1 & E2); try assumption; [apply Forall_app; split; assumption|].
    rewrite E1, E2; reflexivity. }
  specialize (HI [] (Forall_nil _)); cbn [app] in HI.
  destruct (C97_cyrillic W H c lang src s country t order tl reg w u u) as (r & E & _); try assumption;
    [apply (text_of_text s u Hu)| |clear; induction u; constructor; [left; reflexivity|assumption]|].
  - destruct (text_of_text s u Hu) as [_ Hlg]; rewrite Forall_forall in Hlg, Hn |- *; intros x Hx; split; [apply (Hlg x Hx)|apply (Hn x Hx)].
  - exists r; split; [exact E|]; rewrite <- HI; exact E.
Qed.
Print Assumptions C98_cyrillic_gaps.

(** Cyrillic sentences with punctuation. *)
Definition not_latin (t : list rune) : Prop := Forall (fun x => ~ latin x /\ x <> 0x27%N) t.
Lemma gaps_not_latin u v : same_gaps u v -> not_latin u -> not_latin v.
Proof.
  unfold not_latin; induction 1 as [|x u v _ IH|b1 b2 u v _ _ _ Hb _ IH]; intros Hu; [constructor| |].
  - inversion Hu; subst; constructor; auto.
  - apply Forall_app in Hu; destruct Hu as [_ Hu]; apply Forall_app; split; [|auto]; eapply Forall_impl; [|exact Hb].
    intros x Hx; unfold a_blank in Hx; cbn [In] in Hx; repeat (destruct Hx as [<-|Hx]; [split; vm_compute; discriminate|]); contradiction.
Qed.
Lemma marked_not_latin s u ps : not_latin u -> well_marked s ps -> Forall (fun p => not_latin (snd p)) ps -> not_latin (marked_text u ps).
Proof.
  unfold marked_text, not_latin; intros Hu Hw Hp; apply Forall_app; split; [exact Hu|].
  induction Hp as [|[m v] ps Hv Hp IH]; [constructor|]; destruct Hw as (Hm & _ & _ & Hw); cbn [map concat fst snd] in *.
  apply Forall_app; split; [|apply IH; exact Hw]; apply Forall_app; split; [apply mark_not_latin; exact Hm|exact Hv].
Qed.
Theorem C98_cyrillic_sentence : forall W (H : hangul_lib) c lang src s country t order tl (reg : list (bytes * translit W)) w u v ps qs,
  choices_ok c -> lookup bundled_files (specs_dir ++ lang ++ ext) = Some src -> parse_spec c src = Ok s ->
  l_translit (s_lang s) = [cyrillic_scheme country] -> In country cyrillic_countries -> lookup cyr_dict country = Some t -> an_order t order ->
  lookup reg (cyrillic_scheme country) = Some tl -> (forall x, tl_run tl w x = (w, cyrillic_run order country x)) ->
  text_of s u -> not_latin u -> well_marked s ps -> Forall (fun p => text_of s (snd p) /\ not_latin (snd p)) ps -> same_gaps u v ->
  Forall2 (fun p q => fst p = fst q /\ same_gaps (snd p) (snd q)) ps qs ->
  exists r, result H c reg w lang (marked_text u ps) = Ok (r, None) /\ result H c reg w lang (marked_text v qs) = Ok (r, None).
Proof.
  intros W H c lang src s country t order tl reg w u v ps qs Hc Es Ep Hl Hin Htb P Hreg Hrun Hu Nu Hp Ht Huv Hpq.
  assert (forall x, scalars x -> not_latin x ->
    transliterate (l_translit (s_lang s)) reg w None (encode x) = (w, None, Ok (encode x))) as Htl.
  { intros x Sx Hx; rewrite Hl; cbn [transliterate]; rewrite Hreg, Hrun.
    assert (cyrillic_run order country (encode x) = Ok (encode x)) as ->; [|reflexivity].
    unfold not_latin in Hx; apply (C20_unchanged_partial country t order); try assumption; rewrite runes_encode by exact Sx; rewrite Forall_forall in Hx.
    - intros y Hy; apply (Hx y Hy).
    - intros _ Hy; destruct (Hx _ Hy) as [_ H0]; apply H0; reflexivity. }
  assert (s_script s <> Hrkt) as Hk.
  { apply (bundled_not_kana c lang src s (cyrillic_scheme country) Hc Es Ep); [rewrite Hl; left; reflexivity|unfold cyrillic_scheme; discriminate]. }
  assert (forall a m b, a_mark m -> of_text s a -> not_latin a -> scalars b -> not_latin b -> (forall x p, b = x :: p -> of_language s x) ->
    exists ra rb, result H c reg w lang a = Ok (ra, None) /\ result H c reg w lang b = Ok (rb, None) /\
      result H c reg w lang (a ++ m ++ b) = Ok (ra ++ encode m ++ rb, None)) as Hmk.
  { intros a m b Hm [Sa La] Na Sb Nb Fb; apply (C96_transliterated W H c lang src s reg w a a m b b); try assumption; try (apply Htl; assumption).
    - pose proof (mark_scalars m Hm) as Sm; pose proof (mark_not_latin m Hm) as Nm; unfold scalars, not_latin in *.
      apply Htl; apply Forall_app; (split; [assumption|]); apply Forall_app; split; assumption.
    - intros p x ->; apply Forall_app in La; destruct La as [_ La]; inversion La; assumption. }
  revert u v Hu Nu Huv Hp Ht.
  induction Hpq as [|[m u1] [m' v1] ps qs [E Hm] Hpq IH]; intros u v Hu Nu Huv Hp Ht.
  - unfold marked_text; cbn [map concat]; rewrite !app_nil_r.
    apply (C98_cyrillic_gaps W H c lang src s country t order tl reg w u v); assumption.
  - cbn [fst snd] in E, Hm; subst m'; destruct Hp as (Hmark & Hu1 & Hne & Hp); inversion Ht as [|? ? [Ht1 Nu1] Ht2]; subst; cbn [snd] in Ht1, Nu1.
    destruct (IH u1 v1 Ht1 Nu1 Hm Hp Ht2) as (r & E1 & E2).
    pose proof (text_of_text s v (gaps_text s u v Huv Hu)) as Hv; pose proof (text_of_text s v1 (gaps_text s u1 v1 Hm Ht1)) as Hv1.
    assert (well_marked s qs /\ Forall (fun p => not_latin (snd p)) qs) as [Hq Nq].
    { clear - Hpq Hp Ht2; induction Hpq as [|[a b] [a' b'] ps qs [E1 E2] Hpq IH]; [split; [exact I|constructor]|]; cbn [fst snd] in *; subst a'.
      inversion Ht2 as [|? ? [H5 H7] H6]; subst; cbn [snd] in H5, H7.
      destruct Hp as (H1 & H2 & H3 & H4); destruct (IH H4 H6) as [I1 I2]; split; [|constructor; [exact (gaps_not_latin b b' E2 H7)|exact I2]].
      split; [exact H1|]; split; [apply text_of_text, (gaps_text s b b' E2 H5)|]; split; [|exact I1].
      destruct H3 as [H3| ->]; [left; apply (gaps_nonnil b b' E2 H3)|right; inversion Hpq; reflexivity]. }
    assert (forall a l, of_text s a -> a <> [] \/ l = [] -> forall y p, marked_text a l = y :: p -> of_language s y) as Hfirst.
    { intros [|b a] l [_ Ha] Hx y p; unfold marked_text.
      - destruct Hx as [Hx| ->]; [contradiction|discriminate].
      - cbn [app]; intros E; injection E as -> _; inversion Ha; assumption. }
    assert (forall a b l, marked_text a ((m, b) :: l) = a ++ m ++ marked_text b l) as Hsplit.
    { intros a b l; unfold marked_text; cbn [map concat fst snd]; rewrite <- app_assoc; reflexivity. }
    rewrite !Hsplit.
    assert (v1 <> [] \/ qs = []) as Hne'.
    { destruct Hne as [Hne| ->]; [left; apply (gaps_nonnil u1 v1 Hm Hne)|right; inversion Hpq; reflexivity]. }
    destruct (C98_cyrillic_gaps W H c lang src s country t order tl reg w u v Hc Es Ep Hl Hin Htb P Hreg Hrun Hu Nu Huv) as (x & X1 & X2).
    destruct (Hmk u m (marked_text u1 ps)) as (a1 & b1 & A1 & B1 & R1); try assumption;
      [apply text_of_text; exact Hu|apply (marked_scalars s); assumption|apply (marked_not_latin s); try assumption; eapply Forall_impl; [|exact Ht2]; intros z Hz; apply Hz|apply Hfirst; assumption|].
    destruct (Hmk v m (marked_text v1 qs)) as (a2 & b2 & A2 & B2 & R2); try assumption;
      [exact (gaps_not_latin u v Huv Nu)|apply (marked_scalars s); assumption|apply (marked_not_latin s); try assumption; exact (gaps_not_latin u1 v1 Hm Nu1)|apply Hfirst; assumption|].
    exists (a1 ++ encode m ++ b1); split; [exact R1|]; rewrite R2.
    rewrite X1 in A1; rewrite X2 in A2; rewrite E1 in B1; rewrite E2 in B2; injection A1 as <-; injection A2 as <-; injection B1 as <-; injection B2 as <-; reflexivity.
Qed.
Print Assumptions C98_cyrillic_sentence.

(** The three languages tell two spaces from one. *)
Definition double_differs (lang : bytes) : Prop := exists u v r1 r2 : bytes,
  heard lang (u ++ lit " " ++ v) = Ok (r1, None) /\ heard lang (u ++ lit "  " ++ v) = Ok (r2, None) /\ r1 <> r2.
Ltac double_by u v r1 r2 :=
  exists (lit u), (lit v), (lit r1), (lit r2); split; [vm_compute; reflexivity|]; split; [vm_compute; reflexivity|vm_compute; discriminate].
Theorem C98_welsh_refuted : double_differs (lit "cym").
Proof. double_by "fy"%string "ngwely"%string "벙 웰리"%string "버 응웰리"%string. Qed.
Print Assumptions C98_welsh_refuted.
Theorem C98_middle_welsh_refuted : double_differs (lit "wlm").
Proof. double_by "fym"%string "mhen"%string "빔 헨"%string "빔 음헨"%string. Qed.
Print Assumptions C98_middle_welsh_refuted.
Theorem C98_dutch_refuted : double_differs (lit "nld").
Proof. double_by "de"%string "boer"%string "더부르"%string "더 부르"%string. Qed.
Print Assumptions C98_dutch_refuted.

(** Also at the ends of a text, where one space stays. *)
Example C98_example :
  Forall a_blank [0x20; 0x0D; 0x0A]%N /\
  match lookup bundled_files (specs_dir ++ lit "ita" ++ ext) with
  | Some src => match parse_spec choices0 src with
                | Ok s => l_translit (s_lang s) = [] /\
                    map (fun x => snd (forward (W := unit) go_hangul s [] false tt x))
                      [lit "la" ++ [0x20; 0x0D; 0x0A]%N ++ lit "vita  "; lit "la" ++ 0x20%N :: lit "vita  "; lit "la vita "] =
                    [Ok (lit "라 비타 "); Ok (lit "라 비타 "); Ok (lit "라 비타 ")] /\
                    forallb (fun x => script_is (s_script s) x && negb (is_space x)) (lit "lavita") = true
                | _ => False
                end
  | None => False
  end.
Proof.
  split; [repeat constructor; unfold a_blank; cbn [In]; tauto|]; vm_compute; split; [reflexivity|]; split; reflexivity.
Qed.
Example C98_cyrillic_example :
  match lookup bundled_files (specs_dir ++ lit "rus" ++ ext) with
  | Some src => match parse_spec choices0 src with
                | Ok s => l_translit (s_lang s) = [cyrillic_scheme (lit "ru")] /\
                    map (fun x => snd (forward go_hangul s [(cyrillic_scheme (lit "ru"), russian)] false tt x))
                      [lit "Красная площадь"; lit "Красная" ++ [0x09; 0x20]%N ++ lit "площадь"] =
                    [Ok (lit "크라스나야 플로샤디"); Ok (lit "크라스나야 플로샤디")] /\
                    forallb (fun x => script_is (s_script s) x && negb (is_space x)) (runes (lit "Краснаяплощадь")) = true
                | _ => False
                end
  | None => False
  end.
Proof. vm_compute; split; [reflexivity|]; split; reflexivity. Qed.
(** The hypotheses of [C98_sentence]. *)
Example C98_sentence_example :
  lit "Ciao, mondo !" = marked_text (lit "Ciao") [(lit ",", lit " mondo "); (lit "!", [])] /\
  a_mark (lit ",") /\ a_mark (lit "!") /\ same_gaps (lit " mondo ") ([0x0D; 0x0A]%N ++ lit "mondo  ") /\
  match lookup bundled_files (specs_dir ++ lit "ita" ++ ext) with
  | Some src => match parse_spec choices0 src with
                | Ok s => map (fun x => snd (forward (W := unit) go_hangul s [] false tt x)) [lit "Ciao, mondo !"; lit "Ciao," ++ [0x0D; 0x0A]%N ++ lit "mondo  !"] =
                    [Ok (lit "차오, 몬도 !"); Ok (lit "차오, 몬도 !")] /\
                    forallb (fun x => script_is (s_script s) x && negb (is_space x)) (lit "Ciaomondo") = true
                | _ => False
                end
  | None => False
  end.
Proof.
  split; [reflexivity|]; split; [|split; [|split]].
  - split; [discriminate|]; split; [constructor; [left; reflexivity|constructor]|vm_compute; lia].
  - split; [discriminate|]; split; [constructor; [right|constructor]|vm_compute; lia].
    assert (exists e, List.find (fun e => (fst e <=? 0x21)%N && (0x21 <=? snd e)%N) elsewhere = Some e) as [[lo hi] E] by (vm_compute; eexists; reflexivity).
    exists lo, hi; apply List.find_some in E; destruct E as [Hin E]; cbn [fst snd] in E; split; [exact Hin|]; apply andb_true_iff in E; destruct E as [E1 E2]; apply N.leb_le in E1, E2; split; assumption.
  - change (lit " mondo ") with ([0x20]%N ++ lit "mondo "); apply gaps_run; try discriminate; try (repeat constructor; unfold a_blank; cbn [In]; tauto).
    do 5 apply gaps_char; apply (gaps_run [0x20]%N [0x20; 0x20]%N [] []); try discriminate; try (repeat constructor; unfold a_blank; cbn [In]; tauto); constructor.
  - vm_compute; split; reflexivity.
Qed.
(** The same in Russian, for [C98_cyrillic_sentence]. *)
Example C98_cyrillic_sentence_example :
  runes (lit "Привет, мир") = marked_text (runes (lit "Привет")) [(runes (lit ","), runes (lit " мир"))] /\
  same_gaps (runes (lit " мир")) ([0x09; 0x0A]%N ++ runes (lit "мир")) /\
  match lookup bundled_files (specs_dir ++ lit "rus" ++ ext) with
  | Some src => match parse_spec choices0 src with
                | Ok s => map (fun x => snd (forward go_hangul s [(cyrillic_scheme (lit "ru"), russian)] false tt x))
                      [lit "Привет, мир"; lit "Привет," ++ [0x09; 0x0A]%N ++ lit "мир"] =
                    [Ok (lit "프리베트, 미르"); Ok (lit "프리베트, 미르")] /\
                    forallb (fun x => script_is (s_script s) x && negb (is_space x)) (runes (lit "Приветмир")) = true
                | _ => False
                end
  | None => False
  end.
Proof.
  split; [vm_compute; reflexivity|]; split; [|vm_compute; split; reflexivity].
  change (runes (lit " мир")) with ([0x20]%N ++ runes (lit "мир")); apply gaps_run; try discriminate; try (repeat constructor; unfold a_blank; cbn [In]; tauto).
Qed.
