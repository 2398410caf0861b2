(** C67: letter case. *)
From Coq Require Import String Lia.
From Verif Require Import GoBase Utf8 Utf8Facts UniTables Unicode Replacer ReplacerFacts Scripts Hsl Spec SpecOrder Jamo Procedure
  ProcFacts ProcLocal CaseFacts BString Bundled Api ApiFacts PropBundled.
Open Scope Z_scope.

(** [b] is [a] or its lower case. *)
Definition same_letter (sc : script) (except : list rune) (a b : rune) : Prop :=
  a = b \/ (script_is sc a = true /\ b = to_lower a /\ ~ In a except).

Lemma caseless_normalize except s rs rs' : case_ok except s = true -> s_script s <> Geor -> scalars rs -> scalars rs' ->
  Forall2 (same_letter (s_script s) (0x1EE%N :: except)) rs rs' ->
  snd (normalize s None (encode rs')) = snd (normalize s None (encode rs)).
Proof.
  intros Hok Hg Hs Hs' Hf.
  assert (forallb single_key (s_normReplacer s) = true) as Hk by (unfold case_ok in Hok; apply andb_true_iff in Hok; apply Hok).
  rewrite !normalize_chars by assumption; f_equal.
  induction Hf as [|a b rs rs' Hab Hf IH]; [reflexivity|]; inversion Hs as [|? ? Ha Hs1]; inversion Hs' as [|? ? Hb Hs2]; subst.
  cbn [map concat]; rewrite IH by assumption; f_equal.
  destruct Hab as [->|(H1 & -> & H2)]; [reflexivity|]; apply (case_ok_norm except); try assumption.
  - intros E; apply H2; left; symmetry; exact E.
  - intros H; apply H2; right; exact H.
Qed.

(** A word and the same word with letters in lower case give the same, in every bundled
    language but Georgian that needs no transliterator. Only the letters of
    case_exceptions (in PropBundled) and U+01EE cannot be changed. Of the letters A to Z these are I in Azerbaijani and Turkish, where
    the lower case of I is another letter, and C in Serbo-Croatian. *)
Theorem C67_case_partial : forall W (H : hangul_lib) c lang src s (reg : list (bytes * translit W)) w rs rs',
  choices_ok c -> lookup bundled_files (specs_dir ++ lang ++ ext) = Some src -> parse_spec c src = Ok s ->
  l_translit (s_lang s) = [] -> s_script s <> Geor ->
  scalars rs -> scalars rs' -> Forall2 (same_letter (s_script s) (0x1EE%N :: case_exceptions lang)) rs rs' ->
  hangulize H bundled_files c [] reg w lang (encode rs') = hangulize H bundled_files c [] reg w lang (encode rs).
Proof.
  intros W H c lang src s reg w rs rs' Hc Es Ep Hl Hg Hs Hs' Hf.
  unfold hangulize, load_spec; cbn [lookup]; rewrite Es, Ep; unfold run_hangulizer.
  destruct (file_ok_parses src c (bundled_file_ok _ _ Es) Hc) as (s0 & s1 & E0 & Ep1 & Ho & Hu & _).
  assert (s1 = s) as -> by congruence.
  rewrite !(forward_order H s0 s reg false w _ Ho Hu); destruct Ho as [Ho _].
  assert (s_lang s = s_lang s0) as El by (rewrite Ho; reflexivity).
  assert (s_script s = s_script s0) as Esc by (rewrite Ho; reflexivity).
  pose proof bundled_fits as Hb; rewrite forallb_forall in Hb; specialize (Hb _ (lookup_in _ _ _ Es)).
  unfold file_fits in Hb; cbn [fst snd] in Hb; rewrite E0 in Hb; apply andb_true_iff in Hb; destruct Hb as [_ Hb].
  apply andb_true_iff in Hb; destruct Hb as [Hfit Hcase]; apply andb_true_iff in Hcase; destruct Hcase as [Hcase _].
  unfold spec_fits in Hfit; apply andb_true_iff in Hfit; destruct Hfit as [Hn _]; apply beqb_eq in Hn.
  apply app_inv_head in Hn; apply app_inv_tail in Hn; rewrite Esc in *; rewrite El in *.
  assert (case_ok (case_exceptions lang) s0 = true) as Hok.
  { unfold spec_caseless in Hcase; rewrite <- Hn in Hcase; destruct (s_script s0); try exact Hcase; contradiction. }
  unfold forward; cbn [new_tracer trace_word emit]; rewrite Hl; cbn [transliterate].
  rewrite !after_translit_inner, (caseless_normalize _ s0 rs rs' Hok Hg Hs Hs' Hf); reflexivity.
Qed.
Print Assumptions C67_case_partial.

Example C67_example :
  match lookup bundled_files (specs_dir ++ lit "deu" ++ ext) with
  | Some src => match parse_spec choices0 src with
                | Ok s => l_translit (s_lang s) = [] /\ s_script s = Latn
                | _ => False
                end
  | None => False
  end /\
  Forall2 (same_letter Latn (0x1EE%N :: case_exceptions (lit "deu"))) (runes (lit "GÖTHE, Ж")) (runes (lit "göthe, Ж")) /\
  forallb is_scalar (runes (lit "GÖTHE, Ж")) = true.
Proof.
  split; [vm_compute; split; reflexivity|split; [|reflexivity]].
  vm_compute runes; repeat (constructor; [first [left; reflexivity|right; split; [reflexivity|split; [reflexivity|vm_compute; intuition discriminate]]]|]); constructor.
Qed.

(** A capital C is read as the letter ch in Serbo-Croatian: the section normalize uses it for
    Cyrillic ch and so exempts it from becoming lower case. Here in Montenegro. *)
Theorem C67_case_refuted : exists lang a b,
  map to_lower (runes a) = map to_lower (runes b) /\
  snd (hangulize go_hangul bundled_files choices0 [] [] tt lang a) = Ok (lit "치르나 고라", None) /\
  snd (hangulize go_hangul bundled_files choices0 [] [] tt lang b) = Ok (lit "츠르나 고라", None).
Proof. exists (lit "hbs"), (lit "Crna Gora"), (lit "crna Gora"); vm_compute; repeat split. Qed.
Print Assumptions C67_case_refuted.
