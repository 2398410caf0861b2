(** C96: punctuation stays where it is. *)
From Coq Require Import String Lia.
From Verif Require Import GoBase Utf8 Utf8Facts UniTables Unicode Replacer ReplacerFacts Regex Hre Rule Scripts Hsl Spec SpecOrder Jamo Procedure
  ProcFacts ProcLocal ProcChars CaseFacts SeparateFacts BString Bundled Api ApiFacts WordSpec CyrDict Translit PropBundled PropProc PropChars PropTranslit PropSplit PropWords.
Open Scope Z_scope.

(** Some of the characters of [elsewhere] (SeparateFacts.v): digits, letters of
    other scripts and most punctuation, with at most one comma. *)
Definition a_mark (m : list rune) : Prop :=
  m <> [] /\ Forall (fun x => x = 0x2C%N \/ exists lo hi, In (lo, hi) elsewhere /\ (lo <= x <= hi)%N) m /\
  (length (filter (fun x => (x =? 0x2C)%N) m) <= 1)%nat.

Lemma bundled_comma c path src s : choices_ok c -> lookup bundled_files path = Some src -> parse_spec c src = Ok s ->
  exists s0, parse_spec choices0 src = Ok s0 /\ same_but_order s0 s /\ unambiguous (s_normReplacer s0) /\ spec_separates s0 = true /\ spec_comma s0 = true.
Proof.
  intros Hc Es Ep; destruct (bundled_separates c _ src s Hc Es Ep) as (s0 & E0 & Ho & Hu & Hs).
  exists s0; repeat (split; [assumption|]).
  pose proof bundled_fits as Hf; rewrite forallb_forall in Hf; specialize (Hf _ (PropBundled.lookup_in _ _ _ Es)).
  unfold file_fits in Hf; cbn [fst snd] in Hf; rewrite E0 in Hf; do 8 (apply andb_true_iff in Hf; destruct Hf as [_ Hf]); apply andb_true_iff in Hf; apply Hf.
Qed.

Lemma mark_chars m : a_mark m -> Forall (fun x => x = 0x2C%N \/ in_ranges elsewhere x = true) m.
Proof.
  intros (_ & Hm & _); eapply Forall_impl; [|exact Hm]; cbv beta; intros x [Hx|(lo & hi & Hin & Hx)]; [left; exact Hx|right].
  eapply elsewhere_ranges; eassumption.
Qed.
Lemma mark_scalars m : a_mark m -> scalars m.
Proof.
  intros Hm; apply mark_chars in Hm; eapply Forall_impl; [|exact Hm]; cbv beta; intros x [->|Hx]; [reflexivity|apply elsewhere_scalar; exact Hx].
Qed.

(** In a bundled language other than Japanese, a mark stays between the results for what is before
    it and what is behind it, when the transliterators keep it there. *)
Theorem C96_transliterated : forall W (H : hangul_lib) c lang src s (reg : list (bytes * translit W)) w u0 u m v0 v,
  choices_ok c -> lookup bundled_files (specs_dir ++ lang ++ ext) = Some src -> parse_spec c src = Ok s ->
  s_script s <> Hrkt ->
  transliterate (l_translit (s_lang s)) reg w None (encode u0) = (w, None, Ok (encode u)) ->
  transliterate (l_translit (s_lang s)) reg w None (encode v0) = (w, None, Ok (encode v)) ->
  transliterate (l_translit (s_lang s)) reg w None (encode (u0 ++ m ++ v0)) = (w, None, Ok (encode (u ++ m ++ v))) ->
  scalars u -> scalars v -> a_mark m ->
  (forall p x, u = p ++ [x] -> of_language s x) -> (forall x p, v = x :: p -> of_language s x) ->
  exists ru rv, result H c reg w lang u0 = Ok (ru, None) /\ result H c reg w lang v0 = Ok (rv, None) /\
    result H c reg w lang (u0 ++ m ++ v0) = Ok (ru ++ encode m ++ rv, None).
Proof.
  intros W H c lang src s reg w u0 u m v0 v Hc Es Ep Hl T1 T2 T3 Su Sv Hm Hu Hv.
  destruct (forward_returns H c reg w lang src s _ _ Hc Es Ep T1) as (ru & F1).
  destruct (forward_returns H c reg w lang src s _ _ Hc Es Ep T2) as (rv & F2).
  exists ru, rv; split; [exact (forward_result H c reg w lang src s u0 ru Es Ep F1)|]; split; [exact (forward_result H c reg w lang src s v0 rv Es Ep F2)|].
  apply (forward_result H c reg w lang src s _ _ Es Ep).
  destruct (bundled_rules _ _ _ _ Es Hc Ep) as (_ & Hrw & Htr & _).
  destruct (bundled_comma c _ src s Hc Es Ep) as (s0 & E0 & Ho & Hamb & Hsep & Hcom).
  rewrite (forward_order H s0 s reg false w _ Ho Hamb) in F1; rewrite (forward_order H s0 s reg false w _ Ho Hamb) in F2.
  rewrite (forward_order H s0 s reg false w _ Ho Hamb); destruct Ho as [Ho _].
  assert (s_lang s = s_lang s0) as El by (rewrite Ho; reflexivity).
  assert (s_script s = s_script s0) as Esc by (rewrite Ho; reflexivity).
  assert (s_rewrite s = s_rewrite s0) as Er by (rewrite Ho; reflexivity).
  assert (s_transcribe s = s_transcribe s0) as Et by (rewrite Ho; reflexivity).
  assert (forall x, of_language s x -> of_language s0 x) as Hlang.
  { intros x; unfold of_language; rewrite Ho; cbn [s_script s_puncts]; auto. }
  clear Ho; rewrite Er in Hrw; rewrite Et in Htr; rewrite El in T1, T2, T3; rewrite Esc in Hl.
  assert (edge_meaningful s0 u v) as Hedge.
  { split.
    - intros p x E; apply of_language_meaningful; [|apply Hlang; eapply Hu; exact E].
      rewrite E in Su; apply Forall_app in Su; destruct Su as [_ Su]; inversion Su; assumption.
    - intros x p E; apply of_language_meaningful; [|apply Hlang; eapply Hv; exact E].
      rewrite E in Sv; inversion Sv; assumption. }
  pose proof (mark_scalars m Hm) as Sm; pose proof (mark_chars m Hm) as Cm; destruct Hm as (Hne & _ & Hone).
  unfold spec_comma in Hcom; assert (forallb (fun r => Nat.eqb (noise elsewhere (prog (p_re (rule_from r)))) 2) (s_rewrite s0) &&
    forallb (fun p => negb (nmem comma (runes (fst p)))) (s_normReplacer s0) && negb (nmem comma (s_puncts s0)) = true) as Hcom'.
  { destruct (s_script s0); try contradiction; exact Hcom. }
  clear Hcom; apply andb_true_iff in Hcom'; destruct Hcom' as [Hcom Hp]; apply andb_true_iff in Hcom; destruct Hcom as [Hr Hk].
  assert (script_is (s_script s0) 0x2C%N = false) as Hscr by (destruct (s_script s0); try contradiction; vm_compute; reflexivity).
  apply (forward_apart H s0 reg w u0 u m v0 v ru rv); try assumption.
  - eapply Forall_impl; [|exact Cm]; cbv beta; intros x [->|Hx].
    + split; [|discriminate].
      apply negb_true_iff in Hp; unfold meaningful; rewrite Hscr; change (nmem comma) with (nmem 0x2C%N) in Hp; rewrite Hp; reflexivity.
    + split; [apply elsewhere_meaningful; assumption|]; intros ->; vm_compute in Hx; discriminate.
  - clear - Cm Hsep Hl Hscr Hk; induction Cm as [|x m Hx Cm IH]; [reflexivity|].
    change (x :: m) with ([x] ++ m); rewrite normal_runes_app, IH; f_equal; destruct Hx as [->|Hx]; [|apply elsewhere_normal; auto].
    unfold normal_runes; cbn [map concat]; rewrite norm_char_one; [|reflexivity|].
    + unfold norm_rune; rewrite Hscr; cbn [negb]; rewrite orb_true_r; reflexivity.
    + intros Hin; apply in_flat_map in Hin; destruct Hin as (p & Hp' & Hx); rewrite forallb_forall in Hk; specialize (Hk p Hp').
      apply negb_true_iff in Hk; unfold nmem in Hk; rewrite <- not_true_iff_false in Hk; apply Hk, existsb_exists; exists 0x2C%N; split; [exact Hx|reflexivity].
  - apply Forall_forall; intros r Hin; rewrite forallb_forall in Hr; specialize (Hr r Hin); apply Nat.eqb_eq in Hr.
    apply (noise_find elsewhere (rule_from r) m (-1) Hr Sm); [|exact Hone].
    eapply Forall_impl; [|exact Cm]; cbv beta; intros x [Hx|Hx]; [right; exact Hx|left; apply in_ranges_set; exact Hx].
Qed.
Print Assumptions C96_transliterated.

(** A bundled language that needs no transliterator. *)
Corollary C96_mark : forall W (H : hangul_lib) c lang src s (reg : list (bytes * translit W)) w u m v,
  choices_ok c -> lookup bundled_files (specs_dir ++ lang ++ ext) = Some src -> parse_spec c src = Ok s ->
  l_translit (s_lang s) = [] ->
  scalars u -> scalars v -> a_mark m ->
  (forall p x, u = p ++ [x] -> of_language s x) -> (forall x p, v = x :: p -> of_language s x) ->
  exists ru rv, result H c reg w lang u = Ok (ru, None) /\ result H c reg w lang v = Ok (rv, None) /\
    result H c reg w lang (u ++ m ++ v) = Ok (ru ++ encode m ++ rv, None).
Proof.
  intros W H c lang src s reg w u m v Hc Es Ep Hl Su Sv Hm Hu Hv.
  destruct (bundled_separates c _ src s Hc Es Ep) as (s0 & _ & Ho & _ & Hsep); destruct Ho as [Ho _].
  assert (s_lang s = s_lang s0) as El by (rewrite Ho; reflexivity); assert (s_script s = s_script s0) as Esc by (rewrite Ho; reflexivity).
  apply (C96_transliterated W H c lang src s reg w u u m v v); try assumption; try (rewrite Hl; reflexivity).
  rewrite Esc; apply separates_script; [exact Hsep|rewrite <- El; exact Hl].
Qed.
Print Assumptions C96_mark.

(** A sentence: words with a mark or nothing before each, and a mark or nothing behind it. *)
Record item := { before : list rune; the_word : list rune; behind : list rune }.
Definition written (i : item) : list rune := before i ++ the_word i ++ behind i.
Definition heard_as (i : item) (r : bytes) : bytes := encode (before i) ++ r ++ encode (behind i).

(** Whatever the results are: when phrases come out word by word and each mark stays, sentences
    come out as their words do with the marks. *)
Lemma sentence_marks (R : list rune -> bytes) (fine lang : rune -> Prop) (word mark : list rune -> Prop) is :
  R [] = [] -> fine 0x20%N -> lang 0x20%N -> word [] ->
  (forall u, word u -> Forall fine u /\ Forall lang u) -> (forall m, mark m -> Forall fine m) ->
  (forall acc, Forall word acc -> (forall a u b, acc = a ++ u :: b -> a <> [] -> b <> [] -> R u <> []) -> R (spaced acc) = spaced (map R acc)) ->
  (forall u m v, Forall fine u -> Forall fine v -> mark m -> Forall lang u -> (forall x p, v = x :: p -> lang x) ->
    R (u ++ m ++ v) = R u ++ encode m ++ R v) ->
  Forall (fun i => word (the_word i) /\ R (the_word i) <> [] /\ (before i = [] \/ mark (before i)) /\ (behind i = [] \/ mark (behind i))) is ->
  R (spaced (map written is)) = spaced (map (fun i => heard_as i (R (the_word i))) is).
Proof.
  intros HR0 Hf20 Hl20 Hw0 Hwf Hmf Hwords Hmark.
  assert (forall acc, Forall word acc -> Forall fine (spaced acc) /\ Forall lang (spaced acc)) as Hacc.
  { induction 1 as [|u acc Hu Hacc [IH1 IH2]]; [split; constructor|]; destruct (Hwf u Hu) as [Hu1 Hu2].
    destruct acc; [split; assumption|]; rewrite spaced_cons by discriminate.
    split; apply Forall_app; (split; [assumption|]); (constructor; assumption). }
  set (goodi := fun i => word (the_word i) /\ R (the_word i) <> [] /\ (before i = [] \/ mark (before i)) /\ (behind i = [] \/ mark (behind i))).
  assert (forall items, Forall goodi items -> Forall fine (spaced (map written items))) as Hsc.
  { induction 1 as [|i items (H1 & _ & H3 & H4) Hi IH]; [constructor|]; cbn [map].
    assert (Forall fine (written i)) as Hwr.
    { unfold written; repeat (apply Forall_app; split); [|apply Hwf; exact H1|]; [destruct H3 as [->|H3]|destruct H4 as [->|H4]]; try constructor; apply Hmf; assumption. }
    destruct items; [exact Hwr|]; rewrite spaced_cons by discriminate; apply Forall_app; split; [exact Hwr|]; constructor; [exact Hf20|exact IH]. }
  assert (forall (a b : list (list N)), a <> [] -> b <> [] -> spaced (a ++ b) = spaced a ++ 0x20%N :: spaced b) as Hsplit.
  { induction a as [|x a IH]; intros b Ha Hb; [contradiction|]; destruct a as [|y a]; cbn [app]; [apply spaced_cons; exact Hb|].
    rewrite (spaced_cons x (y :: a)) by discriminate; rewrite <- app_assoc; cbn [app].
    rewrite (spaced_cons x) by discriminate; do 2 f_equal; apply IH; [discriminate|exact Hb]. }
  assert (forall (x : list N) b, x ++ match b with [] => [] | _ => spaced ([] :: b) end = spaced (x :: b)) as Htail.
  { intros x b; destruct b as [|y b]; [apply app_nil_r|]; rewrite !spaced_cons by discriminate; reflexivity. }
  set (sound := fun i => heard_as i (R (the_word i))).
  assert (forall items, Forall goodi items -> forall acc, Forall word acc ->
    (forall a u b, acc = a ++ u :: b -> a <> [] -> R u <> []) ->
    R (spaced (acc ++ map written items)) = spaced (map R acc ++ map sound items)) as Hmain.
  { induction 1 as [|i items (Hwi & Hri & Hb & Ha) Hi IH]; intros acc Hacc1 Hmid.
    - cbn [map]; rewrite !app_nil_r; apply Hwords; [exact Hacc1|]; intros a u b E Hna _; apply (Hmid a u b E Hna).
    - assert (forall acc, Forall word acc -> (forall a u b, acc = a ++ u :: b -> a <> [] -> R u <> []) ->
        R (spaced (acc ++ (the_word i ++ behind i) :: map written items)) =
        spaced (map R acc ++ (R (the_word i) ++ encode (behind i)) :: map sound items)) as Hstep.
      { clear acc Hacc1 Hmid; intros acc Hacc1 Hmid.
        assert (Forall word (acc ++ [the_word i])) as Hacc2 by (apply Forall_app; split; [exact Hacc1|repeat constructor; exact Hwi]).
        assert (forall a u b, acc ++ [the_word i] = a ++ u :: b -> a <> [] -> R u <> []) as Hmid2.
        { intros a u b E Hna; destruct b as [|y b] using rev_ind.
          - apply app_inj_tail in E; destruct E as [_ <-]; exact Hri.
          - clear IHb; rewrite app_comm_cons, app_assoc in E; apply app_inj_tail in E; destruct E as [E _]; exact (Hmid a u b E Hna). }
        destruct Ha as [Ha|Ha].
        - rewrite Ha; change (encode []) with (@nil N); rewrite !app_nil_r; specialize (IH _ Hacc2 Hmid2); rewrite map_app, <- !app_assoc in IH; exact IH.
        - assert (forall (ac : list (list N)) x (m : list N) b, spaced (ac ++ (x ++ m) :: b) = spaced (ac ++ [x]) ++ m ++ match b with [] => [] | _ => spaced ([] :: b) end) as Hlay.
          { intros ac x m b; destruct ac as [|y ac].
            - cbn [app]; rewrite <- (Htail (x ++ m) b), <- (app_assoc x m); reflexivity.
            - rewrite (Hsplit (y :: ac) ((x ++ m) :: b)), (Hsplit (y :: ac) [x]) by discriminate; change (spaced [x]) with x.
              rewrite <- (Htail (x ++ m) b); rewrite <- (app_assoc (spaced (y :: ac))); cbn [app]; rewrite <- (app_assoc x m); reflexivity. }
          rewrite !Hlay; destruct (Hacc _ Hacc2) as [Hs1 Hs2].
          rewrite Hmark; [|exact Hs1| |exact Ha|exact Hs2|].
          + f_equal.
            * rewrite Hwords; [rewrite map_app; reflexivity|exact Hacc2|]; intros a u b E Hna _; apply (Hmid2 a u b E Hna).
            * f_equal; destruct items as [|i2 items2] eqn:Eit; [exact HR0|]; rewrite <- Eit in *.
              assert (map written items <> [] /\ map sound items <> []) as [N1 N2] by (rewrite Eit; split; discriminate).
              destruct (map written items) as [|w1 ws1] eqn:Ew; [contradiction|]; destruct (map sound items) as [|s1 ss1] eqn:Esd; [contradiction|].
              specialize (IH [[]]); cbn [app map] in IH; rewrite HR0 in IH; apply IH; [repeat constructor; exact Hw0|].
              intros a u b E Hna; destruct a as [|a1 [|a2 a]]; [contradiction|discriminate|discriminate].
          + destruct items as [|i2 items2] eqn:Eit; [constructor|]; rewrite <- Eit in *.
            destruct (map written items) as [|w1 ws1] eqn:Ew; [constructor|]; rewrite <- Ew; rewrite spaced_cons by (rewrite Ew; discriminate).
            constructor; [exact Hf20|apply Hsc; exact Hi].
          + destruct (map written items) as [|w1 ws1]; [discriminate|]; rewrite spaced_cons by discriminate; intros x p E; injection E as <- _; exact Hl20. }
      cbn [map]; unfold written at 1, sound at 1, heard_as; destruct Hb as [Hb|Hb].
      + rewrite Hb; change (encode []) with (@nil N); cbn [app]; apply Hstep; assumption.
      + assert (forall (ac : list (list N)) m y b, spaced (ac ++ (m ++ y) :: b) = (match ac with [] => [] | _ => spaced (ac ++ [[]]) end) ++ m ++ spaced (y :: b)) as Hlay.
        { intros ac m y b.
          assert (spaced ((m ++ y) :: b) = m ++ spaced (y :: b)) as E by (rewrite <- (Htail (m ++ y) b), <- (Htail y b), <- (app_assoc m y); reflexivity).
          destruct ac as [|z ac]; [exact E|].
          rewrite (Hsplit (z :: ac) ((m ++ y) :: b)), (Hsplit (z :: ac) [[]]) by discriminate; rewrite E, <- (app_assoc (spaced (z :: ac))); reflexivity. }
        rewrite !Hlay; rewrite Hmark; [| | |exact Hb| |].
        * f_equal; [|f_equal].
          -- destruct acc as [|a0 acc0] eqn:Eacc; [exact HR0|]; rewrite <- Eacc in *.
             assert (map R acc <> []) as Hn by (rewrite Eacc; discriminate); destruct (map R acc) as [|r0 rs0] eqn:Er; [contradiction|]; rewrite <- Er.
             rewrite Hwords; [rewrite map_app; exact (f_equal (fun z => spaced (map R acc ++ [z])) HR0)|apply Forall_app; split; [exact Hacc1|repeat constructor; exact Hw0]|].
             intros a u b E Hna Hnb; destruct b as [|y b] using rev_ind; [contradiction|]; clear IHb.
             rewrite app_comm_cons, app_assoc in E; apply app_inj_tail in E; destruct E as [E _]; exact (Hmid a u b E Hna).
          -- apply (Hstep []); [constructor|]; intros a u b E; destruct a; discriminate.
        * destruct acc as [|a0 acc0] eqn:Eacc; [constructor|]; rewrite <- Eacc in *; apply Hacc, Forall_app; split; [exact Hacc1|repeat constructor; exact Hw0].
        * pose proof (Hsc ({| before := []; the_word := the_word i; behind := behind i |} :: items)) as Hx; cbn [map] in Hx; unfold written at 1 in Hx; cbn in Hx; apply Hx.
          constructor; [|exact Hi]; split; [exact Hwi|]; split; [exact Hri|]; split; [left; reflexivity|exact Ha].
        * destruct acc as [|a0 acc0] eqn:Eacc; [constructor|]; rewrite <- Eacc in *; apply Hacc, Forall_app; split; [exact Hacc1|repeat constructor; exact Hw0].
        * destruct (the_word i) as [|x0 u0]; [contradiction|]; destruct (Hwf _ Hwi) as [_ Hwl]; inversion Hwl as [|? ? Hx0 _]; subst.
          intros x p E; destruct (map written items); [|rewrite spaced_cons in E by discriminate]; cbn in E; injection E as <- _; exact Hx0. }
  intros His; specialize (Hmain is His [] (Forall_nil _)); cbn [app map] in Hmain; apply Hmain; intros a u b E; destruct a; discriminate.
Qed.

(** In a bundled language that needs no transliterator, other than Dutch, Welsh and Middle Welsh,
    a sentence comes out as its words with the same marks and spaces, when none of the words has
    an empty result. *)
Theorem C96_sentence : forall W (H : hangul_lib) c lang src s (reg : list (bytes * translit W)) w is,
  hl_is_hangul H 0x20%N = false -> choices_ok c ->
  lookup bundled_files (specs_dir ++ lang ++ ext) = Some src -> parse_spec c src = Ok s -> l_translit (s_lang s) = [] ->
  ~ In lang [lit "cym"; lit "nld"; lit "wlm"] ->
  Forall (fun i => word_of s (the_word i) /\ result H c reg w lang (the_word i) <> Ok ([], None) /\
            (before i = [] \/ a_mark (before i)) /\ (behind i = [] \/ a_mark (behind i))) is ->
  exists rs, Forall2 (fun i r => result H c reg w lang (the_word i) = Ok (r, None)) is rs /\
    result H c reg w lang (spaced (map written is)) = Ok (spaced (map (fun z => heard_as (fst z) (snd z)) (combine is rs)), None).
Proof.
  intros W H c lang src s reg w is Hh Hc Es Ep Hl Hlang His.
  set (R := fun u : list rune => match result H c reg w lang u with Ok (x, None) => x | _ => [] end).
  assert (forall u, result H c reg w lang u = Ok (R u, None)) as HR.
  { intros u; subst R; cbv beta; destruct (result_forward H c reg w lang src s u Hc Es Ep Hl) as (r & E & _); rewrite E; reflexivity. }
  assert (forall x y : bytes, Ok (x, @None gerror) = Ok (y, None) -> x = y) as Hok by (intros x y E'; injection E' as E'; exact E').
  assert (R [] = []) as HR0 by (apply Hok; rewrite <- HR; apply (C85_alone W H c lang src s reg w [] Hc Es Ep Hl); constructor).
  exists (map (fun i => R (the_word i)) is); split; [clear - HR; induction is; cbn [map]; constructor; [apply HR|assumption]|].
  rewrite HR; do 2 f_equal.
  rewrite (sentence_marks R (fun x => is_scalar x = true) (of_language s) (word_of s) a_mark is HR0).
  - f_equal; clear; induction is as [|i is IH]; [reflexivity|]; cbn [map combine fst snd]; f_equal; exact IH.
  - reflexivity.
  - right; right; reflexivity.
  - split; constructor.
  - intros u [Hu1 Hu2]; split; [exact Hu1|]; eapply Forall_impl; [|exact Hu2]; intros x Hx; apply Hx.
  - apply mark_scalars.
  - intros acc Ha Hm; destruct acc as [|u0 acc0] eqn:Eacc; [exact HR0|]; rewrite <- Eacc in *.
    destruct (C95_words W H c lang src s reg w acc Hh Hc Es Ep Hl Hlang) as (rs & F & E); [rewrite Eacc; discriminate|exact Ha| |].
    + intros a u b E Hna Hnb Hr; apply (Hm a u b E Hna Hnb); rewrite HR in Hr; injection Hr as Hr; exact Hr.
    + rewrite HR in E; rewrite (Hok _ _ E); f_equal; clear - F HR Hok; induction F as [|u x l rs Hu F IH]; [reflexivity|]; cbn [map]; rewrite HR in Hu; f_equal; [symmetry; apply Hok; exact Hu|exact IH].
  - intros u m v Su Sv Hm Hu Hv.
    destruct (C96_mark W H c lang src s reg w u m v Hc Es Ep Hl Su Sv Hm) as (ru & rv & E1 & E2 & E3); [|exact Hv|].
    + intros p x ->; apply Forall_app in Hu; destruct Hu as [_ Hu]; inversion Hu; assumption.
    + rewrite HR in E1, E2, E3; injection E1 as E1; injection E2 as E2; rewrite E1, E2; injection E3 as E3; exact E3.
  - eapply Forall_impl; [|exact His]; intros i (H1 & H2 & H3 & H4); split; [exact H1|]; split; [|split; assumption].
    rewrite HR in H2; intros E; apply H2; rewrite E; reflexivity.
Qed.
Print Assumptions C96_sentence.

(** ** Cyrillic text *)
Lemma bundled_not_kana c lang src s sc : choices_ok c -> lookup bundled_files (specs_dir ++ lang ++ ext) = Some src -> parse_spec c src = Ok s ->
  In sc (l_translit (s_lang s)) -> sc <> lit "furigana" -> s_script s <> Hrkt.
Proof.
  intros Hc Es Ep Hin Hsc Hk; destruct (bundled_separates c _ src s Hc Es Ep) as (s0 & E0 & Ho & _ & _).
  pose proof bundled_fits as Hf; rewrite forallb_forall in Hf; specialize (Hf _ (PropBundled.lookup_in _ _ _ Es)).
  unfold file_fits in Hf; cbn [fst snd] in Hf; rewrite E0 in Hf; do 7 (apply andb_true_iff in Hf; destruct Hf as [_ Hf]); apply andb_true_iff in Hf; destruct Hf as [Hf _].
  destruct Ho as [Ho _]; assert (s_lang s = s_lang s0) as El by (rewrite Ho; reflexivity); assert (s_script s = s_script s0) as Esc by (rewrite Ho; reflexivity).
  unfold spec_phrases in Hf; rewrite <- El, <- Esc, Hk in Hf; destruct (l_translit (s_lang s)) as [|t ts]; [contradiction|].
  rewrite forallb_forall in Hf; specialize (Hf sc Hin); apply beqb_eq in Hf; apply Hsc; symmetry; exact Hf.
Qed.
Lemma result_empty {W} H c lang src s (reg : list (bytes * translit W)) w :
  choices_ok c -> lookup bundled_files (specs_dir ++ lang ++ ext) = Some src -> parse_spec c src = Ok s -> s_script s <> Hrkt ->
  transliterate (l_translit (s_lang s)) reg w None [] = (w, None, Ok []) -> result H c reg w lang [] = Ok ([], None).
Proof.
  intros Hc Es Ep Hk T; apply (forward_result H c reg w lang src s [] [] Es Ep); unfold forward; cbn [new_tracer trace_word emit].
  change (encode []) with (@nil N); rewrite T; destruct (bundled_separates c _ src s Hc Es Ep) as (s0 & Ep0 & Ho & Hamb & Hsep).
  assert (no_empty_key (s_normReplacer s)) as He.
  { destruct Ho as [Ho Hperm]; assert (s_script s = s_script s0) as Esc by (rewrite Ho; reflexivity); rewrite Esc in Hk.
    destruct (separates_parts s0 Hsep Hk) as (_ & _ & Hkey & _); intros v Hin.
    apply Permutation.Permutation_sym in Hperm; destruct (Hkey [] v (Permutation.Permutation_in _ Hperm Hin)) as (Hs & _ & _).
    destruct (single_key_char _ Hs) as (r & _ & E & _); cbn [fst] in E; symmetry in E; exact (encode_rune_nonnil _ E). }
  rewrite after_translit_inner; unfold normalize; cbn [snd]; unfold replacer_replace; rewrite rep_from_nil by exact He.
  reflexivity.
Qed.
Lemma mark_not_latin m : a_mark m -> Forall (fun x => ~ latin x /\ x <> 0x27%N) m.
Proof.
  intros Hm; apply mark_chars in Hm; eapply Forall_impl; [|exact Hm]; cbv beta; intros x [->|He]; [split; [vm_compute; discriminate|discriminate]|split].
  - intros Hl; pose proof (elsewhere_script Latn x ltac:(discriminate) He) as E; cbn [script_is] in E; unfold latin in Hl; congruence.
  - intros ->; vm_compute in He; discriminate.
Qed.

(** In the bundled languages with a Cyrillic transliterator, a sentence in Cyrillic letters comes out as
    its words with the same marks and spaces, whatever the order of the table in this run. *)
Theorem C96_cyrillic : forall W (H : hangul_lib) c lang src s country t order tl (reg : list (bytes * translit W)) w is,
  hl_is_hangul H 0x20%N = false -> choices_ok c ->
  lookup bundled_files (specs_dir ++ lang ++ ext) = Some src -> parse_spec c src = Ok s ->
  l_translit (s_lang s) = [cyrillic_scheme country] -> In country cyrillic_countries -> lookup cyr_dict country = Some t -> an_order t order ->
  lookup reg (cyrillic_scheme country) = Some tl -> (forall x, tl_run tl w x = (w, cyrillic_run order country x)) ->
  Forall (fun i => word_of s (the_word i) /\ (forall x, In x (the_word i) -> ~ latin x /\ x <> 0x27%N) /\
            result H c reg w lang (the_word i) <> Ok ([], None) /\
            (before i = [] \/ a_mark (before i)) /\ (behind i = [] \/ a_mark (behind i))) is ->
  exists rs, Forall2 (fun i r => result H c reg w lang (the_word i) = Ok (r, None)) is rs /\
    result H c reg w lang (spaced (map written is)) = Ok (spaced (map (fun z => heard_as (fst z) (snd z)) (combine is rs)), None).
Proof.
  intros W H c lang src s country t order tl reg w is Hh Hc Es Ep Hl Hin Ht P Hreg Hrun His.
  assert (forall x y, cyrillic_run order country x = Ok y -> transliterate (l_translit (s_lang s)) reg w None x = (w, None, Ok y)) as Hrun'.
  { intros x y E; rewrite Hl; cbn [transliterate]; rewrite Hreg, Hrun, E; reflexivity. }
  assert (s_script s <> Hrkt) as Hk.
  { apply (bundled_not_kana c lang src s (cyrillic_scheme country) Hc Es Ep); [rewrite Hl; left; reflexivity|unfold cyrillic_scheme; discriminate]. }
  set (fine := fun x : rune => is_scalar x = true /\ ~ latin x /\ x <> 0x27%N).
  assert (forall u, Forall fine u -> scalars u) as Hfs by (intros u Hu; eapply Forall_impl; [|exact Hu]; intros x Hx; apply Hx).
  assert (forall u, Forall fine u -> transliterate (l_translit (s_lang s)) reg w None (encode u) = (w, None, Ok (encode u))) as Htl.
  { intros u Hu; apply Hrun', (C20_unchanged_partial country t order); try assumption; rewrite runes_encode by (apply Hfs; exact Hu); rewrite Forall_forall in Hu.
    - intros x Hx; apply (Hu x Hx).
    - intros _ Hx; destruct (Hu _ Hx) as (_ & _ & H0); apply H0; reflexivity. }
  set (R := fun u : list rune => match result H c reg w lang u with Ok (x, None) => x | _ => [] end).
  assert (forall u, result H c reg w lang u = Ok (R u, None)) as HR.
  { intros u; assert (exists y, cyrillic_run order country (encode u) = Ok y) as (y & Ey).
    { unfold cyrillic_run, cyrillic_new; rewrite Ht; cbn [bind]; eexists; reflexivity. }
    destruct (forward_returns H c reg w lang src s _ _ Hc Es Ep (Hrun' _ _ Ey)) as (out & F).
    subst R; cbv beta; rewrite (forward_result H c reg w lang src s u out Es Ep F); reflexivity. }
  assert (forall x y : bytes, Ok (x, @None gerror) = Ok (y, None) -> x = y) as Hok by (intros x y E'; injection E' as E'; exact E').
  assert (R [] = []) as HR0 by (apply Hok; rewrite <- HR; apply (result_empty H c lang src s reg w Hc Es Ep Hk), (Htl []); constructor).
  exists (map (fun i => R (the_word i)) is); split; [clear - HR; induction is; cbn [map]; constructor; [apply HR|assumption]|].
  rewrite HR; do 2 f_equal.
  rewrite (sentence_marks R fine (of_language s) (fun u => word_of s u /\ Forall (fun x => ~ latin x /\ x <> 0x27%N) u) a_mark is HR0).
  - f_equal; clear; induction is as [|i is IH]; [reflexivity|]; cbn [map combine fst snd]; f_equal; exact IH.
  - split; [reflexivity|]; split; [vm_compute; discriminate|discriminate].
  - right; right; reflexivity.
  - split; [split; constructor|constructor].
  - intros u [[Hu1 Hu2] Hu3]; unfold scalars in Hu1; rewrite Forall_forall in Hu1, Hu2, Hu3.
    split; apply Forall_forall; intros x Hx; [split; [apply Hu1|apply Hu3]; exact Hx|apply (Hu2 x Hx)].
  - intros m Hm; pose proof (mark_scalars m Hm) as H1; pose proof (mark_not_latin m Hm) as H2; unfold scalars in H1; rewrite Forall_forall in H1, H2.
    apply Forall_forall; intros x Hx; split; [apply H1|apply H2]; exact Hx.
  - intros acc Ha Hm; destruct acc as [|u0 acc0] eqn:Eacc; [exact HR0|]; rewrite <- Eacc in *; rewrite Forall_forall in Ha.
    destruct (C95_cyrillic_text W H c lang src s country t order tl reg w acc Hh Hc Es Ep Hl Hin Ht P Hreg Hrun) as (r & rs & rs' & F & Hthin & E).
    + rewrite Eacc; discriminate.
    + apply Forall_forall; intros u Hu; apply (Ha u Hu).
    + intros u x Hu Hx; destruct (Ha u Hu) as [_ Hax]; rewrite Forall_forall in Hax; apply Hax; exact Hx.
    + rewrite HR in E; rewrite (Hok _ _ E).
      assert (r :: rs = map R acc) as Er.
      { clear - F HR Hok; revert F; generalize (r :: rs); intros l F; induction F as [|u x acc l Hu F IH]; [reflexivity|]; cbn [map]; rewrite HR in Hu; f_equal; [symmetry; apply Hok; exact Hu|exact IH]. }
      refine (eq_trans _ (f_equal (fun z => spaced z) Er)); f_equal; f_equal; apply (thin_full rs rs' Hthin); intros a x b -> Hb ->.
      destruct acc as [|v0 vs]; [discriminate|]; cbn [map] in Er; injection Er as _ Er; symmetry in Er; apply map_eq_app in Er; destruct Er as (l1 & l2 & -> & _ & Er).
      destruct l2 as [|v l3]; [discriminate|]; cbn [map] in Er; injection Er as Ev Eb.
      apply (Hm (v0 :: l1) v l3); [reflexivity|discriminate| |exact Ev]; intros ->; cbn [map] in Eb; subst b; contradiction.
  - intros u m v Su Sv Hm Hu Hv; pose proof (mark_scalars m Hm) as H1; pose proof (mark_not_latin m Hm) as H2; unfold scalars in H1.
    assert (Forall fine m) as Fm by (rewrite Forall_forall in H1, H2; apply Forall_forall; intros x Hx; split; [apply H1|apply H2]; exact Hx).
    destruct (C96_transliterated W H c lang src s reg w u u m v v Hc Es Ep Hk) as (ru & rv & E1 & E2 & E3); try (apply Htl; assumption); try (apply Hfs; assumption); try assumption.
    + apply Htl; repeat (apply Forall_app; split); assumption.
    + intros p x ->; apply Forall_app in Hu; destruct Hu as [_ Hu]; inversion Hu; assumption.
    + rewrite HR in E1, E2, E3; injection E1 as E1; injection E2 as E2; rewrite E1, E2; injection E3 as E3; exact E3.
  - eapply Forall_impl; [|exact His]; intros i (H1 & H0 & H2 & H3 & H4); split; [split; [exact H1|apply Forall_forall; exact H0]|]; split; [|split; assumption].
    rewrite HR in H2; intros E; apply H2; rewrite E; reflexivity.
Qed.
Print Assumptions C96_cyrillic.

(** Two marks that are not kept everywhere: most of the bundled languages write ; and , between their
    rewrite rules and remove them at the end, so a semicolon or two commas in the text vanish and
    the words are joined. *)
Theorem C96_semicolon_refuted : exists lang u v ru rv,
  heard lang u = Ok (ru, None) /\ heard lang v = Ok (rv, None) /\ ru <> [] /\ rv <> [] /\
  heard lang (u ++ lit ";" ++ v) = Ok (ru ++ rv, None).
Proof.
  exists (lit "ita"), (lit "ma"), (lit "no"), (lit "마"), (lit "노"); split; [vm_compute; reflexivity|]; split; [vm_compute; reflexivity|].
  split; [discriminate|]; split; [discriminate|]; vm_compute; reflexivity.
Qed.
Print Assumptions C96_semicolon_refuted.
Theorem C96_commas_refuted : exists lang u v ru rv,
  heard lang u = Ok (ru, None) /\ heard lang v = Ok (rv, None) /\
  heard lang (u ++ lit ",," ++ v) = Ok (ru ++ rv, None).
Proof.
  exists (lit "ita"), (lit "ma"), (lit "no"), (lit "마"), (lit "노"); split; [vm_compute; reflexivity|]; split; vm_compute; reflexivity.
Qed.
Print Assumptions C96_commas_refuted.

Example C96_example :
  match lookup bundled_files (specs_dir ++ lit "ita" ++ ext) with
  | Some src => match parse_spec choices0 src with
                | Ok s => l_translit (s_lang s) = [] /\
                    map (fun x => snd (forward (W := unit) go_hangul s [] false tt (lit x)))
                      ["Ciao"; "mondo"; "vita"; "(Ciao), mondo: vita!"]%string =
                    map (fun x => Ok (lit x)) ["차오"; "몬도"; "비타"; "(차오), 몬도: 비타!"]%string /\
                    forallb (fun x => script_is (s_script s) x && negb (is_space x)) (lit "Ciaomondovita") = true
                | _ => False
                end
  | None => False
  end /\
  lit "(Ciao), mondo: vita!" = spaced (map written
    [{| before := lit "("; the_word := lit "Ciao"; behind := lit ")," |}; {| before := []; the_word := lit "mondo"; behind := lit ":" |};
     {| before := []; the_word := lit "vita"; behind := lit "!" |}]) /\
  a_mark (lit "),").
Proof.
  split; [vm_compute; repeat split|]; split; [reflexivity|]; split; [discriminate|]; split; [|vm_compute; lia].
  constructor; [right; exists 0x28%N, 0x2B%N; split; [cbn [In elsewhere]; auto 30|vm_compute; split; discriminate]|].
  constructor; [left; reflexivity|constructor].
Qed.

(** Hello, world! *)
Example C96_cyrillic_example :
  match lookup bundled_files (specs_dir ++ lit "rus" ++ ext) with
  | Some src => match parse_spec choices0 src with
                | Ok s => l_translit (s_lang s) = [cyrillic_scheme (lit "ru")] /\
                    map (fun x => snd (forward go_hangul s [(cyrillic_scheme (lit "ru"), russian)] false tt (lit x)))
                      ["Привет"; "мир"; "«Привет», мир!"]%string =
                    map (fun x => Ok (lit x)) ["프리베트"; "미르"; "«프리베트», 미르!"]%string /\
                    forallb (script_is (s_script s)) (runes (lit "Приветмир")) = true
                | _ => False
                end
  | None => False
  end.
Proof. vm_compute; repeat split. Qed.
