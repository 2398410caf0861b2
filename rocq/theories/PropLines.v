(** C97: tabs and line breaks are read as spaces. *)
From Coq Require Import String Lia Permutation.
From Verif Require Import GoBase Utf8 Utf8Facts UniTables Unicode Replacer ReplacerFacts Regex Hre Rule Scripts Hsl Spec SpecOrder Jamo Procedure
  ProcFacts ProcLocal ProcChars CaseFacts SeparateFacts BString Bundled Api ApiFacts WordFacts WordSpec WhiteFacts CyrDict Translit PropBundled PropProc PropChars PropTranslit PropSplit
  PropWords PropMarks.
Open Scope Z_scope.

(** Two texts that differ in nothing but tabs, line feeds, form feeds, carriage returns and
    spaces, each in the place of another of them. *)
Definition a_blank (x : rune) : Prop := In x [0x09; 0x0A; 0x0C; 0x0D; 0x20]%N.
Definition alike (u v : list rune) : Prop := Forall2 (fun x y => x = y \/ a_blank x /\ a_blank y) u v.

Lemma blank_white x : a_blank x -> white x = true.
Proof. unfold a_blank; cbn [In]; intros H; repeat (destruct H as [<-|H]; [reflexivity|]); contradiction. Qed.
Lemma alike_blend u v : alike u v -> map blend u = map blend v.
Proof.
  induction 1 as [|x y u v Hx Hu IH]; [reflexivity|]; cbn [map]; f_equal; [|exact IH].
  destruct Hx as [->|[Hx Hy]]; [reflexivity|]; unfold blend; rewrite (blank_white x Hx), (blank_white y Hy); reflexivity.
Qed.
Lemma alike_keeps (P : rune -> Prop) u v : (forall x, a_blank x -> P x) -> alike u v -> Forall P u -> Forall P v.
Proof.
  intros HP; induction 1 as [|x y u v Hx Hu IH]; intros Hf; [constructor|]; inversion Hf; subst; constructor; [|apply IH; assumption].
  destruct Hx as [<-|[_ Hy]]; [assumption|apply HP; exact Hy].
Qed.

Lemma bundled_lines c lang src s : choices_ok c -> lookup bundled_files (specs_dir ++ lang ++ ext) = Some src -> parse_spec c src = Ok s ->
  by_words lang s ->
  exists s0, parse_spec choices0 src = Ok s0 /\ same_but_order s0 s /\ unambiguous (s_normReplacer s0) /\ spec_words s0 = true /\ spec_even s0 = true.
Proof.
  intros Hc Es Ep Hl; destruct (bundled_words c lang src s Hc Es Ep Hl) as (s0 & E0 & Ho & Hu & Hs).
  exists s0; repeat (split; [assumption|]).
  pose proof bundled_fits as Hf; rewrite forallb_forall in Hf; specialize (Hf _ (PropBundled.lookup_in _ _ _ Es)).
  unfold file_fits in Hf; cbn [fst snd] in Hf; rewrite E0 in Hf; apply andb_true_iff in Hf; destruct Hf as [_ Hf].
  apply andb_true_iff in Hf; destruct Hf as [Hid Hf]; do 7 (apply andb_true_iff in Hf; destruct Hf as [_ Hf]).
  unfold spec_fits in Hid; apply andb_true_iff in Hid; destruct Hid as [Hid _]; apply beqb_eq in Hid.
  apply app_inv_head in Hid; apply app_inv_tail in Hid.
  destruct Ho as [Ho _]; assert (s_lang s = s_lang s0) as El by (rewrite Ho; reflexivity).
  unfold spec_lines in Hf; rewrite <- Hid, <- El in Hf; destruct Hl as [[Hl Hlang]|(sc & Hin & Hsc)].
  - rewrite Hl in Hf; apply orb_true_iff in Hf; destruct Hf as [Hf|Hf]; [|exact Hf].
    exfalso; apply Hlang; apply existsb_exists in Hf; destruct Hf as (x & Hin & E); apply beqb_eq in E; subst x; exact Hin.
  - destruct (l_translit (s_lang s)) as [|t ts]; [contradiction|exact Hf].
Qed.

(** In a bundled language without transliterators other than Dutch, Welsh and Middle Welsh, and in
    one with any but furigana, when the transliterators make texts of the language of two texts and
    these are alike, the results for the two texts are the same. *)
Theorem C97_transliterated : forall W (H : hangul_lib) c lang src s (reg : list (bytes * translit W)) w u0 u v0 v,
  choices_ok c -> lookup bundled_files (specs_dir ++ lang ++ ext) = Some src -> parse_spec c src = Ok s ->
  l_translit (s_lang s) = [] /\ ~ In lang [lit "cym"; lit "nld"; lit "wlm"] \/
    (exists sc, In sc (l_translit (s_lang s)) /\ sc <> lit "furigana") ->
  transliterate (l_translit (s_lang s)) reg w None (encode u0) = (w, None, Ok (encode u)) ->
  transliterate (l_translit (s_lang s)) reg w None (encode v0) = (w, None, Ok (encode v)) ->
  scalars u -> Forall (of_language s) u -> alike u v ->
  exists r, result H c reg w lang u0 = Ok (r, None) /\ result H c reg w lang v0 = Ok (r, None).
Proof.
  intros W H c lang src s reg w u0 u v0 v Hc Es Ep Hl T1 T2 Su Lu Huv.
  destruct (forward_returns H c reg w lang src s _ _ Hc Es Ep T1) as (r & F1).
  exists r; split; [exact (forward_result H c reg w lang src s u0 r Es Ep F1)|].
  apply (forward_result H c reg w lang src s v0 r Es Ep).
  destruct (bundled_rules _ _ _ _ Es Hc Ep) as (_ & Hrw & Htr & _).
  destruct (bundled_lines c lang src s Hc Es Ep Hl) as (s0 & E0 & Ho & Hamb & Hw & He).
  rewrite (forward_order H s0 s reg false w _ Ho Hamb) in F1; rewrite (forward_order H s0 s reg false w _ Ho Hamb); destruct Ho as [Ho _].
  assert (s_lang s = s_lang s0) as El by (rewrite Ho; reflexivity).
  assert (s_rewrite s = s_rewrite s0) as Er by (rewrite Ho; reflexivity).
  assert (s_transcribe s = s_transcribe s0) as Et by (rewrite Ho; reflexivity).
  assert (forall x, of_language s x -> of_language s0 x) as Hlg.
  { intros x; unfold of_language; rewrite Ho; cbn [s_script s_puncts]; auto. }
  clear Ho; rewrite Er in Hrw; rewrite Et in Htr; rewrite El in T1, T2.
  assert (scalars v) as Sv.
  { apply (alike_keeps _ u v); [|exact Huv|exact Su]; intros x; unfold a_blank; cbn [In]; intros Hx; repeat (destruct Hx as [<-|Hx]; [reflexivity|]); contradiction. }
  assert (Forall (fun x => meaningful s0 x = true) u) as Mu.
  { unfold scalars in Su; rewrite Forall_forall in *; intros x Hx; apply of_language_meaningful; auto. }
  assert (Forall (fun x => meaningful s0 x = true) v) as Mv.
  { apply (alike_keeps _ u v); [|exact Huv|exact Mu]; intros x Hx; apply meaningful_blend, blank_white; exact Hx. }
  unfold forward in *; cbn [new_tracer trace_word emit] in *; rewrite T1 in F1; rewrite T2.
  assert (after_translit H s0 None (encode v) = after_translit H s0 None (encode u)) as E.
  { refine (eq_trans (eq_sym (phases_blend H s0 v Hw He Hrw Htr Sv Mv)) (eq_trans _ (phases_blend H s0 u Hw He Hrw Htr Su Mu))).
    exact (f_equal (fun z => after_translit H s0 None (encode z)) (eq_sym (alike_blend u v Huv))). }
  rewrite E; exact F1.
Qed.
Print Assumptions C97_transliterated.

(** In a bundled language that needs no transliterator, other than Dutch, Welsh and Middle Welsh. *)
Corollary C97_lines : forall W (H : hangul_lib) c lang src s (reg : list (bytes * translit W)) w u v,
  choices_ok c -> lookup bundled_files (specs_dir ++ lang ++ ext) = Some src -> parse_spec c src = Ok s -> l_translit (s_lang s) = [] ->
  ~ In lang [lit "cym"; lit "nld"; lit "wlm"] ->
  scalars u -> Forall (of_language s) u -> alike u v ->
  exists r, result H c reg w lang u = Ok (r, None) /\ result H c reg w lang v = Ok (r, None).
Proof.
  intros W H c lang src s reg w u v Hc Es Ep Hl Hlang Su Lu Huv.
  apply (C97_transliterated W H c lang src s reg w u u v v Hc Es Ep (or_introl (conj Hl Hlang))); try assumption; rewrite Hl; reflexivity.
Qed.
Print Assumptions C97_lines.

(** So words on lines of their own, or with tabs between them, come out as a phrase with spaces. *)
Corollary C97_words : forall W (H : hangul_lib) c lang src s (reg : list (bytes * translit W)) w ws v,
  hl_is_hangul H 0x20%N = false -> choices_ok c ->
  lookup bundled_files (specs_dir ++ lang ++ ext) = Some src -> parse_spec c src = Ok s -> l_translit (s_lang s) = [] ->
  ~ In lang [lit "cym"; lit "nld"; lit "wlm"] ->
  ws <> [] -> Forall (word_of s) ws -> alike (spaced ws) v ->
  exists r rs rs', Forall2 (fun u x => result H c reg w lang u = Ok (x, None)) ws (r :: rs) /\ thin rs rs' /\
    result H c reg w lang v = Ok (spaced (r :: rs'), None).
Proof.
  intros W H c lang src s reg w ws v Hh Hc Es Ep Hl Hlang Hne Hws Hv.
  destruct (C95_phrase W H c lang src s reg w ws Hh Hc Es Ep Hl Hlang Hne Hws) as (r & rs & rs' & F & Hth & E).
  exists r, rs, rs'; split; [exact F|]; split; [exact Hth|].
  assert (forall P : rune -> Prop, P 0x20%N -> Forall (Forall P) ws -> Forall P (spaced ws)) as Hsp.
  { clear; intros P HP; induction 1 as [|u ws Hu Hws IH]; [constructor|]; destruct ws; [exact Hu|]; rewrite spaced_cons by discriminate.
    apply Forall_app; split; [exact Hu|]; constructor; [exact HP|exact IH]. }
  destruct (C97_lines W H c lang src s reg w (spaced ws) v Hc Es Ep Hl Hlang) as (r' & E1 & E2); try exact Hv.
  - apply Hsp; [reflexivity|]; eapply Forall_impl; [|exact Hws]; intros u Hu; apply Hu.
  - apply Hsp; [right; right; reflexivity|]; eapply Forall_impl; [|exact Hws]; intros u [_ Hu]; eapply Forall_impl; [|exact Hu]; intros x Hx; apply Hx.
  - rewrite E2, <- E1; exact E.
Qed.
Print Assumptions C97_words.

(** A text of pieces of the language with marks (PropMarks.v) between them. *)
Definition marked_text (u : list rune) (ps : list (list rune * list rune)) : list rune :=
  u ++ concat (map (fun p => fst p ++ snd p) ps).
Definition of_text (s : spec) (u : list rune) : Prop := scalars u /\ Forall (of_language s) u.
Fixpoint well_marked (s : spec) (ps : list (list rune * list rune)) : Prop :=
  match ps with
  | [] => True
  | (m, v) :: ps' => a_mark m /\ of_text s v /\ (v <> [] \/ ps' = []) /\ well_marked s ps'
  end.
Lemma marked_scalars s v ps : of_text s v -> well_marked s ps -> scalars (marked_text v ps).
Proof.
  unfold marked_text; intros [Hv _]; revert v Hv; induction ps as [|[m u] ps IH]; intros v Hv Hp; cbn [map concat fst snd]; [rewrite app_nil_r; exact Hv|].
  destruct Hp as (Hm & [Hu _] & _ & Hp); apply Forall_app; split; [exact Hv|]; rewrite <- app_assoc; apply Forall_app; split; [apply mark_scalars; exact Hm|].
  apply IH; assumption.
Qed.
Lemma alike_text s u v : alike u v -> of_text s u -> of_text s v.
Proof.
  intros Huv [Su Lu]; split.
  - apply (alike_keeps _ u v); [|exact Huv|exact Su]; intros x; unfold a_blank; cbn [In]; intros Hx; repeat (destruct Hx as [<-|Hx]; [reflexivity|]); contradiction.
  - apply (alike_keeps _ u v); [|exact Huv|exact Lu]; intros x Hx; right; right; apply white_space, blank_white; exact Hx.
Qed.
Lemma alike_nonnil u v : alike u v -> u <> [] -> v <> [].
Proof. intros [|x y u' v' _ _] H; [contradiction|discriminate]. Qed.

(** So line breaks are read as spaces in sentences with punctuation, too. *)
Theorem C97_sentence : forall W (H : hangul_lib) c lang src s (reg : list (bytes * translit W)) w u v ps qs,
  choices_ok c -> lookup bundled_files (specs_dir ++ lang ++ ext) = Some src -> parse_spec c src = Ok s -> l_translit (s_lang s) = [] ->
  ~ In lang [lit "cym"; lit "nld"; lit "wlm"] ->
  of_text s u -> well_marked s ps -> alike u v ->
  Forall2 (fun p q => fst p = fst q /\ alike (snd p) (snd q)) ps qs ->
  exists r, result H c reg w lang (marked_text u ps) = Ok (r, None) /\ result H c reg w lang (marked_text v qs) = Ok (r, None).
Proof.
  intros W H c lang src s reg w u v ps qs Hc Es Ep Hl Hlang Hu Hp Huv Hpq; revert u v Hu Huv Hp.
  induction Hpq as [|[m u1] [m' v1] ps qs [E Hm] Hpq IH]; intros u v Hu Huv Hp.
  - unfold marked_text; cbn [map concat]; rewrite !app_nil_r.
    apply (C97_lines W H c lang src s reg w u v Hc Es Ep Hl Hlang); try assumption; apply Hu.
  - cbn [fst snd] in E, Hm; subst m'; destruct Hp as (Hmark & Hu1 & Hne & Hp).
    destruct (IH u1 v1 Hu1 Hm Hp) as (r & E1 & E2).
    pose proof (alike_text s u v Huv Hu) as Hv; pose proof (alike_text s u1 v1 Hm Hu1) as Hv1.
    assert (well_marked s qs) as Hq.
    { clear - Hpq Hp; induction Hpq as [|[a b] [a' b'] ps qs [E1 E2] Hpq IH]; [exact I|]; cbn [fst snd] in *; subst a'.
      destruct Hp as (H1 & H2 & H3 & H4); split; [exact H1|]; split; [apply (alike_text s b b' E2 H2)|]; split; [|apply IH; exact H4].
      destruct H3 as [H3| ->]; [left; apply (alike_nonnil b b' E2 H3)|right; inversion Hpq; reflexivity]. }
    assert (forall a, of_text s a -> (forall p y, a = p ++ [y] -> of_language s y)) as Hlast.
    { intros a [_ Ha] p y ->; apply Forall_app in Ha; destruct Ha as [_ Ha]; inversion Ha; assumption. }
    assert (forall a l, of_text s a -> a <> [] \/ l = [] -> forall y p, marked_text a l = y :: p -> of_language s y) as Hfirst.
    { intros [|b a] l [_ Ha] Hx y p; unfold marked_text.
      - destruct Hx as [Hx| ->]; [contradiction|discriminate].
      - cbn [app]; intros E; injection E as -> _; inversion Ha; assumption. }
    assert (forall a b l, marked_text a ((m, b) :: l) = a ++ m ++ marked_text b l) as Hsplit.
    { intros a b l; unfold marked_text; cbn [map concat fst snd]; rewrite <- app_assoc; reflexivity. }
    rewrite !Hsplit.
    assert (v1 <> [] \/ qs = []) as Hne'.
    { destruct Hne as [Hne| ->]; [left; apply (alike_nonnil u1 v1 Hm Hne)|right; inversion Hpq; reflexivity]. }
    destruct (C97_lines W H c lang src s reg w u v Hc Es Ep Hl Hlang (proj1 Hu) (proj2 Hu) Huv) as (x & X1 & X2).
    destruct (C96_mark W H c lang src s reg w u m (marked_text u1 ps)) as (a1 & b1 & A1 & B1 & R1); try assumption;
      [apply Hu|apply (marked_scalars s); assumption|apply (Hlast u); exact Hu|apply Hfirst; assumption|].
    destruct (C96_mark W H c lang src s reg w v m (marked_text v1 qs)) as (a2 & b2 & A2 & B2 & R2); try assumption;
      [apply Hv|apply (marked_scalars s); assumption|apply (Hlast v); exact Hv|apply Hfirst; assumption|].
    exists (a1 ++ encode m ++ b1); split; [exact R1|]; rewrite R2.
    rewrite X1 in A1; rewrite X2 in A2; rewrite E1 in B1; rewrite E2 in B2; injection A1 as <-; injection A2 as <-; injection B1 as <-; injection B2 as <-; reflexivity.
Qed.
Print Assumptions C97_sentence.

(** Texts without Latin letters and apostrophes, in the languages with a Cyrillic transliterator. *)
Corollary C97_cyrillic : forall W (H : hangul_lib) c lang src s country t order tl (reg : list (bytes * translit W)) w u v,
  choices_ok c -> lookup bundled_files (specs_dir ++ lang ++ ext) = Some src -> parse_spec c src = Ok s ->
  l_translit (s_lang s) = [cyrillic_scheme country] -> In country cyrillic_countries -> lookup cyr_dict country = Some t -> an_order t order ->
  lookup reg (cyrillic_scheme country) = Some tl -> (forall x, tl_run tl w x = (w, cyrillic_run order country x)) ->
  scalars u -> Forall (fun x => of_language s x /\ ~ latin x /\ x <> 0x27%N) u -> alike u v ->
  exists r, result H c reg w lang u = Ok (r, None) /\ result H c reg w lang v = Ok (r, None).
Proof.
  intros W H c lang src s country t order tl reg w u v Hc Es Ep Hl Hin Ht P Hreg Hrun Su Lu Huv.
  assert (forall x, scalars x -> Forall (fun x => ~ latin x /\ x <> 0x27%N) x ->
    transliterate (l_translit (s_lang s)) reg w None (encode x) = (w, None, Ok (encode x))) as Htl.
  { intros x Sx Hx; rewrite Hl; cbn [transliterate]; rewrite Hreg, Hrun.
    assert (cyrillic_run order country (encode x) = Ok (encode x)) as ->; [|reflexivity].
    apply (C20_unchanged_partial country t order); try assumption; rewrite runes_encode by exact Sx; rewrite Forall_forall in Hx.
    - intros y Hy; apply (Hx y Hy).
    - intros _ Hy; destruct (Hx _ Hy) as [_ H0]; apply H0; reflexivity. }
  assert (Forall (fun x => ~ latin x /\ x <> 0x27%N) u) as Nu by (eapply Forall_impl; [|exact Lu]; intros x Hx; apply Hx).
  assert (forall x, a_blank x -> is_scalar x = true /\ ~ latin x /\ x <> 0x27%N) as Hb.
  { intros x; unfold a_blank; cbn [In]; intros Hx; repeat (destruct Hx as [<-|Hx]; [split; [reflexivity|split; [vm_compute; discriminate|vm_compute; discriminate]]|]); contradiction. }
  apply (C97_transliterated W H c lang src s reg w u u v v Hc Es Ep); try assumption.
  - right; exists (cyrillic_scheme country); rewrite Hl; split; [left; reflexivity|]; unfold cyrillic_scheme; discriminate.
  - apply Htl; assumption.
  - apply Htl; [apply (alike_keeps _ u v); [|exact Huv|exact Su]|apply (alike_keeps _ u v); [|exact Huv|exact Nu]]; intros x Hx; apply (Hb x Hx).
  - eapply Forall_impl; [|exact Lu]; intros x Hx; apply Hx.
Qed.
Print Assumptions C97_cyrillic.

(** The three languages tell a line break from a space. *)
Definition line_differs (lang : bytes) : Prop := exists u v ru rv : bytes,
  alike (runes u) (runes v) /\ heard lang u = Ok (ru, None) /\ heard lang v = Ok (rv, None) /\ ru <> rv.
Ltac line_by u v ru rv :=
  exists (lit u ++ lit " " ++ lit v), (lit u ++ [0x0A%N] ++ lit v), (lit ru), (lit rv);
  split; [vm_compute; repeat (constructor; [first [left; reflexivity|right; split; cbn [In]; tauto]|]); constructor|];
  split; [vm_compute; reflexivity|]; split; [vm_compute; reflexivity|vm_compute; discriminate].
Theorem C97_welsh_refuted : line_differs (lit "cym").
Proof. line_by "fy"%string "ngwely"%string "벙 웰리"%string "버 응웰리"%string. Qed.
Print Assumptions C97_welsh_refuted.
Theorem C97_middle_welsh_refuted : line_differs (lit "wlm").
Proof. line_by "fym"%string "mhen"%string "빔 헨"%string "빔 음헨"%string. Qed.
Print Assumptions C97_middle_welsh_refuted.
Theorem C97_dutch_refuted : line_differs (lit "nld").
Proof. line_by "de"%string "boer"%string "더부르"%string "더 부르"%string. Qed.
Print Assumptions C97_dutch_refuted.

(** A no-break space is a space of every language, but no border of a word to the rules. *)
Theorem C97_no_break_refuted : exists lang u v out out',
  is_space 0xA0%N = true /\ is_space 0x20%N = true /\
  heard lang (u ++ encode [0x20%N] ++ v) = Ok (out, None) /\ heard lang (u ++ encode [0xA0%N] ++ v) = Ok (out', None) /\ out <> out'.
Proof.
  exists (lit "deu"), (lit "Hund"), (lit "alt"), (lit "훈트 알트"), (lit "훈드 알트"); split; [reflexivity|]; split; [reflexivity|].
  split; [vm_compute; reflexivity|]; split; [vm_compute; reflexivity|vm_compute; discriminate].
Qed.
Print Assumptions C97_no_break_refuted.

Definition song : bytes := lit "la" ++ [0x0A%N] ++ lit "dolce" ++ [0x09%N] ++ lit "vita".
Example C97_example :
  alike (lit "la dolce vita") song /\
  match lookup bundled_files (specs_dir ++ lit "ita" ++ ext) with
  | Some src => match parse_spec choices0 src with
                | Ok s => l_translit (s_lang s) = [] /\
                    map (fun x => snd (forward (W := unit) go_hangul s [] false tt x)) [lit "la dolce vita"; song] =
                    [Ok (lit "라 돌체 비타"); Ok (lit "라 돌체 비타")] /\
                    forallb (fun x => script_is (s_script s) x || is_space x) (lit "la dolce vita") = true
                | _ => False
                end
  | None => False
  end.
Proof.
  split; [vm_compute; repeat (constructor; [first [left; reflexivity|right; split; cbn [In]; tauto]|]); constructor|].
  vm_compute; split; [reflexivity|]; split; reflexivity.
Qed.
(** The hypotheses of [C97_cyrillic]. *)
Example C97_cyrillic_example :
  match lookup bundled_files (specs_dir ++ lit "rus" ++ ext) with
  | Some src => match parse_spec choices0 src with
                | Ok s => l_translit (s_lang s) = [cyrillic_scheme (lit "ru")] /\
                    map (fun x => snd (forward go_hangul s [(cyrillic_scheme (lit "ru"), russian)] false tt x))
                      [lit "Красная площадь"; lit "Красная" ++ [0x0D%N] ++ lit "площадь"] =
                    [Ok (lit "크라스나야 플로샤디"); Ok (lit "크라스나야 플로샤디")] /\
                    forallb (fun x => script_is (s_script s) x || is_space x) (runes (lit "Красная площадь")) = true
                | _ => False
                end
  | None => False
  end.
Proof. vm_compute; split; [reflexivity|]; split; reflexivity. Qed.
(** The hypotheses of [C97_sentence]. *)
Example C97_sentence_example :
  lit "Ciao, mondo!" = marked_text (lit "Ciao") [(lit ",", lit " mondo"); (lit "!", [])] /\
  a_mark (lit ",") /\ a_mark (lit "!") /\ alike (lit " mondo") (0x0A%N :: lit "mondo") /\
  match lookup bundled_files (specs_dir ++ lit "ita" ++ ext) with
  | Some src => match parse_spec choices0 src with
                | Ok s => map (fun x => snd (forward (W := unit) go_hangul s [] false tt x)) [lit "Ciao, mondo!"; lit "Ciao," ++ 0x0A%N :: lit "mondo!"] =
                    [Ok (lit "차오, 몬도!"); Ok (lit "차오, 몬도!")] /\
                    forallb (fun x => script_is (s_script s) x || is_space x) (lit "Ciao mondo") = true
                | _ => False
                end
  | None => False
  end.
Proof.
  split; [reflexivity|]; split; [|split; [|split]].
  - split; [discriminate|]; split; [constructor; [left; reflexivity|constructor]|vm_compute; lia].
  - split; [discriminate|]; split; [constructor; [right|constructor]|vm_compute; lia].
    assert (exists e, List.find (fun e => (fst e <=? 0x21)%N && (0x21 <=? snd e)%N) elsewhere = Some e) as [[lo hi] E] by (vm_compute; eexists; reflexivity).
    exists lo, hi; apply List.find_some in E; destruct E as [Hin E]; cbn [fst snd] in E; split; [exact Hin|]; apply andb_true_iff in E; destruct E as [E1 E2]; apply N.leb_le in E1, E2; split; assumption.
  - vm_compute; repeat (constructor; [first [left; reflexivity|right; split; cbn [In]; tauto]|]); constructor.
  - vm_compute; split; reflexivity.
Qed.
