(** The page and the command: C75. *)
From Coq Require Import String Permutation Lia.
From Verif Require Import GoBase Utf8 Utf8Facts Spec Jamo Procedure Api ApiFacts Translit Tools Wasm Web JsText WebTranslit
  SpecOrder PropBundled PropApi PropTools PropTranslit PropWasm PropWeb PropJsText PropWebTranslit.

(** ** C75 The page shows what the command prints *)

(** The transliterators of translit/translit.go, installed as the command does *)
Definition installed nfc readings tokenize order : list (bytes * translit unit) :=
  fst (install tl_scheme (std_translits nfc readings tokenize order) []).
(** Each of them, one after the other, gets and gives plain text. *)
Inductive stays_plain (reg : list (bytes * translit unit)) : list bytes -> bytes -> Prop :=
| plain_nil word : stays_plain reg [] word
| plain_cons sc rest word t out : lookup reg sc = Some t -> plain word -> snd (tl_run t tt word) = Ok out -> plain out ->
    stays_plain reg rest out -> stays_plain reg (sc :: rest) word.

(** What happens in the module of the page: it is given the transliterators first, and then
    there are only calls. *)
Definition only_calls (e : js_event) : Prop := match e with EUse _ | EUnuse _ => False | _ => True end.
Definition page_events nfc readings tokenize order methods (es : list js_event) : Prop :=
  exists calls, es = page_uses (module_call nfc readings tokenize order) methods ++ calls /\ Forall only_calls calls.

Lemma registered_calls a b : Forall only_calls b -> registered (a ++ b) = registered a.
Proof.
  induction b as [|e b IH] using rev_ind; intros Hb; [rewrite app_nil_r; reflexivity|].
  apply Forall_app in Hb; destruct Hb as [Hb He]; inversion He as [|? ? Hx _]; subst.
  rewrite app_assoc, registered_snoc; destruct e; try contradiction; apply IH; exact Hb.
Qed.
Lemma split_calls uses calls before i c order after : Forall (fun e => exists t, e = EUse t) uses ->
  uses ++ calls = before ++ EStart i c order :: after -> exists b, before = uses ++ b /\ calls = b ++ EStart i c order :: after.
Proof.
  revert before; induction uses as [|u uses IH]; intros before Hu E; [exists before; split; [reflexivity|exact E]|].
  inversion Hu as [|? ? [t Ht] Hu']; subst; destruct before as [|x before]; cbn [app] in E; [discriminate|].
  injection E as <- E; destruct (IH before Hu' E) as (b & -> & ->); exists b; split; reflexivity.
Qed.
Lemma installed_lookup nfc readings tokenize order std : In std (std_translits nfc readings tokenize order) ->
  lookup (installed nfc readings tokenize order) (tl_scheme std) = Some std.
Proof. intros Hin; repeat (destruct Hin as [<-|Hin]; [reflexivity|]); destruct Hin. Qed.

Lemma transliterate_same reg1 reg2 schemes : forall word, stays_plain reg2 schemes word ->
  (forall sc t, In sc schemes -> lookup reg2 sc = Some t -> exists t', lookup reg1 sc = Some t' /\ tl_scheme t' = tl_scheme t /\
     forall word r, plain word -> snd (tl_run t tt word) = Ok r -> plain r -> snd (tl_run t' tt word) = Ok r) ->
  forall tr, transliterate schemes reg1 tt tr word = transliterate schemes reg2 tt tr word.
Proof.
  induction schemes as [|sc schemes IH]; intros word Hp Hr tr; [reflexivity|]; cbn [transliterate].
  inversion Hp as [|? ? ? t out El Hw E Ho Hrest]; subst.
  destruct (Hr sc t (or_introl eq_refl) El) as (t' & El' & Esc & Hrun); rewrite El, El'.
  specialize (Hrun word out Hw E Ho); destruct (tl_run t tt word) as [[] r], (tl_run t' tt word) as [[] r']; cbn [snd] in *; subst r r'.
  rewrite Esc; apply IH; [exact Hrest|]; intros sc' t0 Hin; apply Hr; right; exact Hin.
Qed.

(** A call of the page with a bundled language is settled with what Hangulize returns when
    the transliterators are installed. Missing from the property: words that begin with a
    byte order mark and are not text. *)
Theorem C75_same_partial : forall H c0 order0 nfc readings tokenize order specs translits methods,
  (forall lang, choices_ok (c0 lang)) -> (forall l, Permutation l (order0 l)) ->
  manifest bundled_files c0 order0 = Ok (specs, translits) -> methods_of translits methods ->
  forall cache0 es st i p events lang word traced src s0,
  cached_ok bundled_files cache0 -> page_events nfc readings tokenize order methods es -> Forall fair es ->
  wasm_run H bundled_files (wasm_start cache0) es = Some st -> nth_error (wa_calls st) i = Some (Settled p events) ->
  nth_error (made es) i = Some (lang, word, traced) ->
  lookup bundled_files (specs_dir ++ lang ++ ext) = Some src -> parse_spec choices0 src = Ok s0 ->
  stays_plain (installed nfc readings tokenize order) (l_translit (s_lang s0)) word ->
  forall c, choices_ok c -> exists cache1 r,
    hangulize H bundled_files c [] (installed nfc readings tokenize order) tt lang word = (cache1, tt, r) /\ as_promise r p.
Proof.
  intros H c0 order0 nfc readings tokenize order specs translits methods Hc0 Ho0 Em Hm cache0 es st i p events lang word traced src s0
    Hs (calls & Ees & Hcalls) Hf Hr Hi Hmade Es E0 Hplain c Hc.
  destruct (C63_calls H cache0 es st i p events Hs Hf Hr Hi) as (call & before & c1 & order1 & after & Ees' & Hmade' & Ha).
  rewrite Hmade in Hmade'; injection Hmade' as <-; destruct Ha as [Ha _].
  set (mc := module_call nfc readings tokenize order) in *.
  assert (Forall (fun e => exists t, e = EUse t) (page_uses mc methods)) as Huse.
  { unfold page_uses; apply Forall_map, Forall_forall; intros u _; eexists; reflexivity. }
  rewrite Ees in Ees'; destruct (split_calls _ _ _ _ _ _ _ Huse Ees') as (b & Eb & Ec).
  assert (registered before = registered (page_uses mc methods)) as Ereg.
  { rewrite Eb; apply registered_calls; rewrite Ec in Hcalls; apply Forall_app in Hcalls; apply Hcalls. }
  assert (exists reg, holds reg (registered before)) as (reg & Hh).
  { apply (registry_exists H cache0 before (EStart i c1 order1 :: after) st Hs); [|rewrite <- Ees', <- Ees; exact Hr].
    rewrite Ees, Ees' in Hf; apply Forall_app in Hf; apply Hf. }
  destruct (Ha reg c Hh Hc) as (cache1 & r & E & Hp); exists cache1, r; split; [|exact Hp].
  rewrite <- E; unfold hangulize, load_spec; cbn [lookup]; rewrite Es.
  destruct (file_ok_parses src c (bundled_file_ok _ _ Es) Hc) as (s0' & s & E0' & Ep & Hsame & _).
  rewrite E0 in E0'; injection E0' as <-; rewrite Ep; unfold run_hangulizer, forward.
  assert (s_lang s = s_lang s0) as -> by (destruct Hsame as [-> _]; reflexivity).
  assert (forall tr, transliterate (l_translit (s_lang s0)) reg tt tr word =
    transliterate (l_translit (s_lang s0)) (installed nfc readings tokenize order) tt tr word) as Ht.
  { intros tr; apply transliterate_same; [exact Hplain|]; intros sc t Hin El.
    destruct (C73_bundled c0 order0 nfc readings tokenize order specs translits methods Hc0 Ho0 Em Hm) as [_ Hb].
    destruct (Hb lang src s0 sc Es E0 Hin) as (jt & std & E1 & Hstd & Esc & Hrun).
    subst sc; rewrite (installed_lookup _ _ _ _ _ Hstd) in El; injection El as <-.
    exists (promise_translit jt); rewrite Hh, Ereg; fold mc in E1; rewrite E1; split; [reflexivity|]; split; [|exact Hrun].
    cbn [promise_translit tl_scheme].
    assert (forall es sc t, registered es sc = Some t -> jt_scheme t = sc) as Hkey.
    { induction es0 as [|e es0 IH] using rev_ind; intros sc t; [discriminate|]; rewrite registered_snoc; destruct e; try apply IH.
      - destruct (registered es0 (jt_scheme t0)); [apply IH|]; destruct (beqb (jt_scheme t0) sc) eqn:Eb0; [|apply IH].
        intros [= <-]; apply beqb_eq; exact Eb0.
      - destruct (beqb scheme sc); [discriminate|apply IH]. }
    exact (Hkey _ _ _ E1). }
  rewrite Ht; reflexivity.
Qed.
Print Assumptions C75_same_partial.

(** *** Every call is settled *)

(** What the library does: a token of the dictionary has nine features. *)
Definition tokens_ok (ts : list ktoken) : Prop := Forall (fun t => k_class t = TKnown -> (9 <= length (k_features t))%nat) ts.
Lemma interpret_ok t : (k_class t = TKnown -> (9 <= length (k_features t))%nat) -> exists x, interpret_token t = Ok x.
Proof.
  intros H; destruct (k_class t) eqn:E; [| | |]; try (unfold interpret_token; rewrite E; eexists; reflexivity).
  apply (C56_features t E); apply H; reflexivity.
Qed.
Lemma skip_dummies_ok ts : tokens_ok ts -> tokens_ok (skip_dummies ts) /\ (length (skip_dummies ts) <= length ts)%nat.
Proof.
  induction 1 as [|t ts Ht H IH]; [split; [constructor|reflexivity]|]; destruct t as [[] sf fs]; cbn [skip_dummies length];
    try (split; [constructor; assumption|lia]); destruct IH; split; [assumption|lia].
Qed.
Lemma scan_auxiliary_ok ts : tokens_ok ts ->
  exists s rest, scan_auxiliary ts = Ok (s, rest) /\ tokens_ok rest /\ (length rest <= length ts)%nat.
Proof.
  induction 1 as [|t ts Ht H IH]; [exists [], []; repeat split; constructor|]; cbn [scan_auxiliary length].
  destruct IH as (s & rest & E & Hr & Hl); destruct (interpret_ok t Ht) as ([str cat] & Ei); rewrite Ei, E; cbn [bind].
  assert (tokens_ok (t :: ts)) as Hall by (constructor; assumption); clear Ht H.
  destruct (k_class t); try (exists s, rest; repeat split; [assumption|lia]);
    (destruct cat; try (exists [], (t :: ts); repeat split; [assumption|cbn [length]; lia]);
     exists (str ++ s), rest; repeat split; [assumption|lia]).
Qed.
Lemma typewrite_ok ts : tokens_ok ts -> exists s, typewrite ts = Ok s.
Proof.
  intros H; unfold typewrite; assert (length ts < S (length ts))%nat as Hl by lia; revert Hl; generalize (S (length ts)) as fuel.
  intros fuel; generalize (@None category) as last; revert ts H; induction fuel as [|fuel IH]; intros ts H last Hl; [lia|].
  cbn [typewrite_loop]; unfold scan_morpheme; destruct (skip_dummies_ok ts H) as [Hd Hdl].
  destruct (skip_dummies ts) as [|t ts']; [eexists; reflexivity|]; inversion Hd as [|? ? Ht Hts]; subst; cbn [length] in *.
  destruct (interpret_ok t Ht) as ([str cat] & Ei); rewrite Ei; cbn [bind].
  destruct (scan_auxiliary_ok ts' Hts) as (aux & rest & Ea & Hr & Hrl); rewrite Ea; cbn [bind].
  destruct (merge_long_vowels _ _) as [|b m]; [eexists; reflexivity|].
  destruct (IH rest Hr (Some cat) ltac:(lia)) as (s & ->); cbn [bind]; eexists; reflexivity.
Qed.
Lemma page_behaves nfc readings tokenize order translits :
  (forall word, tokens_ok (tokenize word)) -> (forall c t, lookup CyrDict.cyr_dict c = Some t -> Permutation t (order c t)) ->
  (forall t, In t translits -> In t known_translits) ->
  Forall behaves (page_uses (module_call nfc readings tokenize order) translits).
Proof.
  intros Ht Ho Hk; unfold page_uses; apply Forall_map, Forall_forall; intros u Hu word; cbn [behaves page_translit jt_fn].
  destruct (C73_once_partial translits) as (U1 & U2 & U3 & U4 & U5 & _).
  { intros m Hin; destruct (known_name m (Hk m Hin)) as (_ & _ & H & _); exact H. }
  assert (In (fst u) translits) as Hin by (rewrite <- U1; apply in_map; exact Hu).
  assert (snd u = normalize_method (fst u)) as -> by (rewrite Forall_forall in U2; apply U2; exact Hu).
  destruct u as [m name]; cbn [fst] in *; clear Hu.
  destruct (known_name m (Hk m Hin)) as (md & Hurl & _ & Ee).
  destruct (lookup (sp_workers (spawn_workers translits)) (normalize_method m)) as [ready|] eqn:El.
  2:{ right; eexists; reflexivity. }
  rewrite (U5 _ _ _ Hurl (PropBundled.lookup_in _ _ _ El)); cbn [worker_call]; left; rewrite Ee.
  unfold module_call; destruct md.
  - specialize (Hk m Hin); destruct Hk as [<-|[<-|[<-|[<-|[<-|[<-|[]]]]]]];
      try (exfalso; clear - Hurl; destruct Hurl as [E|[E|[E|[]]]]; discriminate E).
    + destruct (C66_known_partial unit order tt (lit "bg") (text_encode (text_decode word)) Ho) as (table & _ & on & _ & E); [vm_compute; tauto|].
      change (cyrillic_scheme (lit "bg")) with (lit "cyrillic[bg]") in E; rewrite E; eexists; reflexivity.
    + destruct (C66_known_partial unit order tt (lit "mk") (text_encode (text_decode word)) Ho) as (table & _ & on & _ & E); [vm_compute; tauto|].
      change (cyrillic_scheme (lit "mk")) with (lit "cyrillic[mk]") in E; rewrite E; eexists; reflexivity.
    + destruct (C66_known_partial unit order tt (lit "ru") (text_encode (text_decode word)) Ho) as (table & _ & on & _ & E); [vm_compute; tauto|].
      change (cyrillic_scheme (lit "ru")) with (lit "cyrillic[ru]") in E; rewrite E; eexists; reflexivity.
    + destruct (C66_known_partial unit order tt (lit "ua") (text_encode (text_decode word)) Ho) as (table & _ & on & _ & E); [vm_compute; tauto|].
      change (cyrillic_scheme (lit "ua")) with (lit "cyrillic[ua]") in E; rewrite E; eexists; reflexivity.
  - destruct (typewrite_ok _ (Ht (repeat_kana (nfc (text_encode (text_decode word)))))) as (s & E).
    unfold furigana_transliterate; rewrite E; eexists; reflexivity.
  - eexists; reflexivity.
Qed.

(** What the module of the page can answer, None for an error: in some run a call is settled
    with it. *)
Definition page_answer H cache0 nfc readings tokenize order methods (lang word : jstring) (o : option jstring) : Prop :=
  exists es st i p events, page_events nfc readings tokenize order methods es /\ Forall fair es /\
    wasm_run H bundled_files (wasm_start cache0) es = Some st /\ nth_error (wa_calls st) i = Some (Settled p events) /\
    nth_error (made es) i = Some (text_encode lang, text_encode word, false) /\
    o = match p with Resolved out => Some (text_decode out) | Rejected _ => None end.
Lemma run_uses H ts rest st0 : wa_dead st0 = None ->
  exists st, wasm_run H bundled_files st0 (map EUse ts) = Some st /\ wa_dead st = None /\
    wasm_run H bundled_files st0 (map EUse ts ++ rest) = wasm_run H bundled_files st rest.
Proof.
  revert st0; induction ts as [|t ts IH]; intros st0 Hd; cbn [map app wasm_run]; [exists st0; auto|].
  assert (exists st1, wasm_step H bundled_files st0 (EUse t) = Some st1 /\ wa_dead st1 = None) as (st1 & -> & Hd1)
    by (unfold wasm_step; rewrite Hd; eexists; split; reflexivity).
  apply IH; exact Hd1.
Qed.
Lemma made_uses ts rest : made (map EUse ts ++ rest) = made rest.
Proof. induction ts as [|t ts IH]; [reflexivity|exact IH]. Qed.

Theorem C75_answers : forall H c0 order0 nfc readings tokenize order specs translits methods cache0 lang word,
  (forall lang, choices_ok (c0 lang)) -> (forall l, Permutation l (order0 l)) ->
  manifest bundled_files c0 order0 = Ok (specs, translits) -> methods_of translits methods ->
  (forall word, tokens_ok (tokenize word)) -> (forall c t, lookup CyrDict.cyr_dict c = Some t -> Permutation t (order c t)) ->
  cached_ok bundled_files cache0 ->
  exists o, page_answer H cache0 nfc readings tokenize order methods lang word o.
Proof.
  intros H c0 order0 nfc readings tokenize order specs translits methods cache0 lang word Hc0 Ho0 Em Hm Ht Ho Hs.
  destruct (C61_manifest c0 order0 Hc0 Ho0) as (specs' & translits' & Em' & _ & _ & _ & Hnd & Htr).
  rewrite Em in Em'; injection Em' as <- <-.
  assert (forall t, In t translits -> In t known_translits) as Hk.
  { intros t Hin; apply Htr in Hin; destruct Hin as (l & src & s0 & Es & E0 & Hin); exact (described_translits l src s0 Es E0 t Hin). }
  pose proof (known_methods translits methods Hk Hm) as ->; clear Hm.
  pose proof (page_behaves nfc readings tokenize order translits Ht Ho Hk) as Hb.
  set (mc := module_call nfc readings tokenize order) in *.
  assert (exists ts, page_uses mc translits = map EUse ts) as (ts & Eu).
  { exists (map (page_translit mc (spawn_workers translits)) (sp_uses (spawn_workers translits))); unfold page_uses; rewrite map_map; reflexivity. }
  set (es := map EUse ts ++ [ECall (text_encode lang) (text_encode word) false]).
  assert (Forall fair es) as Hf.
  { apply Forall_app; split; [apply Forall_map, Forall_forall; intros; exact I|repeat constructor]. }
  assert (Forall behaves es) as Hbe.
  { apply Forall_app; split; [rewrite <- Eu; exact Hb|repeat constructor]. }
  destruct (run_uses H ts [ECall (text_encode lang) (text_encode word) false] (wasm_start cache0) eq_refl) as (st1 & _ & Hd & E1).
  assert (exists st, wasm_run H bundled_files (wasm_start cache0) es = Some st) as (st & Er).
  { unfold es; rewrite E1; cbn [wasm_run]; unfold wasm_step; rewrite Hd; eexists; reflexivity. }
  assert (nth_error (made es) 0 = Some (text_encode lang, text_encode word, false)) as Hmade.
  { unfold es; rewrite made_uses; reflexivity. }
  destruct (C63_settles H cache0 es st 0 _ Hs Hf Hbe Er Hmade) as (_ & rest & st' & p & events & Hrest & Er' & Hset).
  exists (match p with Resolved out => Some (text_decode out) | Rejected _ => None end), (es ++ rest), st', 0%nat, p, events.
  split; [|split; [|split; [|split; [exact Hset|split; [|reflexivity]]]]].
  - exists (ECall (text_encode lang) (text_encode word) false :: rest); fold mc; rewrite Eu; split; [unfold es; rewrite <- app_assoc; reflexivity|].
    constructor; [exact I|]; eapply Forall_impl; [|exact Hrest]; intros e [-> | ->]; exact I.
  - apply Forall_app; split; [exact Hf|]; eapply Forall_impl; [|exact Hrest]; intros e [-> | ->]; [|exact I].
    split; [apply choices0_ok|intros; apply Permutation_refl].
  - clear - Er Er'; revert Er Er'; generalize (wasm_start cache0) as st0; induction es as [|e es IH]; intros st0 Er Er'; cbn [app wasm_run] in *.
    + injection Er as ->; exact Er'.
    + destruct (wasm_step H bundled_files st0 e); [|discriminate]; apply IH; assumption.
  - rewrite made_app, nth_error_app1; [exact Hmade|]; apply nth_error_Some; congruence.
Qed.
Print Assumptions C75_answers.

(** At rest the page shows what Hangulize returns for the language and the word typed, with
    the transliterators installed, if that is no error and not empty. *)
Theorem C75_shows_partial : forall H c0 order0 nfc readings tokenize order specs translits methods cache0 manifest_langs pg lang word src s0 c,
  (forall lang, choices_ok (c0 lang)) -> (forall l, Permutation l (order0 l)) -> choices_ok c ->
  manifest bundled_files c0 order0 = Ok (specs, translits) -> methods_of translits methods ->
  (forall word, tokens_ok (tokenize word)) -> (forall c t, lookup CyrDict.cyr_dict c = Some t -> Permutation t (order c t)) ->
  cached_ok bundled_files cache0 ->
  reached (page_answer H cache0 nfc readings tokenize order methods) manifest_langs pg ->
  at_rest (page_answer H cache0 nfc readings tokenize order methods) pg -> typed pg = (lang, word) ->
  (exists u, In u word /\ js_space u = false) -> In lang (v_specs (pg_view pg)) ->
  lookup bundled_files (specs_dir ++ text_encode lang ++ ext) = Some src -> parse_spec choices0 src = Ok s0 ->
  stays_plain (installed nfc readings tokenize order) (l_translit (s_lang s0)) (text_encode word) ->
  forall cache1 out,
    hangulize H bundled_files c [] (installed nfc readings tokenize order) tt (text_encode lang) (text_encode word) = (cache1, tt, Ok (out, None)) ->
    text_decode out <> [] -> loading_result (pg_view pg) lang word = (false, text_decode out).
Proof.
  intros H c0 order0 nfc readings tokenize order specs translits methods cache0 manifest_langs pg lang word src s0 c
    Hc0 Ho0 Hc Em Hm Ht Ho Hs Hre Hrest Hty Hw Hl Es E0 Hp cache1 out E Hne.
  assert (forall l w, exists o, page_answer H cache0 nfc readings tokenize order methods l w o) as Htotal
    by (intros l w; eapply C75_answers; eassumption).
  destruct (C70_shows_partial _ _ pg lang word Htotal Hre Hrest Hty) as [_ Hshow].
  destruct (Hshow Hw Hl) as (o & (es & st & i & p & events & Hes & Hf & Hr & Hi & Hmade & ->) & Hv).
  destruct (C75_same_partial H c0 order0 nfc readings tokenize order specs translits methods Hc0 Ho0 Em Hm cache0 es st i p events
    (text_encode lang) (text_encode word) false src s0 Hs Hes Hf Hr Hi Hmade Es E0 Hp c Hc) as (cache2 & r & E' & Hpr).
  rewrite E in E'; injection E' as <- <-; cbn [as_promise] in Hpr; subst p; apply Hv; [reflexivity|exact Hne].
Qed.
Print Assumptions C75_shows_partial.

(** With a byte order mark before it, a word is transliterated into something else. *)
Theorem C75_mark_refuted : exists methods word r r', forall nfc readings tokenize,
  let order := fun (_ : bytes) (t : list (bytes * bytes)) => t in
  utf8_text word /\
  (exists t, lookup (installed nfc readings tokenize order) (lit "cyrillic[ru]") = Some t /\ snd (tl_run t tt word) = Ok r) /\
  (exists t, registered (page_uses (module_call nfc readings tokenize order) methods) (lit "cyrillic[ru]") = Some t /\
     promise_transliterate t word = Ok r') /\ r <> r'.
Proof.
  exists [lit "cyrillic[ru]"], (encode [0xFEFF; 0x61]%N), (encode [0xFEFF; 0x430]%N), (encode [0x430]%N).
  intros nfc readings tokenize order; split; [apply encode_utf8_text|]; split; [|split].
  - eexists; split; [reflexivity|vm_compute; reflexivity].
  - eexists; split; [reflexivity|vm_compute; reflexivity].
  - vm_compute; discriminate.
Qed.
Print Assumptions C75_mark_refuted.

(** A word in Latin letters stays plain in Russian, and the page gets an answer for it in any
    language. *)
Example C75_example :
  let order := fun (_ : bytes) (t : list (bytes * bytes)) => t in
  stays_plain (installed (fun x => x) (fun _ => []) (fun _ => []) order) [lit "cyrillic[ru]"] (lit "Moskva") /\
  exists translits methods, methods_of translits methods /\
    forall lang, exists o, page_answer go_hangul [] (fun x => x) (fun _ => []) (fun _ => []) order methods lang (lit "Moskva") o.
Proof.
  intros order; split.
  - eapply plain_cons; [reflexivity| |vm_compute; reflexivity| |constructor].
    + split; [apply valid_utf8_text; vm_compute; reflexivity|vm_compute; discriminate].
    + split; [apply valid_utf8_text; vm_compute; reflexivity|vm_compute; discriminate].
  - assert (forall lang : bytes, choices_ok choices0) as Hc by (intros; apply choices0_ok).
    assert (forall l : list (bytes * unit), Permutation l l) as Ho by (intros; apply Permutation_refl).
    destruct (C61_manifest (fun _ => choices0) (fun l => l) Hc Ho) as (specs & translits & Em & _ & _ & _ & _ & Ht).
    assert (forall t, In t translits -> In t known_translits) as Hk.
    { intros t Hin; apply Ht in Hin; destruct Hin as (l & src & s0 & Es & E0 & Hin); exact (described_translits l src s0 Es E0 t Hin). }
    exists translits, translits; assert (methods_of translits translits) as Hm.
    { clear - Hk; induction translits as [|t ts IH]; constructor; [|apply IH; intros x Hx; apply Hk; right; exact Hx].
      assert (forallb (fun t => valid_utf8 t && beqb (flat_map units (runes t)) t) known_translits = true) as Ha by (vm_compute; reflexivity).
      rewrite forallb_forall in Ha; specialize (Ha t (Hk t (or_introl eq_refl))); apply andb_true_iff in Ha; destruct Ha as [Ha Eb].
      apply beqb_eq in Eb; pose proof (utf16_exists (runes t) (runes_scalar t)) as Hu; unfold rune, jstring, bytes in *; rewrite Eb in Hu; exact Hu. }
    split; [exact Hm|]; intros lang.
    apply (C75_answers go_hangul (fun _ => choices0) (fun l => l) _ _ _ order specs translits translits []); try assumption.
    + intros; constructor.
    + intros; apply Permutation_refl.
    + intros l s E; discriminate.
Qed.
