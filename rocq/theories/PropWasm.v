(** The bindings to JavaScript: C63, C64, C65. *)
From Coq Require Import String Permutation Lia.
From Verif Require Import GoBase Utf8 Utf8Facts Unicode Replacer Hre Spec Jamo Rule Procedure Api Tracefmt Translit Tools Wasm
  LettersFacts ReplacerFacts ProcFacts ApiFacts SpecOrder PropTrace PropBundled PropApi PropHsl PropTools.
Open Scope Z_scope.

(** ** C63 Calls from JavaScript

    What the events say: the calls made, and the transliterators registered by now. *)
Fixpoint made (es : list js_event) : list (bytes * bytes * bool) :=
  match es with
  | [] => []
  | ECall lang word traced :: es' => (lang, word, traced) :: made es'
  | _ :: es' => made es'
  end.
Definition registered (es : list js_event) : bytes -> option js_translit :=
  fold_left (fun m e => match e with
                        | EUse t => match m (jt_scheme t) with
                                    | Some _ => m
                                    | None => fun sc => if beqb (jt_scheme t) sc then Some t else m sc
                                    end
                        | EUnuse sc0 => fun sc => if beqb sc0 sc then None else m sc
                        | _ => m
                        end) es (fun _ => None).
(** The Go runtime chooses an order for each iteration over a map. *)
Definition fair (e : js_event) : Prop :=
  match e with EStart _ c order => choices_ok c /\ forall l, Permutation l (order l) | _ => True end.
(** What a call of Hangulize returned, as a promise *)
Definition as_promise (r : res returned) (p : promise) : Prop :=
  match r with
  | Ok (out, None) => p = Resolved out
  | Ok (_, Some e) => p = Rejected e
  | _ => False
  end.
(** A registry of the package that holds exactly the given transliterators. *)
Definition holds (reg : list (bytes * translit unit)) (m : bytes -> option js_translit) : Prop :=
  forall sc, lookup reg sc = option_map promise_translit (m sc).

Lemma transliterate_ext {W} schemes (r1 r2 : list (bytes * translit W)) : (forall sc, lookup r1 sc = lookup r2 sc) ->
  forall w tr word, transliterate schemes r1 w tr word = transliterate schemes r2 w tr word.
Proof.
  intros H; induction schemes as [|sc schemes IH]; intros w tr word; cbn [transliterate]; [reflexivity|].
  rewrite H; destruct (lookup r2 sc) as [t|]; [|reflexivity]; destruct (tl_run t w word) as [w1 [x| | | | |]]; try reflexivity; apply IH.
Qed.
Lemma forward_ext {W} H s (r1 r2 : list (bytes * translit W)) on w word : (forall sc, lookup r1 sc = lookup r2 sc) ->
  forward H s r1 on w word = forward H s r2 on w word.
Proof. intros Hr; unfold forward; rewrite (transliterate_ext _ r1 r2 Hr); reflexivity. Qed.

(** *** The registry *)
Definition reg_wf (reg : list (bytes * js_translit)) : Prop :=
  NoDup (map fst reg) /\ Forall (fun e => fst e = jt_scheme (snd e)) reg.
Lemma lookup_perm {A} (l l' : list (bytes * A)) k : Permutation l l' -> NoDup (map fst l) -> lookup l k = lookup l' k.
Proof.
  intros Hp; induction Hp as [|[a x] l l' Hp IH|[a x] [b y] l|l1 l2 l3 H1 IH1 H2 IH2]; cbn [map fst lookup]; intros Hn.
  - reflexivity.
  - inversion Hn; subst; rewrite IH by assumption; reflexivity.
  - destruct (beqb b k) eqn:Eb, (beqb a k) eqn:Ea; try reflexivity.
    apply beqb_eq in Ea, Eb; subst; inversion Hn as [|? ? Hx _]; exfalso; apply Hx; left; reflexivity.
  - rewrite IH1 by exact Hn; apply IH2; eapply Permutation_NoDup; [apply Permutation_map; exact H1|exact Hn].
Qed.
Lemma lookup_key {A} (l : list (bytes * A)) k : lookup l k = None -> ~ In k (map fst l).
Proof.
  induction l as [|[a x] l IH]; cbn [lookup map fst In]; [tauto|]; destruct (beqb a k) eqn:E; [discriminate|].
  intros H [<-|Hin]; [rewrite (proj2 (beqb_eq a a) eq_refl) in E; discriminate|]; exact (IH H Hin).
Qed.
Lemma reg_wf_add reg t : reg_wf reg -> reg_wf (fst (reg_add jt_scheme reg t)).
Proof.
  intros [H1 H2]; unfold reg_add; destruct (lookup reg (jt_scheme t)) eqn:E; cbn [fst]; [split; assumption|].
  split; [cbn [map fst]; constructor; [apply lookup_key; exact E|exact H1]|constructor; [reflexivity|exact H2]].
Qed.
Lemma reg_wf_remove reg sc : reg_wf reg -> reg_wf (fst (reg_remove reg sc)).
Proof.
  intros [H1 H2]; unfold reg_remove; destruct (lookup reg sc); cbn [fst]; [|split; assumption].
  split; [apply remove_keyed; exact H1|]; apply Forall_forall; intros x Hx; apply in_remove in Hx.
  rewrite Forall_forall in H2; apply H2, Hx.
Qed.
Lemma own_registry_lookup reg acc sc : Forall (fun e => fst e = jt_scheme (snd e)) reg ->
  lookup (fold_left (fun r e => fst (reg_add tl_scheme r (promise_translit (snd e)))) reg acc) sc =
  match lookup acc sc with Some t => Some t | None => option_map promise_translit (lookup reg sc) end.
Proof.
  intros Hr; revert acc; induction Hr as [|[k t] reg Hk Hr IH]; intros acc; cbn [fold_left lookup].
  - destruct (lookup acc sc); reflexivity.
  - rewrite IH; cbn [fst snd] in *; subst k; unfold reg_add; cbn [tl_scheme promise_translit].
    destruct (lookup acc (jt_scheme t)) as [t'|] eqn:Ea; cbn [fst].
    + destruct (beqb (jt_scheme t) sc) eqn:E; [apply beqb_eq in E; subst sc; rewrite Ea; reflexivity|reflexivity].
    + cbn [lookup]; destruct (beqb (jt_scheme t) sc) eqn:E; [apply beqb_eq in E; subst sc; rewrite Ea; reflexivity|reflexivity].
Qed.
Lemma own_registry_holds reg reg' : reg_wf reg -> Permutation reg reg' -> holds (own_registry reg') (lookup reg).
Proof.
  intros [H1 H2] Hp sc; unfold own_registry; rewrite own_registry_lookup.
  - cbn [lookup]; rewrite (lookup_perm _ _ sc Hp H1); reflexivity.
  - apply Forall_forall; intros x Hx; rewrite Forall_forall in H2; apply H2.
    eapply Permutation_in; [apply Permutation_sym; exact Hp|exact Hx].
Qed.

(** *** Runs *)
Lemma wasm_run_snoc H fs st es e st' : wasm_run H fs st (es ++ [e]) = Some st' ->
  exists st1, wasm_run H fs st es = Some st1 /\ wasm_step H fs st1 e = Some st'.
Proof.
  revert st; induction es as [|x es IH]; intros st; cbn [app wasm_run].
  - destruct (wasm_step H fs st e) as [s1|] eqn:E; [|discriminate]; intros [= <-]; exists st; auto.
  - destruct (wasm_step H fs st x) as [s1|]; [|discriminate]; apply IH.
Qed.
Lemma made_app a b : made (a ++ b) = made a ++ made b.
Proof. induction a as [|e a IH]; cbn [app made]; [reflexivity|]; destruct e; rewrite IH; reflexivity. Qed.
Lemma registered_snoc es e : registered (es ++ [e]) =
  match e with
  | EUse t => match registered es (jt_scheme t) with
              | Some _ => registered es
              | None => fun sc => if beqb (jt_scheme t) sc then Some t else registered es sc
              end
  | EUnuse sc0 => fun sc => if beqb sc0 sc then None else registered es sc
  | _ => registered es
  end.
Proof. unfold registered; rewrite fold_left_app; reflexivity. Qed.
Lemma set_call_length l i x : (i < length l)%nat -> length (set_call l i x) = length l.
Proof. intros Hi; unfold set_call; rewrite app_length, firstn_length; cbn [length]; rewrite skipn_length; lia. Qed.
Lemma set_call_nth l i j x : (i < length l)%nat ->
  nth_error (set_call l i x) j = if Nat.eqb i j then Some x else nth_error l j.
Proof.
  intros Hi; unfold set_call; destruct (Nat.eqb i j) eqn:E.
  - apply Nat.eqb_eq in E; subst j; rewrite nth_error_app2 by (rewrite firstn_length; lia).
    rewrite firstn_length, Nat.min_l by lia; rewrite Nat.sub_diag; reflexivity.
  - apply Nat.eqb_neq in E; assert (j < i \/ i < j)%nat as [Hj|Hj] by lia.
    + rewrite nth_error_app1 by (rewrite firstn_length; lia).
      rewrite <- (firstn_skipn i l) at 2; rewrite nth_error_app1 by (rewrite firstn_length; lia); reflexivity.
    + rewrite nth_error_app2 by (rewrite firstn_length; lia).
      rewrite firstn_length, Nat.min_l by lia; replace (j - i)%nat with (S (j - S i)) by lia; cbn [nth_error].
      rewrite <- (firstn_skipn (S i) l) at 2; rewrite nth_error_app2 by (rewrite firstn_length; lia).
      rewrite firstn_length, Nat.min_l by lia; reflexivity.
Qed.

Lemma transliterate_untraced {W} schemes (reg : list (bytes * translit W)) w word :
  snd (fst (transliterate schemes reg w None word)) = None.
Proof.
  revert w word; induction schemes as [|sc schemes IH]; intros w word; cbn [transliterate]; [reflexivity|].
  destruct (lookup reg sc) as [t|]; [|reflexivity]; destruct (tl_run t w word) as [w1 [x| | | | |]]; try reflexivity; apply IH.
Qed.
Lemma forward_untraced {W} H s (reg : list (bytes * translit W)) w word : snd (fst (forward H s reg false w word)) = None.
Proof.
  unfold forward; cbn [new_tracer trace_word emit].
  pose proof (transliterate_untraced (l_translit (s_lang s)) reg w word) as Ht.
  destruct (transliterate _ _ _ _ _) as [[w1 tr1] [word1| | | | |]]; cbn [fst snd] in Ht; subst tr1; try reflexivity.
  unfold after_translit, normalize, rewrite, transcribe, syllabify, localize, trace_word; cbn [emit is_some trace_commit].
  destruct (partition _ _) as [sws0| | | | |]; cbn [bind]; try reflexivity.
  destruct (rewrite_loop _ _ _ _ _ _ _) as [[buf recs]| | | | |]; cbn [bind]; try reflexivity.
  destruct (transcribe_loop _ _ _ _ _ _ _) as [[buf2 recs2]| | | | |]; cbn [bind]; reflexivity.
Qed.

(** What is known about a settled call. The trace function got a faithful log (C04). *)
Definition answered (H : hangul_lib) (m : bytes -> option js_translit) (call : bytes * bytes * bool)
           (p : promise) (events : list js_trace) : Prop :=
  let '(lang, word, traced) := call in
  (forall reg c, holds reg m -> choices_ok c ->
     exists specs' r, hangulize H bundled_files c [] reg tt lang word = (specs', tt, r) /\ as_promise r p) /\
  (traced = false -> events = []) /\
  (traced = true -> (p = Rejected (ErrSpecNotFound lang) /\ events = []) \/
     exists c src s evs, lookup bundled_files (specs_dir ++ lang ++ ext) = Some src /\ parse_spec c src = Ok s /\
       events = map js_trace_of evs /\ faithful s evs /\ (forall out, p = Resolved out -> out = last (map t_word evs) [])).

Definition call_ok (H : hangul_lib) (es : list js_event) (i : nat) (x : js_call) : Prop :=
  match x with
  | Queued lang word traced => nth_error (made es) i = Some (lang, word, traced)
  | Running s reg word traced =>
    exists lang before c order after c' src, es = before ++ EStart i c order :: after /\
      nth_error (made before) i = Some (lang, word, traced) /\ holds reg (registered before) /\
      choices_ok c' /\ lookup bundled_files (specs_dir ++ lang ++ ext) = Some src /\ parse_spec c' src = Ok s
  | Settled p events =>
    exists call before c order after, es = before ++ EStart i c order :: after /\
      nth_error (made before) i = Some call /\ answered H (registered before) call p events
  end.
Definition good (H : hangul_lib) (es : list js_event) (st : wasm) : Prop :=
  cached_ok bundled_files (wa_cache st) /\ reg_wf (wa_reg st) /\ (forall sc, lookup (wa_reg st) sc = registered es sc) /\
  length (wa_calls st) = length (made es) /\
  forall i x, nth_error (wa_calls st) i = Some x -> call_ok H es i x.

Lemma call_ok_snoc H es e i x : call_ok H es i x -> call_ok H (es ++ [e]) i x.
Proof.
  destruct x as [lang word traced|s reg word traced|p events]; cbn [call_ok].
  - intros Hi; rewrite made_app, nth_error_app1; [exact Hi|]; apply nth_error_Some; congruence.
  - intros (lang & before & c & order & after & c' & src & -> & Hr).
    exists lang, before, c, order, (after ++ [e]), c', src; split; [rewrite <- app_assoc; reflexivity|exact Hr].
  - intros (call & before & c & order & after & -> & Hr).
    exists call, before, c, order, (after ++ [e]); split; [rewrite <- app_assoc; reflexivity|exact Hr].
Qed.

(** The run of a call is that of the package function, with any orders. *)
Lemma run_answered H s reg word traced lang m c' src tr r :
  choices_ok c' -> lookup bundled_files (specs_dir ++ lang ++ ext) = Some src -> parse_spec c' src = Ok s -> holds reg m ->
  run_hangulizer H s reg traced tt word = (tt, tr, r) ->
  forall p, as_promise r p ->
  answered H m (lang, word, traced) p (match tr with Some (_, evs) => map js_trace_of (rev evs) | None => [] end).
Proof.
  intros Hc Es Ep Hh E p Hp; unfold run_hangulizer in E.
  destruct (forward H s reg traced tt word) as [[u tr1] r1] eqn:Ef; injection E as -> <- <-.
  destruct (forward H s reg false tt word) as [[u0 tr0] r0] eqn:Ef0; destruct u0.
  assert (r1 = r0) as ->.
  { destruct traced; [exact (proj2 (C03_transparent unit H c' src s reg tt word _ _ _ _ _ _ Ep Ef Ef0))|congruence]. }
  split; [|split].
  - intros reg' c Hh' Hc0; unfold hangulize, load_spec; cbn [lookup]; rewrite Es.
    destruct (file_ok_parses src c (bundled_file_ok _ _ Es) Hc0) as (s0 & s' & E0 & Ep' & Ho' & Hu & _).
    destruct (file_ok_parses src c' (bundled_file_ok _ _ Es) Hc) as (s0' & s2 & E0' & Ep2 & Ho & _).
    assert (s0' = s0) as -> by congruence; assert (s2 = s) as -> by congruence.
    rewrite Ep'; unfold run_hangulizer; rewrite (forward_order H s0 s' reg' false tt word Ho' Hu).
    rewrite (forward_ext H s0 reg' reg false tt word) by (intros sc; rewrite Hh, Hh'; reflexivity).
    rewrite <- (forward_order H s0 s reg false tt word Ho Hu), Ef0; do 2 eexists; split; [reflexivity|exact Hp].
  - intros ->; destruct tr1 as [[w0 evs]|]; [|reflexivity]; exfalso.
    revert Ef; clear; intros Ef.
    pose proof (forward_untraced H s reg tt word) as Hf; rewrite Ef in Hf; discriminate.
  - intros ->; right; destruct (C04_faithful unit H c' src s reg tt word _ _ _ Ep Ef) as (evs & Ee & Hf & Hl).
    exists c', src, s, (rev evs); split; [exact Es|]; split; [exact Ep|]; split; [|split; [exact Hf|]].
    + destruct tr1 as [[w0 evs']|]; [|discriminate]; cbn in Ee; injection Ee as ->; reflexivity.
    + intros out ->; apply Hl; unfold as_promise in Hp; destruct r0 as [o|e| | | |]; try discriminate; try contradiction.
      injection Hp as ->; reflexivity.
Qed.

Lemma load_bundled c specs lang : choices_ok c -> cached_ok bundled_files specs ->
  exists specs', cached_ok bundled_files specs' /\
  ((lookup bundled_files (specs_dir ++ lang ++ ext) = None /\
    load_spec bundled_files c specs lang = (specs', Err (ErrSpecNotFound lang))) \/
   exists c' src s, load_spec bundled_files c specs lang = (specs', Ok s) /\ choices_ok c' /\
     lookup bundled_files (specs_dir ++ lang ++ ext) = Some src /\ parse_spec c' src = Ok s).
Proof.
  intros Hc Hok; pose proof (load_cached bundled_files c specs lang Hc Hok) as Hl.
  destruct (load_spec bundled_files c specs lang) as [specs' r]; destruct Hl as [Hok' (c' & Hc' & Er)].
  exists specs'; split; [exact Hok'|]; unfold load_spec in Er; cbn [lookup] in Er.
  destruct (lookup bundled_files (specs_dir ++ lang ++ ext)) as [src|] eqn:Es.
  - right; destruct (file_ok_parses src c' (bundled_file_ok _ _ Es) Hc') as (s0 & s & _ & Ep & _).
    rewrite Ep in Er; cbn [snd] in Er; subst r; exists c', src, s; auto.
  - left; split; [reflexivity|]; cbn [snd] in Er; subst r; reflexivity.
Qed.

Lemma good_run H specs es st : cached_ok bundled_files specs -> Forall fair es ->
  wasm_run H bundled_files (wasm_start specs) es = Some st -> good H es st.
Proof.
  intros Hs; revert st; induction es as [|e es IH] using rev_ind; intros st Hf Hr.
  - injection Hr as <-; split; [exact Hs|]; split; [split; constructor|]; split; [reflexivity|]; split; [reflexivity|].
    intros [|i] x E; discriminate.
  - apply Forall_app in Hf; destruct Hf as [Hf He]; apply Forall_inv in He.
    destruct (wasm_run_snoc _ _ _ _ _ _ Hr) as (st1 & E1 & E2); clear Hr.
    destruct (IH st1 Hf E1) as (G1 & G2 & G3 & G4 & G5); clear IH.
    assert (forall j y, nth_error (wa_calls st1) j = Some y -> call_ok H (es ++ [e]) j y) as G5'
      by (intros j y Hy; apply call_ok_snoc, G5, Hy).
    unfold wasm_step in E2; destruct (wa_dead st1); [discriminate|]; destruct e as [t|sc0|lang word traced|i c order|i].
    + injection E2 as <-; split; [exact G1|]; split; [apply reg_wf_add; exact G2|]; split.
      * intros sc; cbn [wa_reg]; rewrite registered_snoc; unfold reg_add; rewrite <- G3.
        destruct (lookup (wa_reg st1) (jt_scheme t)) eqn:El; cbn [fst lookup]; [apply G3|]; destruct (beqb (jt_scheme t) sc); auto.
      * cbn [wa_calls]; split; [rewrite made_app; cbn [made]; rewrite app_nil_r; exact G4|exact G5'].
    + injection E2 as <-; split; [exact G1|]; split; [apply reg_wf_remove; exact G2|]; split.
      * intros sc; cbn [wa_reg]; rewrite registered_snoc, reg_remove_lookup; unfold update; destruct (beqb sc0 sc); auto.
      * cbn [wa_calls]; split; [rewrite made_app; cbn [made]; rewrite app_nil_r; exact G4|exact G5'].
    + injection E2 as <-; split; [exact G1|]; split; [exact G2|]; split; [intros sc; rewrite registered_snoc; apply G3|]; cbn [wa_calls]; split.
      * rewrite made_app, !app_length; cbn [made length]; rewrite G4; reflexivity.
      * intros j y Hy; destruct (Nat.lt_ge_cases j (length (wa_calls st1))) as [Hj|Hj].
        { rewrite nth_error_app1 in Hy by exact Hj; apply G5'; exact Hy. }
        rewrite nth_error_app2 in Hy by exact Hj; destruct (j - length (wa_calls st1))%nat as [|d] eqn:Ed; [|destruct d; discriminate].
        injection Hy as <-; cbn [call_ok]; rewrite made_app, nth_error_app2 by lia.
        replace (j - length (made es))%nat with O by lia; reflexivity.
    + destruct He as [Hc Ho]; destruct (nth_error (wa_calls st1) i) as [[lang word traced|? ? ? ?|? ?]|] eqn:Ei; try discriminate.
      assert (i < length (wa_calls st1))%nat as Hi by (apply nth_error_Some; congruence).
      pose proof (G5 _ _ Ei) as Hm; cbn [call_ok] in Hm.
      destruct (load_bundled c (wa_cache st1) lang Hc G1) as (specs' & Hok' & [(En & El)|(c' & src & s & El & Hc' & Es & Ep)]);
        rewrite El in E2; injection E2 as <-.
      * split; [exact Hok'|]; split; [exact G2|]; split; [intros sc; rewrite registered_snoc; apply G3|]; cbn [wa_calls with_call]; split.
        { rewrite set_call_length by exact Hi; rewrite made_app; cbn [made]; rewrite app_nil_r; exact G4. }
        intros j y; rewrite set_call_nth by exact Hi; destruct (Nat.eqb i j) eqn:Eij; [|apply G5'].
        apply Nat.eqb_eq in Eij; subst j; intros [= <-]; cbn [call_ok].
        exists (lang, word, traced), es, c, order, []; split; [reflexivity|]; split; [exact Hm|].
        split; [|split; [reflexivity|intros _; left; split; reflexivity]].
        intros reg c0 _ _; unfold hangulize, load_spec; cbn [lookup]; rewrite En; do 2 eexists; split; reflexivity.
      * split; [exact Hok'|]; split; [exact G2|]; split; [intros sc; rewrite registered_snoc; apply G3|]; cbn [wa_calls with_call]; split.
        { rewrite set_call_length by exact Hi; rewrite made_app; cbn [made]; rewrite app_nil_r; exact G4. }
        intros j y; rewrite set_call_nth by exact Hi; destruct (Nat.eqb i j) eqn:Eij; [|apply G5'].
        apply Nat.eqb_eq in Eij; subst j; intros [= <-]; cbn [call_ok].
        exists lang, es, c, order, [], c', src; split; [reflexivity|]; split; [exact Hm|]; split; [|auto].
        intros sc; rewrite (own_registry_holds (wa_reg st1) (order (wa_reg st1)) G2 (Ho _)), G3; reflexivity.
    + destruct (nth_error (wa_calls st1) i) as [[? ? ?|s reg word traced|? ?]|] eqn:Ei; try discriminate.
      assert (i < length (wa_calls st1))%nat as Hi by (apply nth_error_Some; congruence).
      pose proof (G5 _ _ Ei) as Hm; cbn [call_ok] in Hm.
      destruct Hm as (lang & before & c & order & after & c' & src & -> & Hm & Hh & Hc' & Es & Ep).
      destruct (run_hangulizer H s reg traced tt word) as [[[] tr] r] eqn:Er.
      assert (forall p, as_promise r p -> call_ok H ((before ++ EStart i c order :: after) ++ [EEnd i]) i
                (Settled p (match tr with Some (_, evs) => map js_trace_of (rev evs) | None => [] end))) as Hcall.
      { intros p Hp; apply call_ok_snoc; exists (lang, word, traced), before, c, order, after.
        split; [reflexivity|]; split; [exact Hm|]; exact (run_answered H s reg word traced lang _ c' src tr r Hc' Es Ep Hh Er p Hp). }
      assert (forall p, as_promise r p ->
        good H ((before ++ EStart i c order :: after) ++ [EEnd i])
          (with_call st1 i (Settled p (match tr with Some (_, evs) => map js_trace_of (rev evs) | None => [] end)))) as Hgood.
      { intros p Hp; split; [exact G1|]; split; [exact G2|]; split; [intros sc; rewrite registered_snoc; apply G3|]; cbn [wa_calls with_call]; split.
        { rewrite set_call_length by exact Hi; rewrite (made_app _ [EEnd i]); cbn [made]; rewrite app_nil_r; exact G4. }
        intros j y; rewrite set_call_nth by exact Hi; destruct (Nat.eqb i j) eqn:Eij; [|apply G5'].
        apply Nat.eqb_eq in Eij; subst j; intros [= <-]; apply Hcall; exact Hp. }
      destruct r as [[out [e|]]| |p| | |]; try discriminate; injection E2 as <-.
      * apply Hgood; reflexivity.
      * apply Hgood; reflexivity.
      * split; [exact G1|]; split; [exact G2|]; split; [intros sc; rewrite registered_snoc; apply G3|]; cbn [wa_calls dies]; split.
        { rewrite (made_app _ [EEnd i]); cbn [made]; rewrite app_nil_r; exact G4. }
        exact G5'.
Qed.

(** Whatever happens in between, in whatever order: a call is settled with what the package
    function Hangulize returns for its language and word, with the transliterators that were
    registered when its goroutine started; the trace function got a faithful log. *)
Theorem C63_calls : forall H specs es st i p events,
  cached_ok bundled_files specs -> Forall fair es ->
  wasm_run H bundled_files (wasm_start specs) es = Some st ->
  nth_error (wa_calls st) i = Some (Settled p events) ->
  exists call before c order after, es = before ++ EStart i c order :: after /\
    nth_error (made es) i = Some call /\ answered H (registered before) call p events.
Proof.
  intros H specs es st i p events Hs Hf Hr Hi; destruct (good_run H specs es st Hs Hf Hr) as (_ & _ & _ & _ & G).
  destruct (G _ _ Hi) as (call & before & c & order & after & -> & Hm & Ha).
  exists call, before, c, order, after; split; [reflexivity|]; split; [|exact Ha].
  rewrite made_app, nth_error_app1; [exact Hm|]; apply nth_error_Some; congruence.
Qed.
Print Assumptions C63_calls.

(** The functions of JavaScript behave: they return promises that are settled, and reject
    with objects. *)
Definition behaves (e : js_event) : Prop :=
  match e with
  | EUse t => forall word, (exists v, jt_fn t word = Fulfils v) \/ (exists m, jt_fn t word = Rejects (JObject m))
  | _ => True
  end.
Lemma behaves_returns es sc t : Forall behaves es -> registered es sc = Some t ->
  forall w x, returns (snd (tl_run (promise_translit t) w x)).
Proof.
  intros Hb; revert t; induction es as [|e es IH] using rev_ind; intros t; [discriminate|].
  apply Forall_app in Hb; destruct Hb as [Hb He]; apply Forall_inv in He; specialize (IH Hb).
  rewrite registered_snoc; destruct e as [t0|sc0| | |]; try apply IH.
  - destruct (registered es (jt_scheme t0)); [apply IH|]; destruct (beqb (jt_scheme t0) sc); [|apply IH].
    intros [= <-] w x; cbn [promise_translit tl_run snd]; unfold promise_transliterate.
    destruct (He x) as [(v & ->)|(m & ->)]; [left; eexists; reflexivity|right; eexists; reflexivity].
  - destruct (beqb sc0 sc); [discriminate|apply IH].
Qed.
Lemma behaves_app a b : Forall behaves (a ++ b) -> Forall behaves a.
Proof. intros H; apply Forall_app in H; apply H. Qed.

Lemma running_ends H es i s reg word traced : Forall behaves es -> call_ok H es i (Running s reg word traced) ->
  exists tr r p, run_hangulizer H s reg traced tt word = (tt, tr, r) /\ as_promise r p.
Proof.
  intros Hb (lang & before & c & order & after & c' & src & -> & Hm & Hh & Hc' & Es & Ep); apply behaves_app in Hb.
  unfold run_hangulizer; destruct (forward H s reg traced tt word) as [[[] tr] r] eqn:Ef.
  destruct (C06_returns unit H _ src c' s reg traced tt word tt tr r (lookup_in _ _ _ Es) Hc' Ep) as [(out & ->)|(sc & [-> | ->])].
  - intros sc t w x _ Hl; rewrite Hh in Hl; destruct (registered before sc) as [t'|] eqn:Er; [|discriminate].
    injection Hl as <-; eapply behaves_returns; eassumption.
  - exact Ef.
  - do 3 eexists; split; [reflexivity|reflexivity].
  - do 3 eexists; split; [reflexivity|reflexivity].
  - do 3 eexists; split; [reflexivity|reflexivity].
Qed.

Lemma behaves_alive H specs es st : cached_ok bundled_files specs -> Forall fair es -> Forall behaves es ->
  wasm_run H bundled_files (wasm_start specs) es = Some st -> wa_dead st = None.
Proof.
  intros Hs; revert st; induction es as [|e es IH] using rev_ind; intros st Hf Hb Hr; [injection Hr as <-; reflexivity|].
  apply Forall_app in Hf; destruct Hf as [Hf He]; apply Forall_inv in He; apply behaves_app in Hb.
  destruct (wasm_run_snoc _ _ _ _ _ _ Hr) as (st1 & E1 & E2).
  pose proof (good_run H specs es st1 Hs Hf E1) as (G1 & _ & _ & _ & G5); specialize (IH st1 Hf Hb E1).
  unfold wasm_step in E2; rewrite IH in E2; destruct e as [t|sc0|lang word traced|i c order|i]; try (injection E2 as <-; reflexivity).
  - destruct He as [Hc Ho]; destruct (nth_error (wa_calls st1) i) as [[lang word traced|? ? ? ?|? ?]|] eqn:Ei; try discriminate.
    destruct (load_bundled c (wa_cache st1) lang Hc G1) as (specs' & _ & [(_ & El)|(c' & src & s & El & _)]);
      rewrite El in E2; injection E2 as <-; reflexivity.
  - destruct (nth_error (wa_calls st1) i) as [[? ? ?|s reg word traced|? ?]|] eqn:Ei; try discriminate.
    destruct (running_ends H es i s reg word traced Hb (G5 _ _ Ei)) as (tr & r & p & Er & Hp); rewrite Er in E2.
    destruct r as [[out [e|]]| | | | |]; try contradiction; injection E2 as <-; reflexivity.
Qed.

Lemma set_call_at l i x : (i < length l)%nat -> nth_error (set_call l i x) i = Some x.
Proof. intros Hi; rewrite set_call_nth by exact Hi; rewrite Nat.eqb_refl; reflexivity. Qed.

(** Then the program stays alive, and every call can be settled without anything else
    happening. *)
Theorem C63_settles : forall H specs es st i call,
  cached_ok bundled_files specs -> Forall fair es -> Forall behaves es ->
  wasm_run H bundled_files (wasm_start specs) es = Some st -> nth_error (made es) i = Some call ->
  wa_dead st = None /\
  exists rest st' p events, Forall (fun e => e = EStart i choices0 (fun l => l) \/ e = EEnd i) rest /\
    wasm_run H bundled_files st rest = Some st' /\ nth_error (wa_calls st') i = Some (Settled p events).
Proof.
  intros H specs es st i call Hs Hf Hb Hr Hi.
  pose proof (behaves_alive H specs es st Hs Hf Hb Hr) as Ha; split; [exact Ha|].
  pose proof (good_run H specs es st Hs Hf Hr) as (G1 & G2 & G3 & G4 & G5).
  assert (i < length (wa_calls st))%nat as Hl by (rewrite G4; apply nth_error_Some; congruence).
  assert (choices_ok choices0) as Hc0 by (split; intros; apply Permutation_refl).
  destruct (nth_error (wa_calls st) i) as [x|] eqn:Ei; [|apply nth_error_None in Ei; lia].
  assert (forall es1 st1 s reg word traced, Forall fair es1 -> Forall behaves es1 ->
    wasm_run H bundled_files (wasm_start specs) es1 = Some st1 -> (i < length (wa_calls st1))%nat ->
    nth_error (wa_calls st1) i = Some (Running s reg word traced) ->
    exists st' p events, wasm_step H bundled_files st1 (EEnd i) = Some st' /\ nth_error (wa_calls st') i = Some (Settled p events)) as Hend.
  { intros es1 st1 s reg word traced Hf1 Hb1 Hr1 Hl1 Ei1.
    pose proof (good_run H specs es1 st1 Hs Hf1 Hr1) as (_ & _ & _ & _ & G5').
    destruct (running_ends H es1 i s reg word traced Hb1 (G5' _ _ Ei1)) as (tr & r & p & Er & Hp).
    unfold wasm_step; rewrite (behaves_alive H specs es1 st1 Hs Hf1 Hb1 Hr1), Ei1, Er.
    destruct r as [[out [e|]]| | | | |]; try contradiction; cbn [with_call];
      do 3 eexists; (split; [reflexivity|]); cbn [wa_calls with_call]; apply set_call_at; exact Hl1. }
  destruct x as [lang word traced|s reg word traced|p events].
  - destruct (load_bundled choices0 (wa_cache st) lang Hc0 G1) as (specs' & _ & [(_ & El)|(c' & src & s & El & _)]).
    + exists [EStart i choices0 (fun l => l)]; cbn [wasm_run]; unfold wasm_step; rewrite Ha, Ei, El.
      do 3 eexists; split; [repeat constructor|]; split; [reflexivity|]; cbn [wa_calls with_call]; apply set_call_at; exact Hl.
    + assert (exists st1, wasm_step H bundled_files st (EStart i choices0 (fun l => l)) = Some st1 /\
                (i < length (wa_calls st1))%nat /\
                nth_error (wa_calls st1) i = Some (Running s (own_registry (wa_reg st)) word traced)) as (st1 & E1 & Hl1 & Ei1).
      { unfold wasm_step; rewrite Ha, Ei, El; eexists; split; [reflexivity|]; cbn [wa_calls with_call].
        rewrite set_call_length by exact Hl; split; [exact Hl|]; apply set_call_at; exact Hl. }
      destruct (Hend (es ++ [EStart i choices0 (fun l => l)]) st1 s (own_registry (wa_reg st)) word traced) as (st' & p & events & E2 & Es'); try assumption.
      * apply Forall_app; split; [exact Hf|]; constructor; [split; [exact Hc0|intros; apply Permutation_refl]|constructor].
      * apply Forall_app; split; [exact Hb|]; repeat constructor.
      * clear -Hr E1; revert Hr; generalize (wasm_start specs); induction es as [|e es IH]; intros st0; cbn [wasm_run app].
        { intros [= ->]; rewrite E1; reflexivity. }
        destruct (wasm_step H bundled_files st0 e); [apply IH|discriminate].
      * exists [EStart i choices0 (fun l => l); EEnd i], st', p, events; split; [constructor; [left; reflexivity|constructor; [right; reflexivity|constructor]]|].
        split; [|exact Es']; cbn [wasm_run]; rewrite E1, E2; reflexivity.
  - destruct (Hend es st s reg word traced Hf Hb Hr Hl Ei) as (st' & p & events & E2 & Es').
    exists [EEnd i], st', p, events; split; [constructor; [right; reflexivity|constructor]|]; split; [cbn [wasm_run]; rewrite E2; reflexivity|exact Es'].
  - exists [], st, p, events; split; [constructor|]; split; [reflexivity|exact Ei].
Qed.
Print Assumptions C63_settles.

(** Two calls that overlap. The second starts after the transliterator was taken away. *)
Definition ex_js : js_translit :=
  {| jt_scheme := lit "furigana"; jt_fn := fun word => if beqb word (lit "!") then Fulfils (JString (lit "?")) else Rejects (JObject JUndefined) |}.
Definition ex_start (i : nat) : js_event := EStart i choices0 (fun l => l).
Definition ex_events : list js_event :=
  [EUse ex_js; ECall (lit "jpn") (lit "!") true; ECall (lit "jpn") (lit "!") false; ex_start 0; EUnuse (lit "furigana");
   ECall (lit "xxx") [] false; ex_start 1; ex_start 2; EEnd 1; EEnd 0].
Example C63_example : Forall fair ex_events /\ Forall behaves ex_events /\
  option_map (fun st => (map (fun x => match x with Settled p events => Some (p, map jtr_word events) | _ => None end) (wa_calls st), wa_dead st))
    (wasm_run go_hangul bundled_files (wasm_start []) ex_events) =
  Some ([Some (Resolved (lit "?"), [lit "!"; lit "?"]);
         Some (Rejected (ErrTranslitNotImported (lit "furigana")), []);
         Some (Rejected (ErrSpecNotFound (lit "xxx")), [])], None).
Proof.
  split; [|split].
  - unfold ex_events, ex_start; repeat first [constructor 1 | constructor 2; [first [exact I | split; [split; intros; apply Permutation_refl | intros; apply Permutation_refl]]|]].
  - unfold ex_events, ex_start; constructor; [|repeat (constructor; [exact I|]); constructor].
    intros word; cbn [ex_js jt_fn]; destruct (beqb word (lit "!")); [left|right]; eexists; reflexivity.
  - vm_compute. reflexivity.
Qed.

(** ** C64 A transliterator of JavaScript that fails

    When the promise of a transliterator is rejected with an object, the promise of the call
    is rejected too. *)
Lemma wasm_run_app H fs st a b st' : wasm_run H fs st (a ++ b) = Some st' -> exists st1, wasm_run H fs st a = Some st1.
Proof.
  revert st; induction a as [|e a IH]; intros st; cbn [app wasm_run]; [exists st; reflexivity|].
  destruct (wasm_step H fs st e); [apply IH|discriminate].
Qed.
Lemma registry_exists H specs es b st : cached_ok bundled_files specs -> Forall fair es ->
  wasm_run H bundled_files (wasm_start specs) (es ++ b) = Some st -> exists reg, holds reg (registered es).
Proof.
  intros Hs Hf Hr; destruct (wasm_run_app _ _ _ _ _ _ Hr) as (st1 & E1).
  destruct (good_run H specs es st1 Hs Hf E1) as (_ & G2 & G3 & _).
  exists (own_registry (wa_reg st1)); intros sc; rewrite (own_registry_holds _ _ G2 (Permutation_refl _)), G3; reflexivity.
Qed.

(** Missing from the property: other values, exceptions, and promises that are never settled. *)
Theorem C64_rejects_partial : forall H specs es st i p events lang word traced src s sc rest,
  cached_ok bundled_files specs -> Forall fair es ->
  wasm_run H bundled_files (wasm_start specs) es = Some st -> nth_error (wa_calls st) i = Some (Settled p events) ->
  nth_error (made es) i = Some (lang, word, traced) ->
  lookup bundled_files (specs_dir ++ lang ++ ext) = Some src -> parse_spec choices0 src = Ok s -> l_translit (s_lang s) = sc :: rest ->
  exists before c order after, es = before ++ EStart i c order :: after /\
    forall t v, registered before sc = Some t -> jt_fn t word = Rejects v -> (exists m, v = JObject m \/ v = JFunction m) ->
      p = Rejected (ErrTranslit sc) /\
      forall message, v = JObject (JString message) -> snd (tl_run (promise_translit t) tt word) = Err (ErrOther message).
Proof.
  intros H specs es st i p events lang word traced src s sc rest Hs Hf Hr Hi Hm Es Ep El.
  destruct (C63_calls H specs es st i p events Hs Hf Hr Hi) as (call & before & c & order & after & -> & Hm' & Ha).
  rewrite Hm in Hm'; injection Hm' as <-; exists before, c, order, after; split; [reflexivity|].
  intros t v Ht Hj (m & Hv); apply Forall_app in Hf.
  destruct (registry_exists H specs before _ st Hs (proj1 Hf) Hr) as (reg & Hh); destruct Ha as [Ha _].
  assert (choices_ok choices0) as Hc0 by (split; intros; apply Permutation_refl).
  destruct (Ha reg choices0 Hh Hc0) as (specs' & r & E & Hp).
  unfold hangulize, load_spec in E; cbn [lookup] in E; rewrite Es, Ep in E.
  unfold run_hangulizer, forward in E; rewrite El in E; cbn [transliterate] in E; rewrite Hh, Ht in E.
  cbn [option_map promise_translit tl_run] in E; unfold promise_transliterate in E; rewrite Hj in E.
  split; [destruct Hv as [-> | ->]; cbn [js_message bind] in E; injection E as <- <-; exact Hp|].
  intros message ->; cbn [promise_translit tl_run snd]; unfold promise_transliterate; rewrite Hj; reflexivity.
Qed.
Print Assumptions C64_rejects_partial.

(** When it is fulfilled, a text goes on as it is; any other value is not lost, and not
    taken for nothing: it goes on as a text in angle brackets. *)
Theorem C64_fulfils : forall t word v, jt_fn t word = Fulfils v ->
  exists out, snd (tl_run (promise_translit t) tt word) = Ok out /\
    (v = JString out \/ ((forall text, v <> JString text) /\ exists inner, out = lit "<" ++ inner ++ lit ">")).
Proof.
  intros t word v Hj; cbn [promise_translit tl_run snd]; unfold promise_transliterate; rewrite Hj; eexists; split; [reflexivity|].
  destruct v as [text| | |[|]|text| |m|m]; [left; reflexivity|right..]; split; try discriminate; cbn [js_string].
  - exists (lit "undefined"); reflexivity.
  - exists (lit "null"); reflexivity.
  - exists (lit "boolean: true"); reflexivity.
  - exists (lit "boolean: false"); reflexivity.
  - exists (lit "number: " ++ text); reflexivity.
  - exists (lit "symbol"); reflexivity.
  - exists (lit "object"); reflexivity.
  - exists (lit "function"); reflexivity.
Qed.
Print Assumptions C64_fulfils.
Example C64_null : snd (tl_run (promise_translit {| jt_scheme := lit "furigana"; jt_fn := fun _ => Fulfils JNull |}) tt (lit "!")) = Ok (lit "<null>").
Proof. reflexivity. Qed.

(** A promise rejected with a text, which JavaScript allows, ends the whole program. *)
Definition ex_offline : js_translit := {| jt_scheme := lit "furigana"; jt_fn := fun _ => Rejects (JString (lit "offline")) |}.
Definition ex_fatal : list js_event := [EUse ex_offline; ECall (lit "jpn") (lit "!") false; ex_start 0; EEnd 0].
Lemma ex_fatal_dead : option_map wa_dead (wasm_run go_hangul bundled_files (wasm_start []) ex_fatal) = Some (Some PJs).
Proof. vm_compute. reflexivity. Qed.
Lemma option_map_some {A B} (f : A -> B) x y : option_map f x = Some y -> exists z, x = Some z /\ f z = y.
Proof. destruct x as [z|]; [|discriminate]; intros [= H]; exists z; auto. Qed.
Theorem C64_rejects_refuted : exists es st,
  Forall fair es /\ wasm_run go_hangul bundled_files (wasm_start []) es = Some st /\
  made es = [(lit "jpn", lit "!", false)] /\ wa_dead st = Some PJs /\
  (forall t, In (EUse t) es -> jt_scheme t = lit "furigana" /\ forall word, jt_fn t word = Rejects (JString (lit "offline"))).
Proof.
  destruct (option_map_some _ _ _ ex_fatal_dead) as (st & Er & Ed); exists ex_fatal, st.
  split; [|split; [exact Er|split; [reflexivity|split; [exact Ed|]]]].
  - unfold ex_fatal, ex_start; repeat first [constructor 1 | constructor 2; [first [exact I | split; [split; intros; apply Permutation_refl | intros; apply Permutation_refl]]|]].
  - clear Er Ed; intros t' [Hin|[Hin|[Hin|[Hin|[]]]]]; try discriminate Hin; injection Hin as <-; split; reflexivity.
Qed.
Print Assumptions C64_rejects_refuted.

(** ** C65 The specs handed to JavaScript *)
Lemma bundled_no_nul : forallb (fun e => negb (nmem 0%N (runes (snd e)))) bundled_files = true.
Proof. vm_compute. reflexivity. Qed.
Lemma bundled_source lang c src s : lookup bundled_files (specs_dir ++ lang ++ ext) = Some src -> parse_spec c src = Ok s -> s_source s = src.
Proof.
  intros Es Ep; destruct (C27_source c src s Ep) as [_ Hn]; apply Hn.
  pose proof bundled_no_nul as Hb; rewrite forallb_forall in Hb; specialize (Hb _ (lookup_in _ _ _ Es)); cbn [snd] in Hb.
  intros Hin; apply nmem_in in Hin; unfold rune in *; rewrite Hin in Hb; discriminate.
Qed.
Lemma js_specs_loop_spec fs (c : bytes -> choices) (R : bytes -> spec -> Prop) langs cache0 specs :
  NoDup langs -> (forall lang, choices_ok (c lang)) -> (forall lang, In lang langs -> lookup cache0 lang = None) -> cached_ok fs cache0 ->
  (forall lang, In lang langs -> exists src s, lookup fs (specs_dir ++ lang ++ ext) = Some src /\
     parse_spec (c lang) src = Ok s /\ R lang s) ->
  keyed specs -> (forall lang, In lang langs -> ~ In lang (map fst specs)) ->
  exists ss cache1 specs', js_specs_loop fs c cache0 langs specs = (cache1, Ok specs') /\ Forall2 R langs ss /\
    cached_ok fs cache1 /\ keyed specs' /\
    (forall x, In x specs' <-> In x specs \/ In x (combine langs (map js_spec_of ss))).
Proof.
  intros Hn Hc; revert cache0 specs; induction Hn as [|lang langs Hni Hn IH]; intros cache0 specs Hs Hk Hp K1 Hfresh.
  - exists [], cache0, specs; split; [reflexivity|]; split; [constructor|]; split; [exact Hk|]; split; [exact K1|]; cbn; tauto.
  - destruct (Hp lang (or_introl eq_refl)) as (src & s & Es & Ep & Hr).
    cbn [js_specs_loop]; unfold load_spec; rewrite (Hs lang (or_introl eq_refl)), Es, Ep.
    destruct (IH ((lang, s) :: cache0) (put_key specs lang (js_spec_of s))) as (ss & cache1 & specs' & El & Hf & K4 & K5 & Hx).
    + intros l Hl; cbn [lookup]; destruct (beqb lang l) eqn:E; [apply beqb_eq in E; subst; contradiction|].
      apply Hs; right; exact Hl.
    + intros k s' E; cbn [lookup] in E; destruct (beqb lang k) eqn:Ek; [|apply Hk; exact E].
      apply beqb_eq in Ek; injection E as <-; subst k; exists (c lang), src; auto.
    + intros l Hl; apply Hp; right; exact Hl.
    + apply put_keyed; exact K1.
    + intros l Hl Hin; apply in_map_iff in Hin; destruct Hin as (x & <- & Hin); apply in_put in Hin.
      destruct Hin as [->|[Hin _]]; [contradiction|]; apply (Hfresh (fst x) (or_intror Hl)); apply in_map; exact Hin.
    + exists (s :: ss), cache1, specs'; split; [exact El|]; split; [constructor; assumption|]; split; [exact K4|]; split; [exact K5|].
      intros x; rewrite Hx, in_put; cbn [map combine In]; split; [intuition|].
      intros [H|[H|H]]; [left; right; split; [exact H|]|left; left; auto|auto].
      intros E; apply (Hfresh lang (or_introl eq_refl)); rewrite <- E; apply in_map; exact H.
Qed.

(** The object has every bundled language once, with the fields and the whole text of its
    file; the specs left in the cache are those C63 asks for. *)
Theorem C65_specs : forall c, (forall lang, choices_ok (c lang)) ->
  exists specs objects, js_specs bundled_files c (list_langs bundled_files) = (specs, Ok objects) /\
    cached_ok bundled_files specs /\ NoDup (map fst objects) /\ Permutation (map fst objects) (list_langs bundled_files) /\
    forall lang j, In (lang, j) objects -> exists src s0,
      lookup bundled_files (specs_dir ++ lang ++ ext) = Some src /\ parse_spec choices0 src = Ok s0 /\
      described s0 (js_json j) /\ js_source j = src.
Proof.
  intros c Hc; unfold js_specs.
  destruct (js_specs_loop_spec bundled_files c (fun lang s => exists src s0,
      lookup bundled_files (specs_dir ++ lang ++ ext) = Some src /\ parse_spec choices0 src = Ok s0 /\ same_but_order s0 s /\
      s_source s = src) (list_langs bundled_files) [] []) as (ss & specs & objects & E & Hf & Hk & K & Hx).
  - apply list_langs_nodup, bundled_flat.
  - exact Hc.
  - reflexivity.
  - intros lang s E; discriminate.
  - intros lang Hl; destruct (bundled_lang (c lang) lang (Hc lang) Hl) as (src & s0 & s & Es & E0 & Ep & Ho & _ & Ei & _).
    exists src, s; split; [exact Es|]; split; [exact Ep|]; exists src, s0; repeat (split; [assumption|]).
    eapply bundled_source; eassumption.
  - constructor.
  - intros lang _ [].
  - exists specs, objects; split; [exact E|]; split; [exact Hk|]; split; [exact K|]; split.
    + apply NoDup_Permutation; [exact K|apply list_langs_nodup, bundled_flat|]; intros lang; rewrite in_map_iff; split.
      * intros ([l j] & <- & Hin); apply Hx in Hin; destruct Hin as [[]|Hin]; cbn [fst].
        apply (Forall2_combine _ js_spec_of _ _ _ _ Hf) in Hin; destruct Hin as (s & Hin & _); apply in_combine_l in Hin; exact Hin.
      * intros Hin; destruct (Forall2_in_l _ _ _ _ Hf Hin) as (s & H1 & _ & _); exists (lang, js_spec_of s); split; [reflexivity|].
        apply Hx; right; apply (Forall2_combine _ js_spec_of _ _ _ _ Hf); exists s; auto.
    + intros lang j Hin; apply Hx in Hin; destruct Hin as [[]|Hin].
      apply (Forall2_combine _ js_spec_of _ _ _ _ Hf) in Hin; destruct Hin as (s & Hin & ->).
      destruct (combine_rel _ _ _ _ _ Hf Hin) as (src & s0 & Es & E0 & Ho & Hsrc); exists src, s0; split; [exact Es|]; split; [exact E0|].
      split; [|exact Hsrc]; destruct Ho as [Ho _]; rewrite Ho; unfold described, js_spec_of, json_of; cbn.
      destruct (l_codes (s_lang s0)); repeat split; reflexivity.
Qed.
Print Assumptions C65_specs.

Example C65_example :
  let fs := [(lit "specs/b.hsl", ex_hsl2 (lit "b") (lit "t")); (lit "specs/a.hsl", ex_hsl2 (lit "a") (lit "u"))] in
  map_res (map (fun e => (fst e, j_translit (js_json (snd e)), beqb (js_source (snd e)) (ex_hsl2 (fst e) (lit "t")))))
    (snd (js_specs fs (fun _ => choices0) (list_langs fs))) =
  Ok [(lit "b", [lit "t"], true); (lit "a", [lit "u"], false)].
Proof. vm_compute. reflexivity. Qed.

(** ** C66 The cyrillic module *)
Lemma put_lookup {A} (m : list (bytes * A)) k v k' : lookup (put_key m k v) k' = if beqb k k' then Some v else lookup m k'.
Proof.
  unfold put_key; cbn [lookup]; destruct (beqb k k') eqn:E; [reflexivity|].
  rewrite lookup_remove; unfold update; rewrite E; reflexivity.
Qed.
Lemma translit_map_lookup {W} (ts : list (translit W)) m sc :
  NoDup (map tl_scheme ts) ->
  (forall t, In t ts -> tl_scheme t = sc -> lookup (fold_left (fun m t => put_key m (tl_scheme t) t) ts m) sc = Some t) /\
  (~ In sc (map tl_scheme ts) -> lookup (fold_left (fun m t => put_key m (tl_scheme t) t) ts m) sc = lookup m sc).
Proof.
  intros Hn; revert m; induction ts as [|t ts IH]; intros m; cbn [fold_left map In]; [split; [intros ? []|reflexivity]|].
  inversion Hn as [|? ? H1 H2]; subst; destruct (IH H2 (put_key m (tl_scheme t) t)) as [I1 I2]; split.
  - intros t' [<-|Hin] Hs; [|apply I1; assumption].
    rewrite I2, put_lookup, Hs, (proj2 (beqb_eq sc sc) eq_refl); [reflexivity|]; rewrite <- Hs; exact H1.
  - intros Hni; rewrite I2, put_lookup by tauto; destruct (beqb (tl_scheme t) sc) eqn:E; [|reflexivity].
    apply beqb_eq in E; exfalso; apply Hni; left; exact E.
Qed.

(** A known scheme gives the transliteration with the table of its country. *)
Theorem C66_known_partial : forall W order (w : W) country word,
  (forall c t, lookup CyrDict.cyr_dict c = Some t -> Permutation t (order c t)) -> In country cyrillic_countries ->
  exists table, lookup CyrDict.cyr_dict country = Some table /\
    exists oldnew, Permutation table oldnew /\
    wasm_transliterate (translit_map (cyrillic_ts order)) w (cyrillic_scheme country) word = (w, Ok (replacer_replace oldnew word)).
Proof.
  intros W order w country word Ho Hin.
  assert (exists table, lookup CyrDict.cyr_dict country = Some table) as (table & Et).
  { destruct Hin as [<-|[<-|[<-|[<-|[]]]]]; eexists; reflexivity. }
  exists table; split; [exact Et|]; exists (order country table); split; [apply Ho; exact Et|].
  assert (NoDup (map tl_scheme (cyrillic_ts (W := W) order))) as Hn.
  { cbn; repeat constructor; cbn; intuition discriminate. }
  unfold wasm_transliterate, translit_map.
  erewrite (proj1 (translit_map_lookup _ [] (cyrillic_scheme country) Hn)).
  2:{ apply in_map; exact Hin. }
  2:{ reflexivity. }
  cbn [tl_run]; unfold cyrillic_new; rewrite Et; reflexivity.
Qed.
Print Assumptions C66_known_partial.

(** Another scheme is not an error but a crash. *)
Theorem C66_unknown_refuted : exists scheme word, forall order,
  snd (wasm_transliterate (translit_map (cyrillic_ts order)) tt scheme word) = Panic PNil.
Proof. exists (lit "pinyin"), []; intros order; reflexivity. Qed.
Print Assumptions C66_unknown_refuted.

Example C66_example :
  snd (wasm_transliterate (translit_map (cyrillic_ts (fun _ t => t))) tt (lit "cyrillic[ru]") (lit "Moskva")) = Ok (lit "Москва").
Proof. vm_compute. reflexivity. Qed.
