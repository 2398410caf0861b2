(** Calls from JavaScript that wait for transliterators, and their arguments: C88, C89. *)
From Coq Require Import String Permutation Lia.
From Verif Require Import GoBase Utf8 Utf8Facts Unicode Replacer Hre Spec Jamo Rule Procedure Api Tracefmt Translit Tools Wasm WasmCalls
  LettersFacts ReplacerFacts ProcFacts ApiFacts SpecOrder PropTrace PropBundled PropApi PropHsl PropTools.
From Verif Require PropWasm.
Open Scope Z_scope.

(** ** C88 Calls that wait do not disturb each other

    What the moments say: the calls made, the functions registered by now, the answers given
    to a call. *)
Definition traces_with (more : list js_value) (throws : trace_fn) : option trace_fn :=
  match more with
  | [] => None
  | v :: _ => match v with JUndefined => None | JFunction _ => Some throws | _ => Some (fun _ => true) end
  end.
Fixpoint made (es : list js_moment) : list (bytes * bytes * option trace_fn) :=
  match es with
  | [] => []
  | VCall (lang :: word :: more) throws :: es' => (js_string lang, js_string word, traces_with more throws) :: made es'
  | _ :: es' => made es'
  end.
Definition registered (es : list js_moment) : bytes -> option js_fn :=
  fold_left (fun m e => match e with
                        | VUse (scheme :: v :: _) id call =>
                          match m (js_string scheme) with
                          | Some _ => m
                          | None => fun sc => if beqb (js_string scheme) sc then
                                                Some {| jf_scheme := js_string scheme; jf_id := id;
                                                        jf_call := fun word => match v with JFunction _ => call word | _ => false end |}
                                              else m sc
                          end
                        | VUnuse (scheme :: _) => fun sc => if beqb (js_string scheme) sc then None else m sc
                        | _ => m
                        end) es (fun _ => None).
Definition answers (i : nat) (es : list js_moment) : list answer :=
  flat_map (fun e => match e with VAnswer j a => if Nat.eqb j i then [a] else [] | _ => [] end) es.
(** The Go runtime chooses an order for each iteration over a map. *)
Definition fair (e : js_moment) : Prop :=
  match e with VStart _ c order => choices_ok c /\ forall l, Permutation l (order l) | _ => True end.

(** A transliterator that gives the prepared answers one after the other at once, and notes what
    it was asked. *)
Definition script := (list answer * list (nat * bytes))%type.
Definition scripted (f : js_fn) : translit script :=
  {| tl_scheme := jf_scheme f;
     tl_run := fun w word =>
       if jf_call f word then
         match fst w with
         | [] => ((fst w, snd w ++ [(jf_id f, word)]), Hang)
         | a :: rest =>
           ((rest, snd w ++ [(jf_id f, word)]),
            match a with
            | Fulfilled v => Ok (js_string v)
            | Refused v => let! m := js_message v in Err (ErrOther (js_string m))
            end)
         end
       else (w, Panic PJs) |}.
Definition scripts (reg : list (bytes * translit script)) (m : bytes -> option js_fn) : Prop :=
  forall sc, lookup reg sc = option_map scripted (m sc).
Definition asked_by (i : nat) (st : program) : list (nat * bytes) :=
  map snd (filter (fun a => Nat.eqb (fst a) i) (op_asked st)).
Definition is_traced (t : option trace_fn) : bool := match t with Some _ => true | None => false end.

(** What is known about a settled call: the package function, called with transliterators that
    have the answers given to this call up their sleeves, returns the same, uses them up, and asks
    the same functions with the same words. *)
Definition finished (H : hangul_lib) (m : bytes -> option js_fn) (call : bytes * bytes * option trace_fn)
           (given : list answer) (asked : list (nat * bytes)) (p : promise) (events : list js_trace) : Prop :=
  let '(lang, word, trace) := call in
  (forall reg c, scripts reg m -> choices_ok c ->
     exists specs' r, hangulize H bundled_files c [] reg (given, []) lang word = (specs', ([], asked), r) /\ PropWasm.as_promise r p) /\
  (trace = None -> events = []) /\
  (forall throws, trace = Some throws ->
     (p = Rejected (ErrSpecNotFound lang) /\ events = []) \/
     exists c src s evs, lookup bundled_files (specs_dir ++ lang ++ ext) = Some src /\ parse_spec c src = Ok s /\
       events = map js_trace_of evs /\ faithful s evs /\ (forall out, p = Resolved out -> out = last (map t_word evs) [])).

(** *** The registry *)
Definition reg_wf (reg : list (bytes * js_fn)) : Prop :=
  NoDup (map fst reg) /\ Forall (fun e => fst e = jf_scheme (snd e)) reg.
Lemma reg_wf_add reg t : reg_wf reg -> reg_wf (fst (reg_add jf_scheme reg t)).
Proof.
  intros [H1 H2]; unfold reg_add; destruct (lookup reg (jf_scheme t)) eqn:E; cbn [fst]; [split; assumption|].
  split; [cbn [map fst]; constructor; [apply PropWasm.lookup_key; exact E|exact H1]|constructor; [reflexivity|exact H2]].
Qed.
Lemma reg_wf_remove reg sc : reg_wf reg -> reg_wf (fst (reg_remove reg sc)).
Proof.
  intros [H1 H2]; unfold reg_remove; destruct (lookup reg sc); cbn [fst]; [|split; assumption].
  split; [apply remove_keyed; exact H1|]; apply Forall_forall; intros x Hx; apply in_remove in Hx.
  rewrite Forall_forall in H2; apply H2, Hx.
Qed.
Lemma copied_lookup reg acc sc : Forall (fun e => fst e = jf_scheme (snd e)) reg ->
  lookup (fold_left (fun r e => fst (reg_add jf_scheme r (snd e))) reg acc) sc =
  match lookup acc sc with Some t => Some t | None => lookup reg sc end.
Proof.
  intros Hr; revert acc; induction Hr as [|[k t] reg Hk Hr IH]; intros acc; cbn [fold_left lookup].
  - destruct (lookup acc sc); reflexivity.
  - rewrite IH; cbn [fst snd] in *; subst k; unfold reg_add.
    destruct (lookup acc (jf_scheme t)) as [t'|] eqn:Ea; cbn [fst].
    + destruct (beqb (jf_scheme t) sc) eqn:E; [apply beqb_eq in E; subst sc; rewrite Ea; reflexivity|reflexivity].
    + cbn [lookup]; destruct (beqb (jf_scheme t) sc) eqn:E; [apply beqb_eq in E; subst sc; rewrite Ea; reflexivity|reflexivity].
Qed.
Lemma copied_holds reg reg' sc : reg_wf reg -> Permutation reg reg' -> lookup (copied reg') sc = lookup reg sc.
Proof.
  intros [H1 H2] Hp; unfold copied; rewrite copied_lookup.
  - cbn [lookup]; rewrite (PropWasm.lookup_perm _ _ sc Hp H1); reflexivity.
  - apply Forall_forall; intros x Hx; rewrite Forall_forall in H2; apply H2.
    eapply Permutation_in; [apply Permutation_sym; exact Hp|exact Hx].
Qed.
Definition scripted_reg (reg : list (bytes * js_fn)) : list (bytes * translit script) :=
  map (fun e => (fst e, scripted (snd e))) reg.
Lemma scripted_reg_lookup reg m : (forall sc, lookup reg sc = m sc) -> scripts (scripted_reg reg) m.
Proof.
  intros Hm sc; rewrite <- Hm; clear Hm; induction reg as [|[k f] reg IH]; cbn [scripted_reg map lookup fst snd]; [reflexivity|].
  destruct (beqb k sc); [reflexivity|exact IH].
Qed.

(** *** Moments *)
Lemma program_run_snoc H fs st es e st' : program_run H fs st (es ++ [e]) = Some st' ->
  exists st1, program_run H fs st es = Some st1 /\ program_step H fs st1 e = Some st'.
Proof.
  revert st; induction es as [|x es IH]; intros st; cbn [app program_run].
  - destruct (program_step H fs st e) as [s1|] eqn:E; [|discriminate]; intros [= <-]; exists st; auto.
  - destruct (program_step H fs st x) as [s1|]; [|discriminate]; apply IH.
Qed.
Lemma made_app a b : made (a ++ b) = made a ++ made b.
Proof.
  induction a as [|e a IH]; cbn [app made]; [reflexivity|]; destruct e as [| |[|? [|? ?]]| |]; rewrite ?IH; reflexivity.
Qed.
Lemma answers_app i a b : answers i (a ++ b) = answers i a ++ answers i b.
Proof. apply flat_map_app. Qed.
Lemma registered_app a b : registered (a ++ b) = fold_left (fun m e => match e with
                        | VUse (scheme :: v :: _) id call =>
                          match m (js_string scheme) with
                          | Some _ => m
                          | None => fun sc => if beqb (js_string scheme) sc then
                                                Some {| jf_scheme := js_string scheme; jf_id := id;
                                                        jf_call := fun word => match v with JFunction _ => call word | _ => false end |}
                                              else m sc
                          end
                        | VUnuse (scheme :: _) => fun sc => if beqb (js_string scheme) sc then None else m sc
                        | _ => m
                        end) b (registered a).
Proof. apply fold_left_app. Qed.
Lemma set_open_length l i x : (i < length l)%nat -> length (set_open l i x) = length l.
Proof. intros Hi; unfold set_open; rewrite app_length, firstn_length; cbn [length]; rewrite skipn_length; lia. Qed.
Lemma set_open_nth l i j x : (i < length l)%nat ->
  nth_error (set_open l i x) j = if Nat.eqb i j then Some x else nth_error l j.
Proof.
  intros Hi; unfold set_open; destruct (Nat.eqb i j) eqn:E.
  - apply Nat.eqb_eq in E; subst j; rewrite nth_error_app2 by (rewrite firstn_length; lia).
    rewrite firstn_length, Nat.min_l by lia; rewrite Nat.sub_diag; reflexivity.
  - apply Nat.eqb_neq in E; assert (j < i \/ i < j)%nat as [Hj|Hj] by lia.
    + rewrite nth_error_app1 by (rewrite firstn_length; lia).
      rewrite <- (firstn_skipn i l) at 2; rewrite nth_error_app1 by (rewrite firstn_length; lia); reflexivity.
    + rewrite nth_error_app2 by (rewrite firstn_length; lia).
      rewrite firstn_length, Nat.min_l by lia; replace (j - i)%nat with (S (j - S i)) by lia; cbn [nth_error].
      rewrite <- (firstn_skipn (S i) l) at 2; rewrite nth_error_app2 by (rewrite firstn_length; lia).
      rewrite firstn_length, Nat.min_l by lia; reflexivity.
Qed.

(** *** The end of a call *)
Lemma run_finished H s word trace lang m c' src given l tr r :
  choices_ok c' -> lookup bundled_files (specs_dir ++ lang ++ ext) = Some src -> parse_spec c' src = Ok s ->
  (forall reg, scripts reg m -> run_hangulizer H s reg (is_traced trace) (given, []) word = (([], l), tr, r)) ->
  (exists reg, scripts reg m) ->
  forall p, PropWasm.as_promise r p ->
  finished H m (lang, word, trace) given l p (events_of tr).
Proof.
  intros Hc Es Ep E [reg Hh] p Hp; pose proof (E reg Hh) as Er; unfold run_hangulizer in Er.
  destruct (forward H s reg (is_traced trace) (given, []) word) as [[u tr1] r1] eqn:Ef; injection Er as -> <- <-.
  destruct (forward H s reg false (given, []) word) as [[u0 tr0] r0] eqn:Ef0.
  assert (([], l) = u0 /\ r1 = r0) as [<- ->].
  { destruct trace; cbn [is_traced] in Ef; [exact (C03_transparent script H c' src s reg _ word _ _ _ _ _ _ Ep Ef Ef0)|].
    rewrite Ef in Ef0; injection Ef0 as <- _ <-; split; reflexivity. }
  split; [|split].
  - intros reg' c Hh' Hc0; unfold hangulize, load_spec; cbn [lookup]; rewrite Es.
    destruct (file_ok_parses src c (bundled_file_ok _ _ Es) Hc0) as (s0 & s' & E0 & Ep' & Ho' & Hu & _).
    destruct (file_ok_parses src c' (bundled_file_ok _ _ Es) Hc) as (s0' & s2 & E0' & Ep2 & Ho & _).
    assert (s0' = s0) as -> by congruence; assert (s2 = s) as -> by congruence.
    rewrite Ep'; unfold run_hangulizer; rewrite (forward_order H s0 s' reg' false (given, []) word Ho' Hu).
    rewrite (PropWasm.forward_ext H s0 reg' reg false (given, []) word) by (intros sc; rewrite Hh, Hh'; reflexivity).
    rewrite <- (forward_order H s0 s reg false (given, []) word Ho Hu), Ef0; do 2 eexists; split; [reflexivity|exact Hp].
  - intros ->; cbn [is_traced] in Ef; pose proof (PropWasm.forward_untraced H s reg (given, []) word) as Hf; rewrite Ef in Hf.
    cbn [fst snd] in Hf; subst tr1; reflexivity.
  - intros throws ->; cbn [is_traced] in Ef; right.
    destruct (C04_faithful script H c' src s reg _ word _ _ _ Ep Ef) as (evs & Ee & Hf & Hl).
    exists c', src, s, (rev evs); split; [exact Es|]; split; [exact Ep|]; split; [|split; [exact Hf|]].
    + destruct tr1 as [[w0 evs']|]; [|discriminate]; cbn in Ee; injection Ee as ->; reflexivity.
    + intros out ->; apply Hl; unfold PropWasm.as_promise in Hp; destruct r0 as [o|e| | | |]; try discriminate; try contradiction.
      injection Hp as ->; reflexivity.
Qed.

(** *** What holds in every state *)
Definition open_ok (H : hangul_lib) (es : list js_moment) (asked : list (nat * bytes)) (dead : bool) (i : nat) (x : open_call) : Prop :=
  match x with
  | OQueued lang word trace => nth_error (made es) i = Some (lang, word, trace) /\ answers i es = [] /\ asked = []
  | OWaiting s reg sc rest f word tr trace =>
    dead = false ->
    exists lang before c order after c' src word0 l, es = before ++ VStart i c order :: after /\
      nth_error (made before) i = Some (lang, word0, trace) /\ (forall k, lookup reg k = registered before k) /\
      choices_ok c' /\ lookup bundled_files (specs_dir ++ lang ++ ext) = Some src /\ parse_spec c' src = Ok s /\
      asked = l ++ [(jf_id f, word)] /\ lookup reg sc = Some f /\ jf_call f word = true /\
      forall reg' more, scripts reg' (registered before) ->
        transliterate (l_translit (s_lang s)) reg' (answers i es ++ more, [])
          (trace_word (new_tracer (is_traced trace)) SInput word0 []) word0 =
        transliterate (sc :: rest) reg' (more, l) tr word
  | OSettled p events =>
    exists call before c order after, es = before ++ VStart i c order :: after /\
      nth_error (made before) i = Some call /\ finished H (registered before) call (answers i es) asked p events
  end.
Definition good (H : hangul_lib) (es : list js_moment) (st : program) : Prop :=
  cached_ok bundled_files (op_cache st) /\ reg_wf (op_reg st) /\
  (forall sc, lookup (op_reg st) sc = registered es sc) /\
  length (op_calls st) = length (made es) /\
  (forall i x, nth_error (op_calls st) i = Some x -> open_ok H es (asked_by i st) (op_dead st) i x) /\
  (forall i, (length (op_calls st) <= i)%nat -> answers i es = [] /\ asked_by i st = []).

(** A moment of other calls changes nothing for a call. *)
Lemma open_ok_snoc H es e asked dead dead' i x : answers i [e] = [] -> (dead' = false -> dead = false) ->
  open_ok H es asked dead i x -> open_ok H (es ++ [e]) asked dead' i x.
Proof.
  intros Ha Hd; assert (answers i (es ++ [e]) = answers i es) as Hs by (rewrite answers_app, Ha, app_nil_r; reflexivity).
  destruct x as [lang word trace|s reg sc rest f word tr trace|p events]; cbn [open_ok]; rewrite Hs.
  - intros (Hi & H1 & H2); split; [|split; assumption]; rewrite made_app, nth_error_app1; [exact Hi|]; apply nth_error_Some; congruence.
  - intros Hx Hdead; destruct (Hx (Hd Hdead)) as (lang & before & c & order & after & c' & src & word0 & l & -> & Hr).
    exists lang, before, c, order, (after ++ [e]), c', src, word0, l; split; [rewrite <- app_assoc; reflexivity|exact Hr].
  - intros (call & before & c & order & after & -> & Hr).
    exists call, before, c, order, (after ++ [e]); split; [rewrite <- app_assoc; reflexivity|exact Hr].
Qed.

(** What a goroutine does next, seen as a part of the whole call. *)
Lemma advance_ok H es i s reg trace lang before c order after c' src word0 todo word tr l m :
  es = before ++ VStart i c order :: after -> nth_error (made before) i = Some (lang, word0, trace) ->
  (forall k, lookup reg k = registered before k) -> choices_ok c' ->
  lookup bundled_files (specs_dir ++ lang ++ ext) = Some src -> parse_spec c' src = Ok s ->
  (forall reg' more, scripts reg' (registered before) ->
     transliterate (l_translit (s_lang s)) reg' (answers i es ++ more, [])
       (trace_word (new_tracer (is_traced trace)) SInput word0 []) word0 = transliterate todo reg' (more, l) tr word) ->
  advance H s reg todo word tr = m ->
  match m with
  | MSettles p tr' => open_ok H es l false i (OSettled p (events_of tr'))
  | MAsks sc rest f word' tr' => open_ok H es (l ++ [(jf_id f, word')]) false i (OWaiting s reg sc rest f word' tr' trace)
  | MDies => exists sc rest f, todo = sc :: rest /\ registered before sc = Some f /\ jf_call f word = false
  | MNever => False
  end.
Proof.
  intros Ees Hm Hreg Hc' Es Ep HT Em.
  assert (forall p tr' r, (forall reg', scripts reg' (registered before) ->
            run_hangulizer H s reg' (is_traced trace) (answers i es, []) word0 = (([], l), tr', r)) ->
          PropWasm.as_promise r p -> open_ok H es l false i (OSettled p (events_of tr'))) as Hset.
  { intros p tr' r Hr Hp; exists (lang, word0, trace), before, c, order, after; split; [exact Ees|]; split; [exact Hm|].
    eapply run_finished; try eassumption; exists (scripted_reg reg); apply scripted_reg_lookup; exact Hreg. }
  destruct (file_ok_parses src c' (bundled_file_ok _ _ Es) Hc') as (s0 & s2 & _ & Ep2 & _ & _ & Hn & Hw).
  assert (s2 = s) as -> by congruence.
  destruct todo as [|sc rest]; cbn [advance] in Em.
  - destruct (after_translit_total H s tr word Hn Hw) as (tr1 & out & Ea); rewrite Ea in Em; subst m.
    apply (Hset (Resolved out) tr1 (Ok (out, None))); [|reflexivity]; intros reg' Hs'; unfold run_hangulizer, forward.
    rewrite <- (app_nil_r (answers i es)), (HT reg' [] Hs'); cbn [transliterate]; rewrite Ea; reflexivity.
  - destruct (lookup reg sc) as [f|] eqn:El.
    + destruct (jf_call f word) eqn:Ec; subst m.
      * cbn [open_ok]; intros _; exists lang, before, c, order, after, c', src, word0, l.
        repeat (split; [eassumption || reflexivity|]); exact HT.
      * exists sc, rest, f; rewrite <- Hreg; auto.
    + subst m; apply (Hset _ tr (Ok ([], Some (ErrTranslitNotImported sc)))); [|reflexivity].
      intros reg' Hs'; unfold run_hangulizer, forward; rewrite <- (app_nil_r (answers i es)), (HT reg' [] Hs'); cbn [transliterate].
      rewrite Hs', <- Hreg, El; reflexivity.
Qed.

Lemma crashed_good H es e i st : (i < length (op_calls st))%nat ->
  (forall j, j <> i -> answers j [e] = []) -> made [e] = [] -> (forall k, registered (es ++ [e]) k = registered es k) ->
  (answers i [e] = [] \/ exists s reg sc rest f word tr trace, nth_error (op_calls st) i = Some (OWaiting s reg sc rest f word tr trace)) ->
  op_dead st = false -> good H es st -> good H (es ++ [e]) (crashed st).
Proof.
  intros Hi Ha Hm Hr Hx Hd (G1 & G2 & G3 & G4 & G5 & G6); split; [exact G1|]; split; [exact G2|].
  split; [intros sc; rewrite Hr; apply G3|]; split; [rewrite made_app, Hm, app_nil_r; exact G4|]; split.
  - intros j x Hj; cbn [crashed op_calls op_dead] in *; change (asked_by j (crashed st)) with (asked_by j st).
    destruct (Nat.eq_dec j i) as [->|Hji].
    + destruct Hx as [Hx|(s & reg & sc & rest & f & word & tr & trace & Hx)].
      * eapply open_ok_snoc; [exact Hx|discriminate|exact (G5 _ _ Hj)].
      * rewrite Hx in Hj; injection Hj as <-; cbn [open_ok]; discriminate.
    + eapply open_ok_snoc; [exact (Ha j Hji)|discriminate|exact (G5 _ _ Hj)].
  - intros j Hj; cbn [crashed op_calls] in Hj; change (asked_by j (crashed st)) with (asked_by j st).
    rewrite answers_app, (Ha j) by lia; rewrite app_nil_r; exact (G6 j Hj).
Qed.
Lemma with_open_good H es e i st x asked : (i < length (op_calls st))%nat ->
  (forall j, j <> i -> answers j [e] = []) -> made [e] = [] -> (forall k, registered (es ++ [e]) k = registered es k) ->
  Forall (fun a => fst a = i) asked ->
  open_ok H (es ++ [e]) (asked_by i st ++ map snd asked) false i x ->
  op_dead st = false -> good H es st -> good H (es ++ [e]) (with_open st i x asked).
Proof.
  intros Hi Ha Hm Hr Has Hx Hd (G1 & G2 & G3 & G4 & G5 & G6); split; [exact G1|]; split; [exact G2|].
  assert (forall j, asked_by j (with_open st i x asked) = asked_by j st ++ if Nat.eqb i j then map snd asked else []) as Hj.
  { intros j; unfold asked_by; cbn [with_open op_asked]; rewrite filter_app, map_app; f_equal; clear -Has.
    induction Has as [|a l <- Hl IH]; cbn [filter map]; [destruct (Nat.eqb _ _); reflexivity|].
    destruct (Nat.eqb (fst a) j); cbn [map]; rewrite IH; reflexivity. }
  split; [intros sc; rewrite Hr; apply G3|]; split; [cbn [with_open op_calls]; rewrite set_open_length, made_app, Hm, app_nil_r by exact Hi; exact G4|]; split.
  - intros j y; rewrite Hj; cbn [with_open op_calls op_dead]; rewrite set_open_nth by exact Hi; destruct (Nat.eqb i j) eqn:E.
    + apply Nat.eqb_eq in E; subst j; intros [= <-]; exact Hx.
    + intros Hy; rewrite app_nil_r; eapply open_ok_snoc; [apply Ha; apply Nat.eqb_neq in E; congruence|intros _; exact Hd|exact (G5 _ _ Hy)].
  - intros j; rewrite Hj; cbn [with_open op_calls]; rewrite set_open_length by exact Hi; intros Hl.
    destruct (Nat.eqb i j) eqn:E; [apply Nat.eqb_eq in E; lia|].
    rewrite answers_app, (Ha j) by lia; rewrite !app_nil_r; exact (G6 j Hl).
Qed.

Lemma proceed_good H es e i st s reg trace m st' : (i < length (op_calls st))%nat ->
  (forall j, j <> i -> answers j [e] = []) -> made [e] = [] -> (forall k, registered (es ++ [e]) k = registered es k) ->
  (answers i [e] = [] \/ exists s reg sc rest f word tr trace, nth_error (op_calls st) i = Some (OWaiting s reg sc rest f word tr trace)) ->
  (forall p tr, m = MSettles p tr -> open_ok H (es ++ [e]) (asked_by i st) false i (OSettled p (events_of tr))) ->
  (forall sc rest f word tr, m = MAsks sc rest f word tr ->
     open_ok H (es ++ [e]) (asked_by i st ++ [(jf_id f, word)]) false i (OWaiting s reg sc rest f word tr trace)) ->
  op_dead st = false -> good H es st -> proceed H st i s reg trace m = Some st' -> good H (es ++ [e]) st'.
Proof.
  intros Hi Ha Hm Hr Hx Hs Hk Hd Hg; unfold proceed; destruct m as [p tr|sc rest f word tr| |]; try discriminate.
  - destruct (objects _ _); intros [= <-]; [apply (crashed_good H es e i); assumption|].
    apply with_open_good; try assumption; [constructor|]; cbn [map]; rewrite app_nil_r; apply Hs; reflexivity.
  - destruct (objects _ _); intros [= <-]; [apply (crashed_good H es e i); assumption|].
    apply with_open_good; try assumption; [repeat constructor|]; apply Hk; reflexivity.
  - intros [= <-]; apply (crashed_good H es e i); assumption.
Qed.

Lemma trace_arg_with more throws : trace_arg more throws = traces_with more throws.
Proof. destruct more as [|[]]; reflexivity. Qed.

(** A moment that is not about a call: it leaves the calls as they are. *)
Lemma other_good H es e st st' : (forall j, answers j [e] = []) -> made [e] = [] ->
  cached_ok bundled_files (op_cache st') -> reg_wf (op_reg st') -> (forall sc, lookup (op_reg st') sc = registered (es ++ [e]) sc) ->
  op_calls st' = op_calls st -> op_asked st' = op_asked st -> (op_dead st' = false -> op_dead st = false) ->
  good H es st -> good H (es ++ [e]) st'.
Proof.
  intros Ha Hm H1 H2 H3 H4 H5 H6 (G1 & G2 & G3 & G4 & G5 & G6); split; [exact H1|]; split; [exact H2|]; split; [exact H3|].
  split; [rewrite H4, made_app, Hm, app_nil_r; exact G4|]; unfold asked_by; rewrite H4, H5; split.
  - intros i x Hx; eapply open_ok_snoc; [apply Ha|exact H6|exact (G5 i x Hx)].
  - intros i Hi; rewrite answers_app, Ha, app_nil_r; exact (G6 i Hi).
Qed.

Lemma transliterate_cons {W} sc rest (reg : list (bytes * translit W)) w tr word t :
  lookup reg sc = Some t ->
  transliterate (sc :: rest) reg w tr word =
  let '(w1, r) := tl_run t w word in
  match r with
  | Ok word1 => transliterate rest reg w1 (trace_word tr STransliterate word1 (tl_scheme t)) word1
  | Err _ => (w1, tr, Err (ErrTranslit sc))
  | r => (w1, tr, r)
  end.
Proof. intros E; cbn [transliterate]; rewrite E; destruct (tl_run t w word) as [w1 []]; reflexivity. Qed.

Lemma good_run H specs es st : cached_ok bundled_files specs -> Forall fair es ->
  program_run H bundled_files (program_start specs) es = Some st -> good H es st.
Proof.
  intros Hs; revert st; induction es as [|e es IH] using rev_ind; intros st Hf Hr.
  - injection Hr as <-; split; [exact Hs|]; split; [split; constructor|]; split; [reflexivity|]; split; [reflexivity|]; split.
    + intros [|i] x E; discriminate.
    + intros i _; split; reflexivity.
  - apply Forall_app in Hf; destruct Hf as [Hf He]; apply Forall_inv in He.
    destruct (program_run_snoc _ _ _ _ _ _ Hr) as (st1 & E1 & E2); clear Hr.
    pose proof (IH st1 Hf E1) as G; clear IH; unfold program_step in E2; destruct (op_dead st1) eqn:Hd; [discriminate|].
    pose proof G as (G1 & G2 & G3 & G4 & G5 & G6).
    destruct e as [[|a0 [|a1 more]] id call|[|a0 more]|[|a0 [|a1 more]] throws|i c order|i a];
      try (injection E2 as <-; eapply other_good; try exact G; try assumption; try reflexivity;
           [intros sc; rewrite registered_app; apply G3|cbn [crashed op_dead]; discriminate]; fail).
    + injection E2 as <-; eapply other_good; try exact G; try assumption; try reflexivity; [apply reg_wf_add; exact G2| |intros _; exact Hd].
      intros sc; cbn [op_reg]; rewrite registered_app; cbn [fold_left]; unfold reg_add; cbn [jf_scheme use_fn]; rewrite <- G3.
      destruct (lookup (op_reg st1) (js_string a0)) eqn:El; cbn [fst lookup]; [apply G3|]; destruct (beqb (js_string a0) sc); [reflexivity|apply G3].
    + injection E2 as <-; eapply other_good; try exact G; try assumption; try reflexivity; [apply reg_wf_remove; exact G2| |intros _; exact Hd].
      intros sc; cbn [op_reg]; rewrite registered_app; cbn [fold_left]; rewrite reg_remove_lookup; unfold update.
      destruct (beqb (js_string a0) sc); auto.
    + injection E2 as <-; split; [exact G1|]; split; [exact G2|]; split; [intros sc; rewrite registered_app; apply G3|]; cbn [op_calls op_dead]; split; [|split].
      * rewrite made_app, !app_length; cbn [made length]; rewrite G4; reflexivity.
      * intros j y Hy; destruct (Nat.lt_ge_cases j (length (op_calls st1))) as [Hj|Hj].
        { rewrite nth_error_app1 in Hy by exact Hj; eapply open_ok_snoc; [reflexivity|intros _; exact Hd|exact (G5 _ _ Hy)]. }
        rewrite nth_error_app2 in Hy by exact Hj; destruct (j - length (op_calls st1))%nat as [|d] eqn:Ed; [|destruct d; discriminate].
        injection Hy as <-; cbn [open_ok]; rewrite made_app, nth_error_app2 by lia.
        replace (j - length (made es))%nat with O by lia; cbn [made nth_error]; split; [rewrite <- trace_arg_with; reflexivity|].
        rewrite answers_app; cbn [answers flat_map]; rewrite app_nil_r; exact (G6 j Hj).
      * intros j; rewrite app_length; cbn [length]; intros Hj; rewrite answers_app; cbn [answers flat_map]; rewrite app_nil_r.
        apply (G6 j); lia.
    + destruct He as [Hc Ho]; destruct (nth_error (op_calls st1) i) as [[lang word trace| |]|] eqn:Ei; try discriminate.
      assert (i < length (op_calls st1))%nat as Hi by (apply nth_error_Some; congruence).
      destruct (G5 _ _ Ei) as (Hm & Han & Has).
      assert (answers i (es ++ [VStart i c order]) = []) as Han' by (rewrite answers_app, Han; reflexivity).
      destruct (PropWasm.load_bundled c (op_cache st1) lang Hc G1) as (specs' & Hok' & [(En & El)|(c' & src & s & El & Hc' & Es & Ep)]);
        rewrite El in E2.
      * injection E2 as <-.
        match goal with |- good _ _ (with_open ?s1 _ _ _) => assert (good H es s1) as Gs by (split; [exact Hok'|]; pose proof (proj2 G) as G'; rewrite Hd in G'; exact G') end.
        apply with_open_good; try assumption; try reflexivity; [intros k; rewrite registered_app; reflexivity|constructor|].
        cbn [map]; rewrite app_nil_r; change (asked_by i _) with (asked_by i st1); rewrite Has.
        exists (lang, word, trace), es, c, order, []; split; [reflexivity|]; split; [exact Hm|]; rewrite Han'.
        split; [|split; [reflexivity|intros throws _; left; split; reflexivity]].
        intros reg c0 _ _; unfold hangulize, load_spec; cbn [lookup]; rewrite En; do 2 eexists; split; reflexivity.
      * match type of E2 with proceed _ ?s1 _ _ _ _ _ = _ => assert (good H es s1) as Gs by (split; [exact Hok'|]; pose proof (proj2 G) as G'; rewrite Hd in G'; exact G') end.
        match type of E2 with proceed _ _ _ _ ?r _ ?a = _ => set (reg := r) in *; set (m := a) in * end.
        assert (forall k, lookup reg k = registered es k) as Hreg.
        { intros k; unfold reg; rewrite (copied_holds (op_reg st1)); [apply G3|exact G2|apply Ho]. }
        pose proof (advance_ok H (es ++ [VStart i c order]) i s reg trace lang es c order [] c' src word (l_translit (s_lang s)) word
                      (trace_word (new_tracer (is_traced trace)) SInput word []) [] m eq_refl Hm Hreg Hc' Es Ep) as Hadv.
        rewrite Han' in Hadv; specialize (Hadv (fun _ _ _ => eq_refl) eq_refl).
        eapply proceed_good; try exact E2; try exact Gs; try reflexivity; try assumption.
        { intros k; rewrite registered_app; reflexivity. }
        { left; reflexivity. }
        { intros p tr Em; assert (m = MSettles p tr) as Em' by exact Em; rewrite Em' in Hadv; change (asked_by i _) with (asked_by i st1); rewrite Has; exact Hadv. }
        { intros sc rest f w tr Em; assert (m = MAsks sc rest f w tr) as Em' by exact Em; rewrite Em' in Hadv; change (asked_by i _) with (asked_by i st1); rewrite Has; exact Hadv. }
    + destruct (nth_error (op_calls st1) i) as [[|s reg sc rest f word tr trace|]|] eqn:Ei; try discriminate.
      assert (i < length (op_calls st1))%nat as Hi by (apply nth_error_Some; congruence).
      destruct (G5 _ _ Ei Hd) as (lang & before & c & order & after & c' & src & word0 & l & Ees & Hm & Hreg & Hc' & Es & Ep & Has & Hl & Hcall & HT).
      assert (answers i (es ++ [VAnswer i a]) = answers i es ++ [a]) as Han.
      { rewrite answers_app; cbn [answers flat_map]; rewrite Nat.eqb_refl, app_nil_r; reflexivity. }
      assert (forall j, j <> i -> answers j [VAnswer i a] = []) as Hother.
      { intros j Hj; cbn [answers flat_map]; destruct (Nat.eqb i j) eqn:E; [apply Nat.eqb_eq in E; congruence|reflexivity]. }
      assert (es ++ [VAnswer i a] = before ++ VStart i c order :: (after ++ [VAnswer i a])) as Ees'
        by (rewrite Ees, <- app_assoc; reflexivity).
      assert (forall k, registered (es ++ [VAnswer i a]) k = registered es k) as Hrg by (intros k; rewrite registered_app; reflexivity).
      assert (answers i [VAnswer i a] = [] \/ exists s reg sc rest f word tr trace, nth_error (op_calls st1) i = Some (OWaiting s reg sc rest f word tr trace)) as Hw
        by (right; do 8 eexists; exact Ei).
      destruct a as [v|v].
      * eapply proceed_good; try exact E2; try exact G; try reflexivity; try assumption.
        { intros p tr' Em.
          refine (advance_ok H _ i s reg trace lang before c order _ c' src word0 rest (js_string v) _ (asked_by i st1) _ Ees' Hm Hreg Hc' Es Ep _ Em).
          intros reg' more Hs'; rewrite Han, <- app_assoc, (HT reg' ([Fulfilled v] ++ more) Hs').
          rewrite (transliterate_cons sc rest reg' _ tr word (scripted f)) by (rewrite Hs', <- Hreg, Hl; reflexivity).
          cbn [scripted tl_run fst snd app tl_scheme]; rewrite Hcall, Has; reflexivity. }
        { intros sc' rest' f' w tr' Em.
          refine (advance_ok H _ i s reg trace lang before c order _ c' src word0 rest (js_string v) _ (asked_by i st1) _ Ees' Hm Hreg Hc' Es Ep _ Em).
          intros reg' more Hs'; rewrite Han, <- app_assoc, (HT reg' ([Fulfilled v] ++ more) Hs').
          rewrite (transliterate_cons sc rest reg' _ tr word (scripted f)) by (rewrite Hs', <- Hreg, Hl; reflexivity).
          cbn [scripted tl_run fst snd app tl_scheme]; rewrite Hcall, Has; reflexivity. }
      * destruct (js_message v) as [msg| | | | |] eqn:Ev; try (injection E2 as <-; apply (crashed_good H es _ i); try assumption; reflexivity).
        eapply proceed_good; try exact E2; try exact G; try reflexivity; try assumption; [|discriminate].
        intros p tr' [= <- <-].
        exists (lang, word0, trace), before, c, order, (after ++ [VAnswer i (Refused v)]); split; [exact Ees'|]; split; [exact Hm|].
        refine (run_finished H s word0 trace lang _ c' src _ _ tr (Ok ([], Some (ErrTranslit sc))) Hc' Es Ep _ _ _ eq_refl);
          [|exists (scripted_reg reg); apply scripted_reg_lookup; exact Hreg].
        intros reg' Hs'; unfold run_hangulizer, forward; rewrite Han, (HT reg' [Refused v] Hs').
        rewrite (transliterate_cons sc rest reg' _ tr word (scripted f)) by (rewrite Hs', <- Hreg, Hl; reflexivity).
        cbn [scripted tl_run fst snd app]; rewrite Hcall, Has, Ev; reflexivity.
Qed.

(** Whatever happens meanwhile, in whatever order: a call is settled with what the package
    function Hangulize returns for its language and word, with the functions that were
    registered when its goroutine started, if they give the answers this call got. *)
Theorem C88_calls : forall H specs es st i p events,
  cached_ok bundled_files specs -> Forall fair es ->
  program_run H bundled_files (program_start specs) es = Some st ->
  nth_error (op_calls st) i = Some (OSettled p events) ->
  exists call before c order after, es = before ++ VStart i c order :: after /\
    nth_error (made es) i = Some call /\ finished H (registered before) call (answers i es) (asked_by i st) p events.
Proof.
  intros H specs es st i p events Hs Hf Hr Hi; destruct (good_run H specs es st Hs Hf Hr) as (_ & _ & _ & _ & G & _).
  destruct (G _ _ Hi) as (call & before & c & order & after & -> & Hm & Ha).
  exists call, before, c, order, after; split; [reflexivity|]; split; [|exact Ha].
  rewrite made_app, nth_error_app1; [exact Hm|]; apply nth_error_Some; congruence.
Qed.
Print Assumptions C88_calls.

(** ** C89 The arguments of calls from JavaScript

    The page keeps to the types: no argument is missing, a trace function is a function that does
    not throw, a transliterator is a function that returns promises and rejects with objects. *)
Definition obeys (e : js_moment) : Prop :=
  match e with
  | VUse (_ :: JFunction _ :: _) _ call => forall word, call word = true
  | VUse _ _ _ => False
  | VUnuse args => args <> []
  | VCall (_ :: _ :: more) throws =>
    match more with
    | [] | JUndefined :: _ => True
    | JFunction _ :: _ => forall l, throws l = false
    | _ => False
    end
  | VCall _ _ => False
  | VStart _ _ _ => True
  | VAnswer _ (Fulfilled _) => True
  | VAnswer _ (Refused v) => exists m, v = JObject m
  end.

Lemma obeys_called es sc f word : Forall obeys es -> registered es sc = Some f -> jf_call f word = true.
Proof.
  intros Ho; revert f; induction es as [|e es IH] using rev_ind; intros f; [discriminate|].
  apply Forall_app in Ho; destruct Ho as [Ho He]; apply Forall_inv in He; specialize (IH Ho); rewrite registered_app; cbn [fold_left].
  destruct e as [[|a0 [|a1 more]] id call|[|a0 more]| | |]; try apply IH.
  - destruct (registered es (js_string a0)); [apply IH|]; destruct (beqb (js_string a0) sc); [|apply IH].
    intros [= <-]; cbn [jf_call]; destruct a1; try contradiction; apply He.
  - destruct (beqb (js_string a0) sc); [discriminate|apply IH].
Qed.
Lemma obeys_traces es i lang word trace events : Forall obeys es -> nth_error (made es) i = Some (lang, word, trace) ->
  objects trace events = false.
Proof.
  intros Ho; revert i; induction es as [|e es IH]; intros i; [destruct i; discriminate|].
  pose proof (Forall_inv Ho) as He; specialize (IH (Forall_inv_tail Ho)).
  destruct e as [| |[|a0 [|a1 more]] throws| |]; cbn [made]; try apply IH; destruct i as [|i]; cbn [nth_error]; [|apply IH].
  intros [= _ _ <-]; destruct more as [|[]]; cbn [traces_with objects]; try reflexivity; try contradiction; cbn in He.
  induction (seq 1 (length events)) as [|k ks IHk]; cbn [existsb]; [reflexivity|]; rewrite He; exact IHk.
Qed.
Lemma nth_made_app es es' i call : nth_error (made es) i = Some call -> nth_error (made (es ++ es')) i = Some call.
Proof. intros Hi; rewrite made_app, nth_error_app1; [exact Hi|]; apply nth_error_Some; congruence. Qed.

(** Then a goroutine settles its call or asks another transliterator. *)
Lemma advance_moves H s reg before c' src todo word tr :
  (forall k, lookup reg k = registered before k) -> Forall obeys before -> choices_ok c' ->
  (exists lang, lookup bundled_files (specs_dir ++ lang ++ ext) = Some src) -> parse_spec c' src = Ok s ->
  (exists p tr', advance H s reg todo word tr = MSettles p tr') \/
  (exists sc rest f, todo = sc :: rest /\ advance H s reg todo word tr = MAsks sc rest f word tr).
Proof.
  intros Hreg Ho Hc' [lang Es] Ep.
  destruct (file_ok_parses src c' (bundled_file_ok _ _ Es) Hc') as (s0 & s2 & _ & Ep2 & _ & _ & Hn & Hw).
  assert (s2 = s) as -> by congruence.
  destruct todo as [|sc rest]; cbn [advance].
  - destruct (after_translit_total H s tr word Hn Hw) as (tr1 & out & ->); left; do 2 eexists; reflexivity.
  - destruct (lookup reg sc) as [f|] eqn:El; [|left; do 2 eexists; reflexivity].
    rewrite Hreg in El; rewrite (obeys_called before sc f word Ho El); right; do 3 eexists; split; reflexivity.
Qed.

(** What such a moment does to the call it is about. *)
Lemma start_moves H es st i lang word trace c order : Forall obeys es -> good H es st -> op_dead st = false ->
  nth_error (op_calls st) i = Some (OQueued lang word trace) -> choices_ok c -> (forall l, Permutation l (order l)) ->
  exists st', program_step H bundled_files st (VStart i c order) = Some st' /\ op_dead st' = false /\
    ((exists p events, nth_error (op_calls st') i = Some (OSettled p events)) \/
     (exists s reg sc rest f word' tr, nth_error (op_calls st') i = Some (OWaiting s reg sc rest f word' tr trace))).
Proof.
  intros Ho (G1 & G2 & G3 & G4 & G5 & G6) Hd Ei Hc Hor; unfold program_step; rewrite Hd, Ei.
  assert (i < length (op_calls st))%nat as Hi by (apply nth_error_Some; congruence).
  destruct (G5 _ _ Ei) as (Hm & _ & _).
  destruct (PropWasm.load_bundled c (op_cache st) lang Hc G1) as (specs' & Hok' & [(En & El)|(c' & src & s & El & Hc' & Es & Ep)]);
    rewrite El.
  - eexists; split; [reflexivity|]; split; [reflexivity|]; left; do 2 eexists; cbn [with_open op_calls].
    rewrite set_open_nth, Nat.eqb_refl by exact Hi; reflexivity.
  - destruct (advance_moves H s (copied (order (op_reg st))) es c' src (l_translit (s_lang s)) word
                (trace_word (new_tracer match trace with Some _ => true | None => false end) SInput word []))
      as [(p & tr' & E)|(sc & rest & f & _ & E)]; try assumption.
    + intros k; rewrite (copied_holds (op_reg st)); [apply G3|exact G2|apply Hor].
    + exists lang; exact Es.
    + rewrite E; cbn [proceed]; rewrite (obeys_traces es i lang word trace _ Ho Hm); eexists; split; [reflexivity|]; split; [reflexivity|].
      left; do 2 eexists; cbn [with_open op_calls]; rewrite set_open_nth, Nat.eqb_refl by exact Hi; reflexivity.
    + rewrite E; cbn [proceed]; rewrite (obeys_traces es i lang word trace _ Ho Hm); eexists; split; [reflexivity|]; split; [reflexivity|].
      right; do 7 eexists; cbn [with_open op_calls]; rewrite set_open_nth, Nat.eqb_refl by exact Hi; reflexivity.
Qed.
Lemma answer_moves H es st i a s reg sc rest f word tr trace : Forall obeys es -> obeys (VAnswer i a) -> good H es st -> op_dead st = false ->
  nth_error (op_calls st) i = Some (OWaiting s reg sc rest f word tr trace) ->
  exists st', program_step H bundled_files st (VAnswer i a) = Some st' /\ op_dead st' = false /\
    ((exists p events, nth_error (op_calls st') i = Some (OSettled p events)) \/
     (exists sc' rest' f' word' tr', rest = sc' :: rest' /\
        nth_error (op_calls st') i = Some (OWaiting s reg sc' rest' f' word' tr' trace))).
Proof.
  intros Ho Ha (G1 & G2 & G3 & G4 & G5 & G6) Hd Ei; unfold program_step; rewrite Hd, Ei.
  assert (i < length (op_calls st))%nat as Hi by (apply nth_error_Some; congruence).
  destruct (G5 _ _ Ei Hd) as (lang & before & c & order & after & c' & src & word0 & l & Ees & Hm & Hreg & Hc' & Es & Ep & _).
  assert (Forall obeys before) as Hob by (rewrite Ees in Ho; apply Forall_app in Ho; apply Ho).
  destruct a as [v|v].
  - destruct (advance_moves H s reg before c' src rest (js_string v) (trace_word tr STransliterate (js_string v) (jf_scheme f)) Hreg Hob Hc')
      as [(p & tr' & E)|(sc' & rest' & f' & Er & E)]; try assumption.
    + exists lang; exact Es.
    + rewrite E; cbn [proceed]; rewrite (obeys_traces before i lang word0 trace _ Hob Hm); eexists; split; [reflexivity|]; split; [reflexivity|].
      left; do 2 eexists; cbn [with_open op_calls]; rewrite set_open_nth, Nat.eqb_refl by exact Hi; reflexivity.
    + rewrite E; cbn [proceed]; rewrite (obeys_traces before i lang word0 trace _ Hob Hm); eexists; split; [reflexivity|]; split; [reflexivity|].
      right; do 5 eexists; split; [exact Er|]; cbn [with_open op_calls]; rewrite set_open_nth, Nat.eqb_refl by exact Hi; reflexivity.
  - destruct Ha as [m ->]; cbn [js_message proceed]; rewrite (obeys_traces before i lang word0 trace _ Hob Hm); eexists; split; [reflexivity|]; split; [reflexivity|].
    left; do 2 eexists; cbn [with_open op_calls]; rewrite set_open_nth, Nat.eqb_refl by exact Hi; reflexivity.
Qed.

(** The program stays alive as long as the page keeps to the types. *)
Theorem C89_alive : forall H specs es st, cached_ok bundled_files specs -> Forall fair es -> Forall obeys es ->
  program_run H bundled_files (program_start specs) es = Some st -> op_dead st = false.
Proof.
  intros H specs es st Hs; revert st; induction es as [|e es IH] using rev_ind; intros st Hf Ho Hr; [injection Hr as <-; reflexivity|].
  apply Forall_app in Hf; destruct Hf as [Hf He]; apply Forall_inv in He; apply Forall_app in Ho; destruct Ho as [Ho Hoe]; apply Forall_inv in Hoe.
  destruct (program_run_snoc _ _ _ _ _ _ Hr) as (st1 & E1 & E2).
  pose proof (good_run H specs es st1 Hs Hf E1) as G; specialize (IH st1 Hf Ho E1).
  destruct e as [args id call|args|args throws|i c order|i a].
  - unfold program_step in E2; rewrite IH in E2; destruct args as [|a0 [|[] more]]; try contradiction; injection E2 as <-; reflexivity.
  - unfold program_step in E2; rewrite IH in E2; destruct args as [|a0 more]; [exfalso; apply Hoe; reflexivity|]; injection E2 as <-; reflexivity.
  - unfold program_step in E2; rewrite IH in E2; destruct args as [|a0 [|a1 more]]; try contradiction; injection E2 as <-; reflexivity.
  - destruct He as [Hc Hor]; destruct (nth_error (op_calls st1) i) as [[lang word trace| |]|] eqn:Ei.
    + destruct (start_moves H es st1 i lang word trace c order Ho G IH Ei Hc Hor) as (st' & E & Hd & _); congruence.
    + unfold program_step in E2; rewrite IH, Ei in E2; discriminate.
    + unfold program_step in E2; rewrite IH, Ei in E2; discriminate.
    + unfold program_step in E2; rewrite IH, Ei in E2; discriminate.
  - destruct (nth_error (op_calls st1) i) as [[|s reg sc rest f word tr trace|]|] eqn:Ei.
    + unfold program_step in E2; rewrite IH, Ei in E2; discriminate.
    + destruct (answer_moves H es st1 i a s reg sc rest f word tr trace Ho Hoe G IH Ei) as (st' & E & Hd & _); congruence.
    + unfold program_step in E2; rewrite IH, Ei in E2; discriminate.
    + unfold program_step in E2; rewrite IH, Ei in E2; discriminate.
Qed.
Print Assumptions C89_alive.

Lemma program_run_app H fs st a b : program_run H fs st (a ++ b) =
  match program_run H fs st a with Some st1 => program_run H fs st1 b | None => None end.
Proof. revert st; induction a as [|e a IH]; intros st; cbn [app program_run]; [reflexivity|]; destruct (program_step H fs st e); auto. Qed.

Lemma waits_settle H specs i ans : cached_ok bundled_files specs -> (forall k : nat, obeys (VAnswer i (ans k))) ->
  forall n es st s reg sc rest f word tr trace b, (length rest <= n)%nat -> Forall fair es -> Forall obeys es ->
  program_run H bundled_files (program_start specs) es = Some st ->
  nth_error (op_calls st) i = Some (OWaiting s reg sc rest f word tr trace) ->
  exists k st' p events, (k <= S (length rest))%nat /\
    program_run H bundled_files st (map (fun j => VAnswer i (ans j)) (seq b k)) = Some st' /\
    nth_error (op_calls st') i = Some (OSettled p events).
Proof.
  intros Hs Ha n; induction n as [|n IH]; intros es st s reg sc rest f word tr trace b Hn Hf Ho Hr Ei;
    pose proof (good_run H specs es st Hs Hf Hr) as G; pose proof (C89_alive H specs es st Hs Hf Ho Hr) as Hd;
    destruct (answer_moves H es st i (ans b) s reg sc rest f word tr trace Ho (Ha b) G Hd Ei)
      as (st1 & E & Hd1 & [(p & events & Es)|(sc' & rest' & f' & word' & tr' & Er & Es)]).
  - exists 1%nat, st1, p, events; split; [lia|]; split; [|exact Es]; cbn [seq map program_run]; rewrite E; reflexivity.
  - subst rest; cbn [length] in Hn; lia.
  - exists 1%nat, st1, p, events; split; [lia|]; split; [|exact Es]; cbn [seq map program_run]; rewrite E; reflexivity.
  - subst rest; cbn [length] in *.
    destruct (IH (es ++ [VAnswer i (ans b)]) st1 s reg sc' rest' f' word' tr' trace (S b)) as (k & st' & p & events & Hk & E' & Es'); try assumption; try lia.
    + apply Forall_app; split; [exact Hf|repeat constructor].
    + apply Forall_app; split; [exact Ho|constructor; [apply Ha|constructor]].
    + rewrite program_run_app, Hr; cbn [program_run]; rewrite E; reflexivity.
    + exists (S k), st', p, events; split; [lia|]; split; [|exact Es']; cbn [seq map program_run]; rewrite E; exact E'.
Qed.

(** Every call is settled once its goroutine runs and its transliterators answer, whatever the
    answers are and even if nothing else ever happens. *)
Theorem C88_settles : forall H specs es st i call (ans : nat -> answer),
  cached_ok bundled_files specs -> Forall fair es -> Forall obeys es -> (forall k, obeys (VAnswer i (ans k))) ->
  program_run H bundled_files (program_start specs) es = Some st -> nth_error (made es) i = Some call ->
  exists starts n st' p events, (starts = [] \/ starts = [VStart i choices0 (fun l => l)]) /\
    program_run H bundled_files st (starts ++ map (fun k => VAnswer i (ans k)) (seq 0 n)) = Some st' /\
    nth_error (op_calls st') i = Some (OSettled p events).
Proof.
  intros H specs es st i call ans Hs Hf Ho Ha Hr Hi.
  pose proof (good_run H specs es st Hs Hf Hr) as G; pose proof (C89_alive H specs es st Hs Hf Ho Hr) as Hd.
  pose proof G as (_ & _ & _ & G4 & _).
  assert (i < length (op_calls st))%nat as Hl by (rewrite G4; apply nth_error_Some; congruence).
  assert (choices_ok choices0) as Hc0 by (split; intros; apply Permutation_refl).
  destruct (nth_error (op_calls st) i) as [[lang word trace|s reg sc rest f word tr trace|p events]|] eqn:Ei; [| | |apply nth_error_None in Ei; lia].
  - destruct (start_moves H es st i lang word trace choices0 (fun l => l) Ho G Hd Ei Hc0 (fun l => Permutation_refl l))
      as (st1 & E & _ & [(p & events & Es)|(s & reg & sc & rest & f & word' & tr & Es)]).
    + exists [VStart i choices0 (fun l => l)], 0%nat, st1, p, events; split; [right; reflexivity|]; split; [|exact Es].
      cbn [seq map app program_run]; rewrite E; reflexivity.
    + destruct (waits_settle H specs i ans Hs Ha (length rest) (es ++ [VStart i choices0 (fun l => l)]) st1 s reg sc rest f word' tr trace 0%nat)
        as (k & st' & p & events & _ & E' & Es'); try assumption; try lia.
      * apply Forall_app; split; [exact Hf|constructor; [split; [exact Hc0|intros; apply Permutation_refl]|constructor]].
      * apply Forall_app; split; [exact Ho|repeat constructor].
      * rewrite program_run_app, Hr; cbn [program_run]; rewrite E; reflexivity.
      * exists [VStart i choices0 (fun l => l)], k, st', p, events; split; [right; reflexivity|]; split; [|exact Es'].
        cbn [app program_run]; rewrite E; exact E'.
  - destruct (waits_settle H specs i ans Hs Ha (length rest) es st s reg sc rest f word tr trace 0%nat)
      as (k & st' & p & events & _ & E' & Es'); try assumption; try lia.
    exists [], k, st', p, events; split; [left; reflexivity|]; split; [exact E'|exact Es'].
  - exists [], 0%nat, st, p, events; split; [left; reflexivity|]; split; [reflexivity|exact Ei].
Qed.
Print Assumptions C88_settles.

(** Two calls wait at the same time. The one that asked last is answered first, after its
    function was taken away; a third is made then. *)
Definition ex_start (i : nat) : js_moment := VStart i choices0 (fun l => l).
Definition ex_moments : list js_moment :=
  [VUse [JString (lit "furigana"); JFunction JUndefined] 7 (fun _ => true);
   VCall [JString (lit "jpn"); JString (lit "!")] (fun _ => true);
   VCall [JString (lit "jpn"); JString (lit "?"); JFunction JUndefined] (fun _ => false);
   ex_start 0; ex_start 1; VUnuse [JString (lit "furigana")];
   VAnswer 1 (Fulfilled (JString (lit "!!")));
   VCall [JString (lit "jpn"); JString (lit "."); JUndefined] (fun _ => true); ex_start 2;
   VAnswer 0 (Refused (JObject (JString (lit "no"))))].
Example C88_example : Forall fair ex_moments /\ Forall obeys ex_moments /\
  option_map (fun st => (map (fun x => match x with OSettled p events => Some (p, map jtr_word events) | _ => None end) (op_calls st),
                         op_asked st, op_dead st))
    (program_run go_hangul bundled_files (program_start []) ex_moments) =
  Some ([Some (Rejected (ErrTranslit (lit "furigana")), []);
         Some (Resolved (lit "!!"), [lit "?"; lit "!!"]);
         Some (Rejected (ErrTranslitNotImported (lit "furigana")), [])],
        [(0%nat, (7%nat, lit "!")); (1%nat, (7%nat, lit "?"))], false).
Proof.
  split; [|split].
  - unfold ex_moments, ex_start; repeat first [constructor 1 | constructor 2; [first [exact I | split; [split; intros; apply Permutation_refl | intros; apply Permutation_refl]]|]].
  - unfold ex_moments, ex_start; repeat (constructor; [cbn; try exact I; try discriminate; try (intros; reflexivity); try (eexists; reflexivity)|]); constructor.
  - vm_compute. reflexivity.
Qed.

(** *** Arguments of other types

    A missing argument ends the program at once. *)
Theorem C89_missing : forall H st args throws id call, op_dead st = false -> (length args < 2)%nat ->
  program_step H bundled_files st (VCall args throws) = Some (crashed st) /\
  program_step H bundled_files st (VUse args id call) = Some (crashed st) /\
  (args = [] -> program_step H bundled_files st (VUnuse args) = Some (crashed st)).
Proof.
  intros H st args throws id call Hd Hl; unfold program_step; rewrite Hd.
  destruct args as [|a0 [|a1 args]]; cbn [length] in Hl; [| |lia]; repeat split; try reflexivity; discriminate.
Qed.
Print Assumptions C89_missing.

Definition spoken (tr : tracer) : Prop := events_of tr <> [].
Lemma emit_spoken tr t : spoken tr -> spoken (emit tr t).
Proof.
  destruct tr as [[prev evs]|]; [|auto]; cbn [emit]; destruct (beqb prev (t_word t)); [auto|].
  intros _; unfold spoken; cbn [events_of rev]; rewrite map_app; intros E; destruct (app_eq_nil _ _ E) as [_ E']; discriminate.
Qed.
Lemma commit_spoken step recs : forall sws tr tr', spoken tr -> commit_records tr step sws recs = Ok tr' -> spoken tr'.
Proof.
  induction recs as [|[r|] recs IH]; intros sws tr tr' Hs; cbn [commit_records]; [intros E; injection E as <-; exact Hs| |discriminate].
  apply IH; destruct (existsb is_some (st_subwords r)); [apply emit_spoken|]; exact Hs.
Qed.
Lemma trace_commit_spoken tr step sws recs tr' : spoken tr -> trace_commit tr step sws recs = Ok tr' -> spoken tr'.
Proof. destruct tr as [x|]; intros Hs; cbn [trace_commit]; [apply commit_spoken; exact Hs|intros E; injection E as <-; exact Hs]. Qed.
Lemma after_translit_spoken H s tr word tr' out : spoken tr -> after_translit H s tr word = Ok (tr', out) -> spoken tr'.
Proof.
  intros Hs; unfold after_translit, normalize; destruct (partition _ _) as [sws0| | | | |]; try discriminate; cbn [bind]; unfold rewrite, transcribe.
  match goal with |- context [trace_commit ?t SRewrite] => assert (spoken t) as H1 end.
  { repeat apply emit_spoken; exact Hs. }
  destruct (rewrite_loop _ _ _ _ _ _ _) as [[buf recs]| | | | |]; try discriminate; cbn [bind].
  destruct (trace_commit _ SRewrite _ _) as [tr2| | | | |] eqn:E2; try discriminate; cbn [bind].
  pose proof (trace_commit_spoken _ _ _ _ _ H1 E2) as H2.
  destruct (transcribe_loop _ _ _ _ _ _ _) as [[buf2 recs2]| | | | |]; try discriminate; cbn [bind].
  destruct (trace_commit _ STranscribe _ _) as [tr3| | | | |] eqn:E3; try discriminate; cbn [bind].
  pose proof (trace_commit_spoken _ _ _ _ _ H2 E3) as H3.
  cbn [syllabify localize]; intros [= <- _]; repeat apply emit_spoken; exact H3.
Qed.

(** A trace function that is no function, such as null, ends the program as soon as the first
    trace is due: for every language there is and every word but the empty one. The calls
    that wait are lost. *)
Theorem C89_null : forall H specs es st lang word v throws src,
  cached_ok bundled_files specs -> Forall fair es -> program_run H bundled_files (program_start specs) es = Some st -> op_dead st = false ->
  lookup bundled_files (specs_dir ++ lang ++ ext) = Some src -> word <> [] -> v <> JUndefined -> (forall m, v <> JFunction m) ->
  exists st', program_run H bundled_files st [VCall [JString lang; JString word; v] throws; VStart (length (made es)) choices0 (fun l => l)] = Some st' /\
    op_dead st' = true /\ op_calls st' = op_calls st ++ [OQueued lang word (Some (fun _ => true))] /\
    forall e, program_step H bundled_files st' e = None.
Proof.
  intros H specs es st lang word v throws src Hs Hf Hr Hd Es Hw Hv1 Hv2.
  pose proof (good_run H specs es st Hs Hf Hr) as (G1 & _ & _ & G4 & _).
  assert (choices_ok choices0) as Hc0 by (split; intros; apply Permutation_refl).
  assert (trace_arg [v] throws = Some (fun _ => true)) as Ev.
  { destruct v; try reflexivity; [congruence|]; exfalso; eapply Hv2; reflexivity. }
  cbn [program_run]; unfold program_step at 1; rewrite Hd; cbn [js_string]; rewrite Ev.
  unfold program_step at 1; cbn [op_dead op_calls op_cache op_reg op_asked].
  rewrite <- G4, nth_error_app2, Nat.sub_diag by lia; cbn [nth_error].
  destruct (PropWasm.load_bundled choices0 (op_cache st) lang Hc0 G1) as (specs' & _ & [(En & _)|(c' & src' & s & El & Hc' & Es' & Ep)]); [congruence|].
  rewrite El.
  assert (spoken (trace_word (new_tracer true) SInput word [])) as Hsp.
  { unfold spoken, trace_word, new_tracer, emit; cbn [t_word]; destruct word as [|b word]; [congruence|]; discriminate. }
  assert (forall tr, spoken tr -> objects (Some (fun _ => true)) (events_of tr) = true) as Hob.
  { intros tr Ht; unfold spoken in Ht; cbn [objects]; destruct (events_of tr); [congruence|]; reflexivity. }
  destruct (file_ok_parses src' c' (bundled_file_ok _ _ Es') Hc') as (s0 & s2 & _ & Ep2 & _ & _ & Hn & Hwk).
  assert (s2 = s) as -> by congruence.
  match goal with |- exists _, match proceed _ _ _ _ ?r _ ?m = _ with _ => _ end = _ /\ _ => idtac | |- context [proceed ?a ?b ?c ?d ?e ?f ?g] =>
    assert (proceed a b c d e f g = Some (crashed b)) as -> end.
  { set (reg := copied _); unfold advance; destruct (l_translit (s_lang s)) as [|sc rest].
    - destruct (after_translit_total H s (trace_word (new_tracer true) SInput word []) word Hn Hwk) as (tr1 & out & Ea); rewrite Ea.
      cbn [proceed]; rewrite Hob; [reflexivity|]; eapply after_translit_spoken; eassumption.
    - destruct (lookup reg sc) as [f|]; [|cbn [proceed]; rewrite Hob by exact Hsp; reflexivity].
      destruct (jf_call f word); cbn [proceed]; [rewrite Hob by exact Hsp|]; reflexivity. }
  eexists; split; [reflexivity|]; split; [reflexivity|]; split; [reflexivity|]; intros e; reflexivity.
Qed.
Print Assumptions C89_null.

(** So the page can end the program, and lose the calls that wait, with a call of the
    documented function. *)
Theorem C89_refuted : exists es st, Forall fair es /\ program_run go_hangul bundled_files (program_start []) es = Some st /\
  op_dead st = true /\ Forall (fun x => forall p events, x <> OSettled p events) (op_calls st) /\ length (op_calls st) = 2%nat.
Proof.
  set (first := VCall [JString (lit "ita"); JString (lit "gloria")] (fun _ => false)).
  set (second := VCall [JString (lit "ita"); JString (lit "gloria"); JNull] (fun _ => false)).
  assert (is_some (lookup bundled_files (specs_dir ++ lit "ita" ++ ext)) = true) as El by (vm_compute; reflexivity).
  destruct (lookup bundled_files (specs_dir ++ lit "ita" ++ ext)) as [src|] eqn:Es; [|discriminate].
  assert (exists st, program_run go_hangul bundled_files (program_start []) [first] = Some st /\ op_dead st = false /\
            op_calls st = [OQueued (lit "ita") (lit "gloria") None]) as (st & Er & Hd & Ec)
    by (eexists; split; [reflexivity|]; split; reflexivity).
  destruct (C89_null go_hangul [] [first] st (lit "ita") (lit "gloria") JNull (fun _ => false) src) as (st' & Er' & Hd' & Ec' & _);
    try assumption; try discriminate.
  - constructor; [exact I|constructor].
  - exists [first; second; ex_start 1], st'; split; [|split; [|split; [exact Hd'|]]].
    + constructor; [exact I|]; constructor; [exact I|]; constructor; [|constructor].
      split; [split; intros; apply Permutation_refl|intros; apply Permutation_refl].
    + change [first; second; ex_start 1] with ([first] ++ [second; ex_start 1]); rewrite program_run_app, Er; exact Er'.
    + rewrite Ec', Ec; split; [repeat constructor; discriminate|reflexivity].
Qed.
Print Assumptions C89_refuted.
