(** C86: the workers of the page. *)
From Coq Require Import String Lia Permutation.
From Verif Require Import GoBase Utf8 Utf8Facts Hsl Spec SpecOrder Jamo Procedure BString Bundled Api ApiFacts Translit Tools PropBundled PropApi Cli Wasm JsText Web
  WebTranslit WebWorker PropWasm PropTools PropTranslit PropWebTranslit PropPage.

(** *** The worker of the module *)

(** The calls among the messages *)
Definition asked (ms : list worker_msg) : list (bytes * bytes * bool) :=
  flat_map (fun m => match m with WCall lang word traced => [(lang, word, traced)] | _ => [] end) ms.

Lemma module_event_same H fs wk e : let wk' := module_event H fs wk e in
  wk_sent wk' = wk_sent wk /\ wk_inbox wk' = wk_inbox wk /\ wk_waiting wk' = wk_waiting wk /\ wk_tasks wk' = wk_tasks wk /\
  wk_ready wk' = wk_ready wk /\ wk_served wk' = wk_served wk.
Proof. unfold module_event; destruct (wasm_step H fs (wk_module wk) e); repeat split. Qed.
Lemma serve_same H fs wk m tasks : let wk' := serve H fs wk m tasks in
  wk_sent wk' = wk_sent wk /\ wk_inbox wk' = wk_inbox wk /\ wk_waiting wk' = wk_waiting wk /\ wk_tasks wk' = tasks /\
  wk_ready wk' = wk_ready wk /\ wk_served wk' = wk_served wk ++ [m].
Proof.
  unfold serve; destruct (event_of m) as [e|]; [|repeat split].
  destruct (module_event_same H fs wk e) as (-> & -> & -> & _ & -> & ->); repeat split.
Qed.

(** The functions of the endpoint go on in the order of their messages, whenever the module
    gets ready, and none of them before. *)
Theorem C86_order : forall H fs specs wk, works H fs specs wk ->
  wk_served wk ++ wk_tasks wk ++ wk_waiting wk ++ wk_inbox wk = wk_sent wk /\
  (wk_ready wk = false -> wk_served wk = [] /\ wk_events wk = []).
Proof.
  intros H fs specs wk Hw.
  enough (wk_served wk ++ wk_tasks wk ++ wk_waiting wk ++ wk_inbox wk = wk_sent wk /\
    (if wk_ready wk then wk_waiting wk = [] else wk_served wk = [] /\ wk_tasks wk = [] /\ wk_events wk = [])) as [E1 E2].
  { split; [exact E1|]; intros Hr; rewrite Hr in E2; destruct E2 as (? & _ & ?); auto. }
  induction Hw as [|wk wk' Hw IH Hs|wk m Hw IH|wk Hw IH Hr|wk i c order Hw IH Hr|wk i Hw IH Hr].
  - repeat split.
  - destruct IH as [E1 E2], Hs as [wk m inbox Ht Hi|wk m tasks Ht].
    + unfold await_ready; cbn [wk_served wk_tasks wk_waiting wk_inbox wk_sent wk_ready wk_events].
      rewrite Ht, Hi in *; destruct (wk_ready wk).
      * rewrite E2 in *; cbn [app] in *; split; [exact E1|reflexivity].
      * destruct E2 as (E2 & _ & E3); rewrite E2 in *; cbn [app] in *; split; [rewrite <- app_assoc; exact E1|auto].
    + destruct (serve_same H fs wk m tasks) as (-> & -> & -> & -> & -> & ->); rewrite Ht in *.
      destruct (wk_ready wk); [|destruct E2 as (_ & E2 & _); discriminate].
      split; [rewrite <- E1, <- app_assoc; reflexivity|exact E2].
  - destruct IH as [E1 E2]; unfold send; cbn [wk_served wk_tasks wk_waiting wk_inbox wk_sent wk_ready wk_events].
    split; [rewrite <- E1, !app_assoc; reflexivity|exact E2].
  - destruct IH as [E1 E2]; unfold mark_ready; cbn [wk_served wk_tasks wk_waiting wk_inbox wk_sent wk_ready wk_events].
    split; [rewrite <- E1; cbn [app]; rewrite <- !app_assoc; reflexivity|reflexivity].
  - destruct (module_event_same H fs wk (EStart i c order)) as (-> & -> & -> & -> & -> & ->); rewrite Hr in *; exact IH.
  - destruct (module_event_same H fs wk (EEnd i)) as (-> & -> & -> & -> & -> & ->); rewrite Hr in *; exact IH.
Qed.
Print Assumptions C86_order.

(** What happens in the module is a run of it, as in C63. *)
Lemma works_run H fs specs wk : works H fs specs wk -> wasm_run H fs (wasm_start specs) (wk_events wk) = Some (wk_module wk).
Proof.
  assert (forall st es e st' st'', wasm_run H fs st es = Some st' -> wasm_step H fs st' e = Some st'' -> wasm_run H fs st (es ++ [e]) = Some st'') as Happ.
  { intros st es; revert st; induction es as [|x es IH]; intros st e st' st''; cbn [app wasm_run].
    - intros [= <-] ->; reflexivity.
    - destruct (wasm_step H fs st x); [apply IH|discriminate]. }
  assert (forall wk e, wasm_run H fs (wasm_start specs) (wk_events wk) = Some (wk_module wk) ->
    wasm_run H fs (wasm_start specs) (wk_events (module_event H fs wk e)) = Some (wk_module (module_event H fs wk e))) as Hev.
  { intros wk0 e E; unfold module_event; destruct (wasm_step H fs (wk_module wk0) e) eqn:Es; [|exact E].
    cbn [wk_events wk_module]; eapply Happ; eassumption. }
  induction 1 as [|wk wk' Hw IH Hs|wk m Hw IH|wk Hw IH Hr|wk i c order Hw IH Hr|wk i Hw IH Hr]; try exact IH; try (apply Hev; exact IH).
  - reflexivity.
  - destruct Hs as [wk m inbox Ht Hi|wk m tasks Ht]; [exact IH|]; unfold serve; destruct (event_of m); [apply Hev|]; exact IH.
Qed.

(** The module is given what the page has sent: its events, without those of goroutines, are
    those of the messages that were served, unless it has panicked. *)
Definition from_page (e : js_event) : bool := match e with EStart _ _ _ | EEnd _ => false | _ => true end.
Definition events_of (ms : list worker_msg) : list js_event := flat_map (fun m => match event_of m with Some e => [e] | None => [] end) ms.
Lemma events_of_app a b : events_of (a ++ b) = events_of a ++ events_of b.
Proof. apply flat_map_app. Qed.

Lemma step_alive H fs st e : from_page e = true -> wa_dead st = None -> exists st', wasm_step H fs st e = Some st' /\ wa_dead st' = None.
Proof. intros He Hd; unfold wasm_step; rewrite Hd; destruct e; try discriminate; eexists; split; reflexivity. Qed.
Lemma step_dead H fs st e st' : wasm_step H fs st e = Some st' -> wa_dead st = None.
Proof. unfold wasm_step; destruct (wa_dead st); [discriminate|reflexivity]. Qed.

Theorem C86_given : forall H fs specs wk, works H fs specs wk ->
  exists served lost, wk_served wk = served ++ lost /\ filter from_page (wk_events wk) = events_of served /\
    (wa_dead (wk_module wk) = None -> lost = []).
Proof.
  intros H fs specs wk.
  assert (forall wk e, from_page e = false ->
    (exists served lost, wk_served wk = served ++ lost /\ filter from_page (wk_events wk) = events_of served /\
      (wa_dead (wk_module wk) = None -> lost = [])) ->
    exists served lost, wk_served (module_event H fs wk e) = served ++ lost /\
      filter from_page (wk_events (module_event H fs wk e)) = events_of served /\
      (wa_dead (wk_module (module_event H fs wk e)) = None -> lost = [])) as Hgo.
  { intros wk0 e He (served & lost & E1 & E2 & E3); destruct (module_event_same H fs wk0 e) as (_ & _ & _ & _ & _ & ->).
    exists served, lost; split; [exact E1|]; unfold module_event; destruct (wasm_step H fs (wk_module wk0) e) as [st|] eqn:Es; [|auto].
    cbn [wk_events wk_module]; split; [rewrite filter_app; cbn [filter]; rewrite He, app_nil_r; exact E2|].
    intros _; apply E3; eapply step_dead; exact Es. }
  induction 1 as [|wk wk' Hw IH Hs|wk m Hw IH|wk Hw IH Hr|wk i c order Hw IH Hr|wk i Hw IH Hr]; try exact IH; try (apply Hgo; [reflexivity|exact IH]).
  - exists [], []; repeat split.
  - destruct Hs as [wk m inbox Ht Hi|wk m tasks Ht]; [exact IH|]; destruct IH as (served & lost & E1 & E2 & E3).
    destruct (serve_same H fs wk m tasks) as (_ & _ & _ & _ & _ & ->).
    destruct (wa_dead (wk_module wk)) eqn:Ed.
    + exists served, (lost ++ [m]); split; [rewrite E1, app_assoc; reflexivity|].
      unfold serve; cbn [wk_events wk_module]; destruct (event_of m) as [e|]; [|rewrite Ed; split; [exact E2|discriminate]].
      unfold module_event; destruct (wasm_step H fs (wk_module wk) e) eqn:Es; [apply step_dead in Es; congruence|].
      rewrite Ed; split; [exact E2|discriminate].
    + rewrite (E3 eq_refl), app_nil_r in E1; subst served; exists (wk_served wk ++ [m]), []; rewrite app_nil_r; split; [reflexivity|].
      split; [|reflexivity]; rewrite events_of_app; unfold serve; cbn [wk_events]; unfold events_of at 2; cbn [flat_map]; rewrite app_nil_r.
      destruct (event_of m) as [e|] eqn:Em; [|rewrite E2, app_nil_r; reflexivity].
      assert (from_page e = true) as He by (destruct m; try discriminate; injection Em as <-; reflexivity).
      destruct (step_alive H fs (wk_module wk) e He Ed) as (st & Es & _); unfold module_event; rewrite Es; cbn [wk_events].
      rewrite filter_app; cbn [filter]; rewrite He, E2; reflexivity.
Qed.
Print Assumptions C86_given.

Lemma made_filter es : made es = made (filter from_page es).
Proof. induction es as [|[] es IH]; cbn [made filter from_page]; rewrite ?IH; reflexivity. Qed.
Lemma made_events ms : made (events_of ms) = asked ms.
Proof.
  induction ms as [|[] ms IH]; unfold events_of, asked in *; cbn [flat_map event_of app made]; rewrite ?IH; reflexivity.
Qed.

(** Before the first call there is nothing for a goroutine to do. *)
Lemma no_calls_no_go H fs specs es st : wasm_run H fs (wasm_start specs) es = Some st -> made es = [] ->
  filter from_page es = es /\ wa_calls st = [].
Proof.
  assert (forall es st0 st, wa_calls st0 = [] -> wasm_run H fs st0 es = Some st -> made es = [] ->
    filter from_page es = es /\ wa_calls st = []) as Hgen.
  { intros es0; induction es0 as [|e es0 IH]; intros st0 st1 Hc; cbn [wasm_run]; [intros [= <-] _; auto|].
    destruct (wasm_step H fs st0 e) as [st'|] eqn:Es; [|discriminate]; intros Hr Hm.
    unfold wasm_step in Es; destruct (wa_dead st0); [discriminate|]; destruct e as [t|sc|lang word traced|i c order|i]; cbn [made filter from_page] in *;
      try discriminate; try (rewrite Hc in Es; destruct i; discriminate).
    - injection Es as <-; destruct (fun Hx => IH _ st1 Hx Hr Hm) as [-> ?]; [exact Hc|auto].
    - injection Es as <-; destruct (fun Hx => IH _ st1 Hx Hr Hm) as [-> ?]; [exact Hc|auto]. }
  apply Hgen; reflexivity.
Qed.

(** The page sends the transliterators before everything else (useHangulize.ts:99-112). So they are all
    there before the first call. *)
Definition no_use (m : worker_msg) : Prop := match m with WUse _ => False | _ => True end.
Theorem C86_uses : forall H fs specs wk ts rest,
  works H fs specs wk -> wk_sent wk = map WUse ts ++ rest -> Forall no_use rest ->
  wasm_run H fs (wasm_start specs) (wk_events wk) = Some (wk_module wk) /\
  ((exists n, wk_events wk = map EUse (firstn n ts) /\ wa_calls (wk_module wk) = []) \/
   (exists calls, wk_events wk = map EUse ts ++ calls /\ Forall only_calls calls)).
Proof.
  intros H fs specs wk ts rest Hw Hs Hrest; pose proof (works_run H fs specs wk Hw) as Hrun; split; [exact Hrun|].
  destruct (C86_order H fs specs wk Hw) as [Ho _]; destruct (C86_given H fs specs wk Hw) as (served & lost & E1 & E2 & _).
  set (tail := lost ++ wk_tasks wk ++ wk_waiting wk ++ wk_inbox wk) in *.
  assert (served ++ tail = map WUse ts ++ rest) as E by (rewrite <- Hs, <- Ho, E1; unfold tail; rewrite <- app_assoc; reflexivity).
  assert ((exists n, served = map WUse (firstn n ts)) \/ exists r r', served = map WUse ts ++ r /\ rest = r ++ r') as [(n & Es)|(r & r' & Es & Er)].
  { clear - E; revert served E; induction ts as [|t ts IH]; intros served E.
    - right; exists served, tail; auto.
    - destruct served as [|m served]; [left; exists 0%nat; reflexivity|]; cbn [map app] in E; injection E as -> E.
      destruct (IH _ E) as [(n & ->)|(r & r' & -> & Er)]; [left; exists (S n); reflexivity|right; exists r, r'; auto]. }
  - left; exists n; assert (events_of served = map EUse (firstn n ts)) as Ev.
    { rewrite Es; generalize (firstn n ts); intros l; induction l as [|t l IH]; [reflexivity|]; unfold events_of in *; cbn [map flat_map event_of app]; rewrite IH; reflexivity. }
    assert (made (wk_events wk) = []) as Hm.
    { rewrite made_filter, E2, Ev; generalize (firstn n ts); intros l; induction l as [|t l IH]; [reflexivity|exact IH]. }
    destruct (no_calls_no_go H fs specs _ _ Hrun Hm) as [Hf Hc]; rewrite <- Hf, E2, Ev; auto.
  - right.
    assert (events_of (map WUse ts) = map EUse ts) as Ev.
    { clear; induction ts as [|t ts IH]; [reflexivity|]; unfold events_of in *; cbn [map flat_map event_of app]; rewrite IH; reflexivity. }
    rewrite Es, events_of_app, Ev in E2.
    assert (Forall only_calls (events_of r)) as Hcalls.
    { rewrite Er in Hrest; apply Forall_app in Hrest; destruct Hrest as [Hr _]; clear - Hr; induction Hr as [|m r Hm Hr IH]; [constructor|].
      unfold events_of in *; cbn [flat_map]; apply Forall_app; split; [|exact IH]; destruct m; try contradiction; repeat constructor. }
    revert Hrun E2 Hcalls; generalize (wk_events wk) as es, (wk_module wk) as st, (events_of r) as calls; clear; intros es st calls Hrun Hf Hcalls.
    assert (forall es st0, wa_calls st0 = [] -> wasm_run H fs st0 es = Some st -> filter from_page es = map EUse ts ++ calls ->
      exists calls', es = map EUse ts ++ calls' /\ Forall only_calls calls') as Hgen.
    { clear Hrun Hf es; induction ts as [|t ts IH]; intros es st0 Hc Hrun Hf.
      - exists es; split; [reflexivity|]; cbn [map app] in Hf; clear - Hf Hcalls; revert calls Hf Hcalls; induction es as [|e es IH]; intros calls Hf Hcalls; [constructor|].
        cbn [filter] in Hf; destruct (from_page e) eqn:Ee.
        + subst calls; inversion Hcalls; subst; constructor; [assumption|eapply IH; [reflexivity|assumption]].
        + constructor; [destruct e; try discriminate; exact I|eapply IH; eassumption].
      - destruct es as [|e es]; [discriminate|]; cbn [wasm_run] in Hrun.
        destruct (wasm_step H fs st0 e) as [st1|] eqn:Es; [|discriminate].
        unfold wasm_step in Es; destruct (wa_dead st0); [discriminate|]; cbn [filter map app] in Hf.
        destruct e as [t'|sc|lang word traced|i c order|i]; cbn [from_page] in Hf; try discriminate;
          try (rewrite Hc in Es; destruct i; discriminate).
        injection Hf as -> Hf; injection Es as <-; destruct (fun Hx => IH es _ Hx Hrun Hf) as (calls' & -> & Hc'); [exact Hc|]; exists calls'; auto. }
    exact (Hgen es (wasm_start specs) eq_refl Hrun Hf).
Qed.
Print Assumptions C86_uses.

(** Whatever happens in a module that is only asked by a page can happen in the one of a worker. *)
Lemma worker_can H fs specs es st : wasm_run H fs (wasm_start specs) es = Some st -> Forall (fun e => match e with EUnuse _ => False | _ => True end) es ->
  exists wk, works H fs specs wk /\ wk_ready wk = true /\ wk_tasks wk = [] /\ wk_inbox wk = [] /\ wk_events wk = es /\ wk_module wk = st /\
    events_of (wk_sent wk) = filter from_page es /\ Forall (fun m => match m with WVersion | WSpecs => False | _ => True end) (wk_sent wk).
Proof.
  revert st; induction es as [|e es IH] using rev_ind; intros st Hr Hu.
  - injection Hr as <-; exists (mark_ready (new_worker specs)); split; [apply K_ready; [constructor|reflexivity]|]; repeat split; constructor.
  - apply Forall_app in Hu; destruct Hu as [Hu He]; inversion He; subst; clear He.
    assert (exists st1, wasm_run H fs (wasm_start specs) es = Some st1 /\ wasm_step H fs st1 e = Some st) as (st1 & E1 & E2).
    { revert Hr; generalize (wasm_start specs) as st0; clear; induction es as [|x es IH]; intros st0 Hr; cbn [app wasm_run] in *.
      - exists st0; split; [reflexivity|]; destruct (wasm_step H fs st0 e); [injection Hr as ->; reflexivity|discriminate].
      - destruct (wasm_step H fs st0 x); [|discriminate]; apply IH; exact Hr. }
    destruct (IH st1 E1 Hu) as (wk & Hw & Hrd & Ht & Hi & Hev & Hm & Hs & Hno); subst st1.
    destruct (from_page e) eqn:Ep.
    + assert (exists m, event_of m = Some e /\ (match m with WVersion | WSpecs => False | _ => True end)) as (m & Em & Hmok).
      { destruct e as [t|sc|lang word traced|i c order|i]; try discriminate; [exists (WUse t)|contradiction|exists (WCall lang word traced)]; auto. }
      set (wk1 := await_ready (send wk m) m []); assert (wk_tasks wk1 = [m]) as Ht1 by (unfold wk1, await_ready, send; cbn [wk_tasks wk_ready]; rewrite Hrd, Ht; reflexivity).
      assert (works H fs specs wk1) as Hw1.
      { eapply K_step; [apply K_send with (m := m); exact Hw|]; apply K_take; [exact Ht|]; cbn [send wk_inbox]; rewrite Hi; reflexivity. }
      exists (serve H fs wk1 m []); split; [eapply K_step; [exact Hw1|apply K_serve; exact Ht1]|].
      destruct (serve_same H fs wk1 m []) as (Es & Ein & _ & Et & Er & _).
      split; [rewrite Er; exact Hrd|]; split; [exact Et|]; split; [exact Ein|].
      unfold serve; rewrite Em; unfold module_event; change (wk_module wk1) with (wk_module wk); rewrite E2; cbn [wk_events wk_module wk_sent].
      change (wk_events wk1) with (wk_events wk); change (wk_sent wk1) with (wk_sent wk ++ [m]); rewrite Hev; split; [reflexivity|]; split; [reflexivity|].
      rewrite events_of_app, filter_app, Hs; unfold events_of; cbn [flat_map filter]; rewrite Em, Ep; split; [reflexivity|].
      apply Forall_app; split; [exact Hno|repeat constructor; exact Hmok].
    + exists (module_event H fs wk e); destruct (module_event_same H fs wk e) as (Es & Ein & _ & Et & Er & _); rewrite Es, Ein, Et, Er.
      split; [destruct e; try discriminate; constructor; assumption|]; split; [exact Hrd|]; split; [exact Ht|]; split; [exact Hi|].
      unfold module_event; rewrite E2; cbn [wk_events wk_module]; rewrite Hev; split; [reflexivity|]; split; [reflexivity|].
      split; [rewrite filter_app; cbn [filter]; rewrite Ep, app_nil_r; exact Hs|exact Hno].
Qed.

(** What the page sends first: the transliterators of spawnWorkers (useHangulize.ts:83-88). *)
Definition sent_uses nfc readings tokenize order methods : list worker_msg :=
  map WUse (map (page_translit (module_call nfc readings tokenize order) (spawn_workers methods)) (sp_uses (spawn_workers methods))).

(** The answers that C70 and C75 are about, [page_answer], are those that come through the worker,
    whatever the order in which messages, the loading and the goroutines go on. *)
Theorem C86_page : forall H cache0 nfc readings tokenize order methods lang word o, cached_ok bundled_files cache0 ->
  page_answer H cache0 nfc readings tokenize order methods lang word o <->
  exists wk rest i p events, works H bundled_files cache0 wk /\ Forall fair (wk_events wk) /\
    wk_sent wk = sent_uses nfc readings tokenize order methods ++ rest /\ Forall no_use rest /\
    nth_error (wa_calls (wk_module wk)) i = Some (Settled p events) /\
    nth_error (asked rest) i = Some (text_encode lang, text_encode word, false) /\
    o = match p with Resolved out => Some (text_decode out) | Rejected _ => None end.
Proof.
  intros H cache0 nfc readings tokenize order methods lang word o Hs.
  unfold sent_uses; set (ts := map (page_translit (module_call nfc readings tokenize order) (spawn_workers methods)) (sp_uses (spawn_workers methods))).
  assert (page_uses (module_call nfc readings tokenize order) methods = map EUse ts) as Epu by (unfold ts; rewrite map_map; reflexivity).
  split.
  - intros (es & st & i & p & events & (calls & Ees & Hcalls) & Hf & Hr & Hi & Hm & ->).
    assert (Forall (fun e => match e with EUnuse _ => False | _ => True end) es) as Hnu.
    { rewrite Ees, Epu; apply Forall_app; split; [apply Forall_map, Forall_forall; intros; exact I|].
      eapply Forall_impl; [|exact Hcalls]; intros []; auto. }
    destruct (worker_can H bundled_files cache0 es st Hr Hnu) as (wk & Hw & _ & _ & _ & Hev & <- & Hsent & Hno).
    assert (exists rest, wk_sent wk = map WUse ts ++ rest /\ Forall no_use rest) as (rest & Erest & Hrest).
    { rewrite Ees, Epu, filter_app in Hsent; revert Hno Hsent Hcalls; generalize (wk_sent wk) as ms; clear; intros ms Hno Hsent Hcalls.
      revert ms Hno Hsent; induction ts as [|t ts IH]; intros ms Hno Hsent.
      - exists ms; split; [reflexivity|]; cbn [map filter app] in Hsent.
        assert (Forall only_calls (events_of ms)) as Hoc.
        { rewrite Hsent; apply Forall_forall; intros e He; apply filter_In in He; rewrite Forall_forall in Hcalls; apply Hcalls, He. }
        clear Hsent; induction Hno as [|m ms Hm Hno IHm]; [constructor|]; unfold events_of in Hoc; cbn [flat_map] in Hoc; apply Forall_app in Hoc; destruct Hoc as [Hoc1 Hoc2].
        constructor; [|apply IHm; exact Hoc2]; destruct m; try exact I; inversion Hoc1; subst; contradiction.
      - destruct ms as [|m ms]; [discriminate|]; inversion Hno; subst; cbn [map filter from_page app] in Hsent.
        unfold events_of in Hsent; cbn [flat_map] in Hsent; destruct m as [l w tr| | |t']; try contradiction; cbn [event_of app] in Hsent; [discriminate|].
        injection Hsent as -> Hsent; destruct (IH ms ltac:(assumption) Hsent) as (rest & -> & Hrest); exists rest; split; [reflexivity|exact Hrest]. }
    exists wk, rest, i, p, events; rewrite Hev; repeat split; try assumption.
    rewrite <- Hm, made_filter, <- Hsent, made_events, Erest; unfold asked; rewrite flat_map_app.
    assert (forall l, flat_map (fun m => match m with WCall lang word traced => [(lang, word, traced)] | _ => [] end) (map WUse l) = []) as ->; [|reflexivity].
    intros l; induction l as [|t l IH]; [reflexivity|exact IH].
  - intros (wk & rest & i & p & events & Hw & Hfair & Hsent & Hrest & Hi & Hask & ->).
    destruct (C86_uses H bundled_files cache0 wk _ rest Hw Hsent Hrest) as [Hrun [(n & _ & Hno)|(calls & Ev & Hcalls)]].
    { rewrite Hno in Hi; destruct i; discriminate. }
    exists (wk_events wk), (wk_module wk), i, p, events; repeat split; try assumption.
    + exists calls; split; [|exact Hcalls]; rewrite Ev, Epu; reflexivity.
    + destruct (C63_calls H cache0 (wk_events wk) (wk_module wk) i p events Hs Hfair Hrun Hi) as (call & ? & ? & ? & ? & _ & Hmade & _).
      rewrite Hmade; rewrite made_filter in Hmade; destruct (C86_given H bundled_files cache0 wk Hw) as (served & lost & E1 & E2 & _).
      rewrite E2, made_events in Hmade; destruct (C86_order H bundled_files cache0 wk Hw) as [Ho _]; rewrite Hsent, E1 in Ho.
      apply (f_equal asked) in Ho; unfold asked in Ho; rewrite !flat_map_app in Ho; fold (asked served) (asked rest) in Ho.
      assert (forall ts, flat_map (fun m => match m with WCall lang word traced => [(lang, word, traced)] | _ => [] end) (map WUse ts) = []) as Hu.
      { intros l; induction l as [|t l IH]; [reflexivity|exact IH]. }
      rewrite Hu in Ho; cbn [app] in Ho; unfold asked in Hask; rewrite <- Hask; unfold asked in Ho; rewrite <- Ho, <- app_assoc, nth_error_app1; [symmetry; exact Hmade|].
      apply nth_error_Some; unfold asked in Hmade; congruence.
Qed.
Print Assumptions C86_page.

(** With the bundled languages: the call that the page sends as the [i]-th is answered with
    what the library gives. *)
Theorem C86_answers_partial : forall H c0 order0 nfc readings tokenize order specs translits methods,
  (forall lang, choices_ok (c0 lang)) -> (forall l, Permutation l (order0 l)) ->
  manifest bundled_files c0 order0 = Ok (specs, translits) -> methods_of translits methods ->
  forall cache0 wk rest i p events lang word traced src s0,
  cached_ok bundled_files cache0 -> works H bundled_files cache0 wk -> Forall fair (wk_events wk) ->
  wk_sent wk = sent_uses nfc readings tokenize order methods ++ rest ->
  Forall no_use rest ->
  nth_error (wa_calls (wk_module wk)) i = Some (Settled p events) -> nth_error (asked rest) i = Some (lang, word, traced) ->
  lookup bundled_files (specs_dir ++ lang ++ ext) = Some src -> parse_spec choices0 src = Ok s0 ->
  stays_plain (installed nfc readings tokenize order) (l_translit (s_lang s0)) word ->
  forall c, choices_ok c -> exists cache1 r,
    hangulize H bundled_files c [] (installed nfc readings tokenize order) tt lang word = (cache1, tt, r) /\ as_promise r p.
Proof.
  intros H c0 order0 nfc readings tokenize order specs translits methods Hc0 Ho0 Em Hm cache0 wk rest i p events lang word traced src s0
    Hs Hw Hfair Hsent Hrest Hi Hask Es E0 Hplain c Hc; unfold sent_uses in Hsent.
  destruct (C86_uses H bundled_files cache0 wk _ rest Hw Hsent Hrest) as [Hrun [(n & _ & Hno)|(calls & Ev & Hcalls)]].
  { rewrite Hno in Hi; destruct i; discriminate. }
  refine (C75_same_partial H c0 order0 nfc readings tokenize order specs translits methods Hc0 Ho0 Em Hm cache0 (wk_events wk) (wk_module wk) i p events
    lang word traced src s0 Hs _ Hfair Hrun Hi _ Es E0 Hplain c Hc).
  - exists calls; split; [|exact Hcalls]; rewrite Ev, map_map; reflexivity.
  - destruct (C63_calls H cache0 (wk_events wk) (wk_module wk) i p events Hs Hfair Hrun Hi) as (call & ? & ? & ? & ? & _ & Hmade & _).
    rewrite Hmade; rewrite made_filter in Hmade; destruct (C86_given H bundled_files cache0 wk Hw) as (served & lost & E1 & E2 & _).
    rewrite E2, made_events in Hmade; destruct (C86_order H bundled_files cache0 wk Hw) as [Ho _]; rewrite Hsent, E1 in Ho.
    apply (f_equal asked) in Ho; unfold asked in Ho; rewrite !flat_map_app in Ho; fold (asked served) (asked rest) in Ho.
    assert (forall ts, flat_map (fun m => match m with WCall lang word traced => [(lang, word, traced)] | _ => [] end) (map WUse ts) = []) as Hu.
    { intros ts; induction ts as [|t ts IH]; [reflexivity|exact IH]. }
    rewrite Hu in Ho; cbn [app] in Ho; unfold asked in Hask; rewrite <- Hask; unfold asked in Ho; rewrite <- Ho, <- app_assoc, nth_error_app1; [symmetry; exact Hmade|].
    apply nth_error_Some; unfold asked in Hmade; congruence.
Qed.
Print Assumptions C86_answers_partial.

(** When the module is ready, every message is served after so many steps of the worker, whatever
    happens in the module. *)
Inductive own_steps (H : hangul_lib) (fs : files) : nat -> worker -> worker -> Prop :=
| Own_none wk : own_steps H fs 0 wk wk
| Own_more n wk wk1 wk2 : worker_step H fs wk wk1 -> own_steps H fs n wk1 wk2 -> own_steps H fs (S n) wk wk2.
Theorem C86_served : forall H fs specs wk, works H fs specs wk -> wk_ready wk = true ->
  (forall n wk', own_steps H fs n wk wk' -> (n <= length (wk_tasks wk) + 2 * length (wk_inbox wk))%nat) /\
  (forall n wk', own_steps H fs n wk wk' -> (forall wk'', ~ worker_step H fs wk' wk'') -> wk_served wk' = wk_sent wk).
Proof.
  intros H fs specs wk Hw Hr; split.
  - intros n wk' Hn; clear Hw; induction Hn as [wk|n wk wk1 wk2 Hs Hn IH]; [lia|].
    destruct Hs as [wk m inbox Ht Hi|wk m tasks Ht].
    + specialize (IH Hr); unfold await_ready in IH; cbn [wk_tasks wk_inbox] in IH; rewrite Hr, Ht in IH; cbn [app length] in IH; rewrite Ht, Hi; cbn [length]; lia.
    + destruct (serve_same H fs wk m tasks) as (_ & Ei & _ & Et & Er & _); rewrite Er, Ei, Et in IH; specialize (IH Hr); rewrite Ht; cbn [length]; lia.
  - intros n wk' Hn Hstop.
    assert (works H fs specs wk' /\ wk_sent wk' = wk_sent wk /\ wk_ready wk' = true) as (Hw' & Es & Hr').
    { clear Hstop; induction Hn as [wk|n wk wk1 wk2 Hs Hn IH]; [auto|].
      assert (wk_sent wk1 = wk_sent wk /\ wk_ready wk1 = wk_ready wk) as [E1 E2].
      { destruct Hs as [wk m inbox Ht Hi|wk m tasks Ht]; [split; reflexivity|]; destruct (serve_same H fs wk m tasks) as (? & _ & _ & _ & ? & _); auto. }
      rewrite <- E1; apply IH; [eapply K_step; eassumption|congruence]. }
    destruct (C86_order H fs specs wk' Hw') as [Ho _]; rewrite <- Es, <- Ho.
    destruct (wk_tasks wk') as [|m tasks] eqn:Et; [|exfalso; eapply Hstop, K_serve; exact Et].
    destruct (wk_inbox wk') as [|m inbox] eqn:Ei; [|exfalso; eapply Hstop, K_take; eassumption].
    assert (wk_waiting wk' = []) as ->; [|rewrite app_nil_r; reflexivity].
    clear - Hw' Hr'; revert Hr'; induction Hw' as [|wk wk' Hw IH Hs|wk m Hw IH|wk Hw IH Hr|wk i c order Hw IH Hr|wk i Hw IH Hr]; try discriminate; try exact IH.
    + intros Hr'; destruct Hs as [wk m inbox Ht Hi|wk m tasks Ht].
      * unfold await_ready in *; cbn [wk_waiting wk_ready] in *; rewrite Hr'; apply IH; exact Hr'.
      * destruct (serve_same H fs wk m tasks) as (_ & _ & Ew & _ & Er & _); rewrite Ew; apply IH; congruence.
    + intros _; reflexivity.
    + destruct (module_event_same H fs wk (EStart i c order)) as (_ & _ & -> & _ & -> & _); exact IH.
    + destruct (module_event_same H fs wk (EEnd i)) as (_ & _ & -> & _ & -> & _); exact IH.
Qed.
Print Assumptions C86_served.

(** *** The workers of the transliterators *)

(** The calls among the messages *)
Definition wanted (ms : list translit_msg) : list (jstring * jstring) :=
  flat_map (fun m => match m with TCall method word => [(method, word)] | TLoad _ => [] end) ms.
Lemma wanted_app a b : wanted (a ++ b) = wanted a ++ wanted b.
Proof. unfold wanted; apply flat_map_app. Qed.

(** Whatever is sent, and whenever the module is loaded: calls are answered in the order they
    were sent, each once. *)
Theorem C86_translit_order : forall call tw, translit_works call tw ->
  map fst (tw_replies tw) ++ tw_tasks tw ++ tw_waiting tw ++ wanted (tw_inbox tw) = wanted (tw_sent tw) /\
  (tw_loaded tw = false -> tw_tasks tw = []) /\ (tw_loaded tw = true -> tw_waiting tw = [] /\ exists md, tw_ready tw = Some (Url md)) /\
  (tw_ready tw = None -> tw_waiting tw = [] /\ tw_loaded tw = false).
Proof.
  intros call tw Hw; induction Hw as [|tw tw' Hw IH Hs|tw m Hw IH|tw m Hw IH Hr Hl].
  - repeat split; discriminate.
  - destruct IH as (I1 & I2 & I3 & I4); destruct Hs as [tw m inbox Ht Hi|tw q tasks Ht].
    + rewrite Ht, Hi in I1; cbn [app] in I1; destruct m as [method|method word]; cbn [translit_take].
      * cbn [tw_replies tw_tasks tw_waiting tw_inbox tw_sent tw_loaded tw_ready]; rewrite Ht; split; [exact I1|]; split; [reflexivity|]; split.
        { intros Hl; destruct (I3 Hl) as (Hn & md & ->); split; [exact Hn|]; exists md; reflexivity. }
        intros Hn; apply I4; destruct (load_module (tw_ready tw) method); [discriminate|exact Hn].
      * destruct (tw_ready tw) as [u|] eqn:Er; cbn [tw_replies tw_tasks tw_waiting tw_inbox tw_sent tw_loaded tw_ready]; change (wanted (TCall method word :: inbox)) with ((method, word) :: wanted inbox) in I1.
        { rewrite <- I1; destruct (tw_loaded tw) eqn:El.
          - destruct (I3 eq_refl) as (Hn & Hmd); rewrite Ht, Hn; split; [reflexivity|]; split; [discriminate|]; split; [auto|discriminate].
          - rewrite Ht; split; [rewrite <- app_assoc; reflexivity|]; split; [reflexivity|]; split; discriminate. }
        { destruct (I4 eq_refl) as (Hn & Hl); rewrite Ht, Hn, Hl in *; rewrite map_app; cbn [map fst app] in *; rewrite <- I1, <- app_assoc; cbn [app]; repeat split; discriminate. }
    + rewrite Ht in I1; cbn [translit_serve tw_replies tw_tasks tw_waiting tw_inbox tw_sent tw_loaded tw_ready]; split.
      { rewrite map_app, <- app_assoc; cbn [map fst app] in *; rewrite <- I1; reflexivity. }
      split; [intros Hl; rewrite (I2 Hl) in Ht; discriminate|auto].
  - destruct IH as (I1 & I2); cbn [translit_send tw_replies tw_tasks tw_waiting tw_inbox tw_sent tw_loaded tw_ready]; split; [|exact I2].
    rewrite !wanted_app, <- I1, <- !app_assoc; reflexivity.
  - destruct IH as (I1 & I2 & I3 & I4); cbn [translit_mark_ready tw_replies tw_tasks tw_waiting tw_inbox tw_sent tw_loaded tw_ready]; split.
    { rewrite <- I1, <- app_assoc; reflexivity. }
    split; [discriminate|]; split; [intros _; split; [reflexivity|exists m; exact Hr]|intros E; rewrite E in Hr; discriminate].
Qed.
Print Assumptions C86_translit_order.

(** The page loads the module first (useHangulize.ts:80-87). Then no call is rejected: each is
    answered by the module, and by no other, and all are when nothing is left to do. *)
Theorem C86_translit : forall call tw first md calls,
  translit_works call tw -> load_module None first = Some (Url md) ->
  tw_sent tw = TLoad first :: map (fun q => TCall (fst q) (snd q)) calls ->
  (exists answered rest, calls = answered ++ rest /\
     tw_replies tw = map (fun q => (q, call md (text_encode (fst q)) (text_encode (snd q)))) answered /\
     (tw_loaded tw = false -> answered = [])) /\
  (tw_loaded tw = true -> (forall tw', ~ translit_step call tw tw') -> map fst (tw_replies tw) = calls).
Proof.
  intros call tw first md calls Hw Hu Hs; destruct (C86_translit_order call tw Hw) as (Ho & Hl1 & Hl2 & Hl3).
  assert (wanted (tw_sent tw) = calls) as Ec.
  { rewrite Hs; clear; unfold wanted; cbn [flat_map app]; induction calls as [|[m w] calls IH]; [reflexivity|]; cbn [map flat_map fst snd app]; rewrite IH; reflexivity. }
  assert (tw_sent tw = [] \/ exists rest, tw_sent tw = TLoad first :: rest) as Hform by (right; eexists; exact Hs).
  assert ((tw_ready tw = None -> tw_replies tw = [] /\ tw_inbox tw = tw_sent tw) /\ (tw_ready tw <> None -> tw_ready tw = Some (Url md)) /\
    (tw_loaded tw = false -> tw_replies tw = []) /\
    tw_replies tw = map (fun q => (q, call md (text_encode (fst q)) (text_encode (snd q)))) (map fst (tw_replies tw))) as (_ & _ & Hnone & Hrep).
  { clear calls Hs Ec Ho Hl1 Hl2 Hl3; induction Hw as [|tw tw' Hw IH Hst|tw m Hw IH|tw m Hw IH Hr Hl].
    - repeat split; try reflexivity; intros E; contradiction.
    - assert (tw_sent tw' = tw_sent tw) as Es.
      { destruct Hst as [tw [method|method word] inbox Ht Hi|tw q tasks Ht]; try reflexivity; cbn [translit_take]; destruct (tw_ready tw); reflexivity. }
      rewrite Es in *; destruct (IH Hform) as (I1 & I2 & I3 & I4); clear IH; destruct (C86_translit_order call tw Hw) as (_ & O2 & O3 & O4).
      destruct Hst as [tw m inbox Ht Hi|tw q tasks Ht].
      + destruct (tw_ready tw) as [u|] eqn:Er.
        * destruct m as [method|method word]; cbn [translit_take]; rewrite Er; cbn [tw_replies tw_ready tw_loaded tw_inbox load_module];
            (split; [discriminate|]; split; [intros _; apply I2; discriminate|]; split; assumption).
        * destruct (I1 eq_refl) as (E1 & E2); rewrite E2 in Hi; rewrite Hi in Hform; destruct Hform as [|[rest [= -> _]]]; [discriminate|].
          cbn [translit_take tw_replies tw_ready tw_loaded tw_inbox]; rewrite Er, Hu, E1; repeat split; discriminate.
      + cbn [translit_serve tw_replies tw_ready tw_loaded tw_inbox]; destruct (tw_loaded tw) eqn:El; [|rewrite (O2 eq_refl) in Ht; discriminate].
        destruct (O3 eq_refl) as (_ & md' & Er); rewrite Er in *; split; [discriminate|]; split; [exact I2|]; split; [discriminate|].
        assert (md' = md) as -> by (specialize (I2 ltac:(discriminate)); injection I2 as ->; reflexivity).
        rewrite !map_app, <- I4; reflexivity.
    - cbn [translit_send tw_sent tw_replies tw_ready tw_loaded tw_inbox] in *.
      assert (tw_sent tw = [] \/ exists rest, tw_sent tw = TLoad first :: rest) as Hform'.
      { destruct (tw_sent tw) as [|x xs]; [left; reflexivity|]; right; destruct Hform as [|[rest E]]; [discriminate|]; injection E as -> _; eexists; reflexivity. }
      destruct (IH Hform') as (I1 & I2 & I3 & I4); repeat split; try assumption; [apply I1; assumption|].
      destruct (I1 ltac:(assumption)) as (_ & ->); reflexivity.
    - cbn [translit_mark_ready tw_sent tw_replies tw_ready tw_loaded tw_inbox] in *; destruct (IH Hform) as (I1 & I2 & I3 & I4).
      repeat split; try assumption; try discriminate; apply I1; assumption. }
  split.
  - exists (map fst (tw_replies tw)), (tw_tasks tw ++ tw_waiting tw ++ wanted (tw_inbox tw)); split; [rewrite <- Ec; symmetry; exact Ho|].
    split; [exact Hrep|]; intros Hf; rewrite (Hnone Hf); reflexivity.
  - intros Hld Hstop; destruct (Hl2 Hld) as (Hn & _); rewrite <- Ec, <- Ho, Hn.
    destruct (tw_tasks tw) as [|q tasks] eqn:Et; [|exfalso; eapply Hstop, T_serve; exact Et].
    destruct (tw_inbox tw) as [|m inbox] eqn:Ei; [|exfalso; eapply Hstop, T_take; eassumption].
    cbn [wanted flat_map app]; rewrite app_nil_r; reflexivity.
Qed.
Print Assumptions C86_translit.

(** A call that is sent before the module is loaded is rejected, though the next one is not. *)
Theorem C86_early_refuted : exists call tw, translit_works call tw /\ map (fun r => snd r) (tw_replies tw) =
  [Rejects (JObject (JString (lit "load() not called yet"))); Fulfils (JString (lit "x"))] /\
  exists first, tw_sent tw = [TCall (lit "furigana") (lit "x"); TLoad first; TCall (lit "furigana") (lit "x")].
Proof.
  pose (call := fun (_ : wasm_module) (_ word : bytes) => Fulfils (JString word)).
  exists call; eexists; split; [|split; [|eexists]].
  - eapply T_step; [eapply T_step|].
    + eapply (T_ready call); [eapply T_step; [eapply T_step|]|..].
      * eapply T_send, T_send, T_send with (m := TCall (lit "furigana") (lit "x")), T_new.
      * eapply T_take; reflexivity.
      * eapply T_take with (m := TLoad (lit "furigana")); reflexivity.
      * vm_compute; reflexivity.
      * reflexivity.
    + eapply T_take with (m := TCall (lit "furigana") (lit "x")); reflexivity.
    + eapply T_serve; reflexivity.
  - vm_compute; reflexivity.
  - vm_compute; reflexivity.
Qed.
Print Assumptions C86_early_refuted.

(** A page with a transliterator that asks for the version and for a word before the module is
    ready, in a language there is not, and gets its answer. *)
Definition example_use : js_translit := {| jt_scheme := lit "latin"; jt_fn := fun word => Fulfils (JString word) |}.
Example C86_example : forall H, exists wk1 wk2,
  works H [] [] wk1 /\ works H [] [] wk2 /\ wk_sent wk1 = [WUse example_use; WVersion; WCall (lit "xxx") (lit "word") false] /\
  wk_sent wk2 = wk_sent wk1 /\ wk_events wk1 = [] /\ wk_waiting wk1 = wk_sent wk1 /\ wk_ready wk2 = true /\ wk_served wk2 = wk_sent wk1 /\
  wk_events wk2 = [EUse example_use; ECall (lit "xxx") (lit "word") false; EStart 0 choices0 (fun l => l)] /\
  exists e, wa_calls (wk_module wk2) = [Settled (Rejected e) []].
Proof.
  intros H; do 2 eexists; split; [|split].
  - eapply K_step; [eapply K_step; [eapply K_step|]|].
    + eapply K_send, K_send, K_send, K_new.
    + eapply K_take with (m := WUse example_use); reflexivity.
    + eapply K_take with (m := WVersion); reflexivity.
    + eapply K_take with (m := WCall (lit "xxx") (lit "word") false); reflexivity.
  - eapply K_start with (c := choices0) (order := fun l => l) (i := 0%nat).
    + eapply K_step; [eapply K_step; [eapply K_step|]|].
      * eapply K_ready; [eapply K_step; [eapply K_step; [eapply K_step|]|]|].
        -- eapply K_send, K_send, K_send, K_new.
        -- eapply K_take with (m := WUse example_use); reflexivity.
        -- eapply K_take with (m := WVersion); reflexivity.
        -- eapply K_take with (m := WCall (lit "xxx") (lit "word") false); reflexivity.
        -- reflexivity.
      * eapply K_serve; reflexivity.
      * eapply K_serve; reflexivity.
      * eapply K_serve; reflexivity.
    + reflexivity.
  - repeat split; eexists; reflexivity.
Qed.
