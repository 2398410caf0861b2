(** The page as a whole: C90, C91. *)
From Coq Require Import String Permutation Lia.
From Verif Require Import GoBase Utf8 Utf8Facts Spec Procedure Api ApiFacts Translit Tools Wasm Web JsText WebTranslit WebUrl WebApp
  PropJsText PropBundled PropApi PropWasm PropWebTranslit PropUrl PropWeb PropPage.
Open Scope nat_scope.

Definition app_rest worker tests (ap : app) : Prop := forall ap', ~ app_step worker tests ap ap'.
(** Without anything from outside *)
Inductive app_steps worker tests : nat -> app -> app -> Prop :=
| app_steps_none ap : app_steps worker tests 0 ap ap
| app_steps_more n ap ap1 ap2 : app_step worker tests ap ap1 -> app_steps worker tests n ap1 ap2 -> app_steps worker tests (S n) ap ap2.

(** *** The steps of the hook *)
Lemma render_same pg : pg_effect pg = false -> pg_next pg = pg_view pg -> render pg = pg.
Proof.
  intros He Ev; unfold render; rewrite Ev, !Nat.eqb_refl; cbn [andb negb]; rewrite <- He, <- Ev; destruct pg; cbn in *; subst; reflexivity.
Qed.
Lemma run_keeps pg : pg_view (run_effect pg) = pg_view pg /\ pg_effect (run_effect pg) = false /\
  v_specs (pg_next (run_effect pg)) = v_specs (pg_next pg) /\ pg_inputs (run_effect pg) = pg_inputs pg.
Proof.
  unfold run_effect, wait, start_timer; cbn; destruct (negb _); [repeat split|].
  destruct (v_state (pg_view pg)); [repeat split|..]; (destruct (Nat.eqb _ _); [repeat split|]);
    destruct (pg_timer pg); cbn; destruct (js_empty _), (pg_processing pg); repeat split.
Qed.
(** Every other step keeps what has been rendered. *)
Lemma page_kinds worker pg pg' : page_step worker pg pg' ->
  (pg_effect pg = false /\ pg_next pg <> pg_view pg /\ pg' = render pg) \/ (pg_effect pg = true /\ pg' = run_effect pg) \/
  (pg_view pg' = pg_view pg /\ pg_effect pg' = pg_effect pg /\ v_specs (pg_next pg') = v_specs (pg_next pg) /\ pg_inputs pg' = pg_inputs pg).
Proof.
  intros Hs; destruct Hs as [pg He Hn|pg He|pg l i r Ej|pg l i p r v Ej _|pg l i p r v Ej Hv|pg l lang word r o Ep Hw|pg l t r Et]; auto;
    right; right.
  - unfold wait; destruct (Nat.eqb _ _), (pg_processing pg); repeat split.
  - repeat split.
  - unfold finish; destruct (negb _); repeat split.
  - repeat split.
  - repeat split.
Qed.

(** *** What holds in every state *)
Record app_inv worker (tests : jstring -> list jstring) manifest (ap : app) : Prop := {
  v_reached : reached worker manifest (ap_page ap);
  v_visited : visited (ap_addr ap);
  v_langs : Forall language (v_specs (pg_next (ap_page ap)));
  v_view_langs : Forall language (v_specs (pg_view (ap_page ap)));
  v_some : v_specs (pg_next (ap_page ap)) <> [];
  v_none : ap_fresh ap = false -> pg_effect (ap_page ap) = false;
  v_still : ap_fresh ap = true -> ap_moved ap = false;
  v_units : js_units (ap_lang ap) /\ js_units (ap_word ap);
  v_seen : ap_moved ap = false -> exists sample, language sample /\
     (ap_fresh ap = true -> In sample (v_specs (pg_view (ap_page ap)))) /\ ap_lang ap = app_lang sample (search_params (ad_search (ap_addr ap))) /\ ap_word ap = app_word (search_params (ad_search (ap_addr ap)));
  v_sent : ap_fresh ap = false -> ap_thrown ap = false -> ap_sent ap = Some (ap_lang ap, ap_word ap) /\ ap_title ap = app_title (ap_word ap);
  v_typed : forall x, ap_sent ap = Some x -> typed (ap_page ap) = x;
  v_done : ap_fresh ap = false -> ap_moved ap = false -> ap_thrown ap = false ->
     param_has (search_params (ad_search (ap_addr ap))) (lit "lang") = true /\
     (param_has (search_params (ad_search (ap_addr ap))) (lit "word") = true \/ tests (ap_lang ap) = []);
  v_known : ap_thrown ap = false -> js_defined (v_specs (pg_view (ap_page ap))) (ap_lang ap) = true /\
     (ap_fresh ap = false -> ap_moved ap = false -> In (ap_lang ap) (v_specs (pg_view (ap_page ap))) \/
        param_has (search_params (ad_search (ap_addr ap))) (lit "word") = true);
  v_unknown : ap_thrown ap = true -> ap_moved ap = false /\ ~ In (ap_lang ap) (v_specs (pg_view (ap_page ap))) /\
     (In (ap_lang ap) object_prototype -> param_has (search_params (ad_search (ap_addr ap))) (lit "word") = false) /\
     exists sample, In sample (v_specs (pg_view (ap_page ap))) /\ ap_lang ap = app_lang sample (search_params (ad_search (ap_addr ap)))
}.

Lemma defined_spec specs lang : js_defined specs lang = true <-> In lang specs \/ In lang object_prototype.
Proof.
  unfold js_defined; rewrite existsb_exists, <- in_app_iff; split; [intros (x & Hx & E); apply beqb_eq in E; subst x; exact Hx|].
  intros Hx; exists lang; split; [exact Hx|apply beqb_eq; reflexivity].
Qed.
Lemma own_spec specs (lang : jstring) : existsb (beqb lang) specs = true <-> In lang specs.
Proof.
  rewrite existsb_exists; split; [intros (x & Hx & E); apply beqb_eq in E; subst x; exact Hx|].
  intros Hx; exists lang; split; [exact Hx|apply beqb_eq; reflexivity].
Qed.
Lemma visited_current a : visited a -> current_params a = search_params (ad_search a).
Proof. intros H; exact (good_current a (visited_good a H)). Qed.
Lemma language_text l : language l -> text l.
Proof. intros (_ & Hu & E); rewrite <- E; apply usv_string_text; exact Hu. Qed.
Lemma app_word_units s : js_units (app_word (search_params s)).
Proof.
  unfold app_word; destruct (param_get (search_params s) (lit "word")) as [w|] eqn:E; [|constructor].
  apply text_units; exact (get_text _ _ _ (search_texts s) E).
Qed.
Lemma not_in_own specs lang : ~ In lang specs -> existsb (beqb lang) specs = false.
Proof. intros H; destruct (existsb (beqb lang) specs) eqn:E; [apply own_spec in E; contradiction|reflexivity]. Qed.

(** A rendering *)
Lemma inv_rendered worker tests manifest ap sample pg : visited (ap_addr ap) -> reached worker manifest pg ->
  (forall x, ap_sent ap = Some x -> typed pg = x) -> In sample (v_specs (pg_view pg)) -> pg_next pg = pg_view pg -> Forall language (v_specs (pg_view pg)) ->
  app_inv worker tests manifest (rendered sample ap pg).
Proof.
  intros Hv Hr Ht Hs En Hl; pose proof (visited_current _ Hv) as Ec.
  assert (language sample) as Hsl by (rewrite Forall_forall in Hl; exact (Hl _ Hs)).
  unfold rendered; cbv zeta; rewrite Ec; split; cbn [ap_page ap_addr ap_moved ap_lang ap_word ap_sent ap_title ap_fresh ap_thrown]; try discriminate; auto.
  - rewrite En; exact Hl.
  - rewrite En; destruct (v_specs (pg_view pg)); [destruct Hs|discriminate].
  - split; [apply app_lang_units; [apply search_texts|apply Hsl]|apply app_word_units].
  - intros _; exists sample; auto.
  - intros E; apply negb_false_iff in E; split; [exact E|discriminate].
  - intros E; apply negb_true_iff in E; split; [reflexivity|].
    assert (~ (In (app_lang sample (search_params (ad_search (ap_addr ap)))) (v_specs (pg_view pg)) \/ In (app_lang sample (search_params (ad_search (ap_addr ap)))) object_prototype)) as Hn
      by (intros H; apply defined_spec in H; congruence).
    split; [tauto|]; split; [tauto|exists sample; auto].
Qed.

Lemma redirect_done lang example a : visited a ->
  redirects example (current_params a) = false -> param_has (search_params (ad_search a)) (lit "lang") = true /\
    (param_has (search_params (ad_search a)) (lit "word") = true \/ example = None) /\ redirect lang example a = a.
Proof.
  intros Hv E; unfold redirect; rewrite E; rewrite (visited_current _ Hv) in E; unfold redirects in E; apply orb_false_iff in E; destruct E as [E1 E2].
  apply negb_false_iff in E1; split; [exact E1|]; split; [|reflexivity]; destruct example; [left; apply negb_false_iff; exact E2|right; reflexivity].
Qed.
Lemma redirect_visited sample example a : visited a -> language sample -> (forall w, example = Some w -> js_units w) ->
  visited (redirect (app_lang sample (search_params (ad_search a))) example a).
Proof.
  intros Hv Hs Hw; rewrite <- (visited_current _ Hv); eapply visited_step; [exact Hv|]; apply step_redirect; [apply Hs|exact Hw].
Qed.

Lemma inv_effects worker tests manifest ap example : (forall lang, Forall js_units (tests lang)) -> app_inv worker tests manifest ap ->
  ap_thrown ap = false -> ap_fresh ap = true ->
  match example with Some w => In w (tests (ap_lang ap)) | None => tests (ap_lang ap) = [] end ->
  app_inv worker tests manifest (app_effects example ap).
Proof.
  intros Htests Hi Hth Hf Hex.
  set (pg := if pg_effect (ap_page ap) then run_effect (ap_page ap) else ap_page ap).
  assert (reached worker manifest pg) as Hr.
  { unfold pg; destruct (pg_effect (ap_page ap)) eqn:E; [|apply Hi]; eapply reached_page; [apply Hi|apply step_effect; exact E]. }
  assert (pg_view pg = pg_view (ap_page ap) /\ pg_effect pg = false /\ v_specs (pg_next pg) = v_specs (pg_next (ap_page ap)) /\
          pg_inputs pg = pg_inputs (ap_page ap)) as (Ev & Ee & Es & Ei).
  { unfold pg; destruct (pg_effect (ap_page ap)) eqn:E; [apply run_keeps|auto]. }
  pose proof (v_visited _ _ _ _ Hi) as Hv; pose proof (visited_current _ Hv) as Ec.
  pose proof (v_still _ _ _ _ Hi Hf) as Hm; destruct (v_seen _ _ _ _ Hi Hm) as (sample & Hs & Hsi & El & Ew).
  destruct (v_known _ _ _ _ Hi Hth) as [Hk _].
  assert (forall x, ap_sent ap = Some x -> typed pg = x) as Hty by (intros x E; unfold typed; rewrite Ei; exact (v_typed _ _ _ _ Hi x E)).
  assert (forall w, example = Some w -> js_units w) as Hwu.
  { intros w ->; pose proof (Htests (ap_lang ap)) as H; rewrite Forall_forall in H; exact (H _ Hex). }
  unfold app_effects; cbv zeta; fold pg; rewrite Ec.
  destruct (negb (existsb (beqb (ap_lang ap)) (v_specs (pg_view pg))) && negb (param_has (search_params (ad_search (ap_addr ap))) (lit "word"))) eqn:Et.
  - apply andb_true_iff in Et; destruct Et as [Et1 Et2]; apply negb_true_iff in Et1; apply negb_true_iff in Et2.
    assert (~ In (ap_lang ap) (v_specs (pg_view pg))) as Hn by (intros H; apply own_spec in H; congruence).
    split; cbn [ap_page ap_addr ap_moved ap_lang ap_word ap_sent ap_title ap_fresh ap_thrown]; try discriminate; auto; try (rewrite ?Es, ?Ev; apply Hi).
    + intros _; exists sample; split; [exact Hs|]; split; [discriminate|auto].
    + intros _; split; [exact Hm|]; split; [exact Hn|]; split; [auto|]; exists sample; rewrite Ev; auto.
  - set (sent := match ap_sent ap with Some (lang, word) => beqb lang (ap_lang ap) && beqb word (ap_word ap) | None => false end).
    set (pg' := if sent then pg else set_input pg (ap_lang ap) (ap_word ap)).
    assert (pg_view pg' = pg_view pg /\ pg_effect pg' = false /\ v_specs (pg_next pg') = v_specs (pg_next pg)) as (Ev' & Ee' & Es')
      by (unfold pg'; destruct sent; auto).
    assert (forall ex, redirects ex (search_params (ad_search (ap_addr ap))) = false -> redirect (ap_lang ap) ex (ap_addr ap) = ap_addr ap) as Hid
      by (intros ex E; unfold redirect; rewrite Ec, E; reflexivity).
    split; cbn [ap_page ap_addr ap_moved ap_lang ap_word ap_sent ap_title ap_fresh ap_thrown]; try discriminate; auto.
    + unfold pg'; destruct sent; [exact Hr|]; eapply reached_user; [exact Hr|apply user_input].
    + rewrite El; apply redirect_visited; assumption.
    + rewrite Es', Es; apply Hi.
    + rewrite Ev', Ev; apply Hi.
    + rewrite Es', Es; apply Hi.
    + apply Hi.
    + intros E; rewrite (Hid _ E); exists sample; split; [exact Hs|]; split; [discriminate|auto].
    + intros x E; injection E as <-; unfold pg'; destruct sent eqn:E; [|unfold typed; cbn; apply last_last].
      unfold sent in E; destruct (ap_sent ap) as [[l w]|]; [|discriminate]; apply andb_true_iff in E; destruct E as [E1 E2].
      apply beqb_eq in E1; apply beqb_eq in E2; apply Hty; congruence.
    + intros _ E _; rewrite (Hid _ E); destruct (redirect_done (ap_lang ap) example (ap_addr ap) Hv) as (H1 & [H2|H2] & _).
      * rewrite <- Ec in E; exact E.
      * auto.
      * subst example; auto.
    + intros _; split; [rewrite Ev', Ev; exact Hk|]; intros _ E; rewrite (Hid _ E), Ev'; apply andb_false_iff in Et; destruct Et as [Et|Et]; apply negb_false_iff in Et.
      * left; apply own_spec; exact Et.
      * right; exact Et.
Qed.

Lemma inv_page worker tests manifest ap pg : app_inv worker tests manifest ap -> reached worker manifest pg ->
  pg_view pg = pg_view (ap_page ap) -> pg_effect pg = pg_effect (ap_page ap) -> Forall language (v_specs (pg_next pg)) -> v_specs (pg_next pg) <> [] ->
  pg_inputs pg = pg_inputs (ap_page ap) -> app_inv worker tests manifest (with_page ap pg).
Proof.
  intros Hi Hr Ev Ee Hl Hne Ei; split; cbn [with_page ap_page ap_addr ap_moved ap_lang ap_word ap_sent ap_title ap_fresh ap_thrown]; auto; rewrite ?Ev, ?Ee; try apply Hi.
  intros x E; unfold typed; rewrite Ei; exact (v_typed _ _ _ _ Hi x E).
Qed.
Lemma inv_addr worker tests manifest ap a : app_inv worker tests manifest ap -> visited a -> ap_fresh ap = false -> ap_thrown ap = false ->
  app_inv worker tests manifest (with_addr ap a).
Proof.
  intros Hi Hv Hf Ht; split; cbn [with_addr ap_page ap_addr ap_moved ap_lang ap_word ap_sent ap_title ap_fresh ap_thrown]; auto; try discriminate; try apply Hi; try congruence.
  intros E; split; [apply (v_known _ _ _ _ Hi E)|discriminate].
Qed.

Lemma inv_app worker tests manifest ap : manifest <> [] -> Forall language manifest -> (forall lang, Forall js_units (tests lang)) ->
  app_reached worker tests manifest ap -> app_inv worker tests manifest ap.
Proof.
  intros Hne Hl Ht; induction 1 as [search sample Hs|ap ap' Hr Hi Hs|ap ap' Hr Hi Hs].
  - apply inv_rendered; try assumption; try reflexivity; cbn; try discriminate; constructor.
  - destruct Hs as [ap sample Hth Hf Hc Hs|ap example Hth Hf Hex|ap pg Hth Hp Ev Ee].
    + pose proof (v_none _ _ _ _ Hi Hf) as He; apply inv_rendered; cbn [render pg_view pg_next]; try assumption; try reflexivity; try apply Hi.
      destruct (view_eq_dec (pg_next (ap_page ap)) (pg_view (ap_page ap))) as [E|E].
      * rewrite (render_same _ He E); apply Hi.
      * eapply reached_page; [apply Hi|apply step_render; assumption].
    + apply inv_effects; assumption.
    + destruct (page_kinds _ _ _ Hp) as [(He & Hn & ->)|[(He & ->)|(_ & _ & Es & Ei)]].
      * exfalso; apply Hn; rewrite <- Ev; reflexivity.
      * destruct (run_keeps (ap_page ap)) as (_ & E & _); congruence.
      * apply inv_page; try assumption; try (rewrite Es; apply Hi); eapply reached_page; [apply Hi|exact Hp].
  - destruct Hs as [ap word Hth Hf Hw|ap lang Hth Hf Hin|ap search Hth Hf|ap specs Hth Hf Hv Hn Hsl].
    + apply inv_addr; try assumption; eapply visited_step; [apply Hi|]; apply step_change; [apply Hi|exact Hw].
    + apply inv_addr; try assumption; eapply visited_step; [apply Hi|]; apply step_change; [|apply Hi].
      pose proof (v_view_langs _ _ _ _ Hi) as H; rewrite Forall_forall in H; apply (H _ Hin).
    + apply inv_addr; try assumption; eapply visited_step; [apply Hi|]; apply step_history.
    + apply inv_page; try assumption; try reflexivity; eapply reached_user; [apply Hi|apply user_specs; exact Hv].
Qed.

(** ** C90 What the page shows belongs to its address *)
Theorem C90_shows : forall worker tests manifest ap,
  (forall lang word, exists o, worker lang word o) -> manifest <> [] -> Forall language manifest -> (forall lang, Forall js_units (tests lang)) ->
  app_reached worker tests manifest ap -> app_rest worker tests ap -> ap_thrown ap = false ->
  let p := search_params (ad_search (ap_addr ap)) in
  let specs := v_specs (pg_view (ap_page ap)) in
  exists l lang word r, app_shows ap = (lang, word, r) /\
    param_get p (lit "lang") = Some l /\ (l <> [] -> lang = l) /\
    word = match param_get p (lit "word") with Some w => w | None => [] end /\
    (param_get p (lit "word") = None -> In lang specs /\ tests lang = []) /\
    shown_language specs lang /\
    ap_title ap = (if js_empty word then page_name else page_name ++ [0x3A; 0x20]%N ++ word) /\
    at_rest worker (ap_page ap) /\ typed (ap_page ap) = (lang, word) /\
    ((forall u, In u word -> js_space u = true) -> r = (false, [])) /\
    ((exists u, In u word /\ js_space u = false) -> In lang specs ->
     exists o, worker lang word o /\ forall v, o = Some v -> v <> [] -> r = (false, v)).
Proof.
  intros worker tests manifest ap Hw Hne Hl Ht Hr Hrest Hth p specs; pose proof (inv_app _ _ _ _ Hne Hl Ht Hr) as Hi.
  assert (ap_fresh ap = false) as Hf.
  { destruct (ap_fresh ap) eqn:E; [|reflexivity]; exfalso; destruct (tests (ap_lang ap)) as [|w ws] eqn:Ew.
    - apply (Hrest (app_effects None ap)); apply app_runs; assumption.
    - apply (Hrest (app_effects (Some w) ap)); apply app_runs; try assumption; rewrite Ew; left; reflexivity. }
  pose proof (v_some _ _ _ _ Hi) as Hsome; destruct (v_specs (pg_next (ap_page ap))) as [|sample0 rest] eqn:Es; [congruence|].
  assert (pg_next (ap_page ap) = pg_view (ap_page ap) /\ ap_moved ap = false) as [En Hm].
  { destruct (view_eq_dec (pg_next (ap_page ap)) (pg_view (ap_page ap))) as [E|E].
    - destruct (ap_moved ap) eqn:Em; [|auto]; exfalso; apply (Hrest (app_render sample0 ap)); apply app_draws; auto; rewrite Es; left; reflexivity.
    - exfalso; apply (Hrest (app_render sample0 ap)); apply app_draws; auto; rewrite Es; left; reflexivity. }
  assert (at_rest worker (ap_page ap)) as Hpr.
  { intros pg' Hp; destruct (page_kinds _ _ _ Hp) as [(_ & Hn & _)|[(He & _)|(Ev & Ee & _)]]; [congruence| |exact (Hrest _ (app_goes _ _ _ _ Hth Hp Ev Ee))].
    rewrite (v_none _ _ _ _ Hi Hf) in He; discriminate. }
  destruct (v_seen _ _ _ _ Hi Hm) as (sample & Hs & _ & El & Ew); destruct (v_sent _ _ _ _ Hi Hf Hth) as [Hsent Htitle].
  pose proof (v_typed _ _ _ _ Hi _ Hsent) as Hty; destruct (v_done _ _ _ _ Hi Hf Hm Hth) as [Hhl Hhw].
  destruct (v_known _ _ _ _ Hi Hth) as [Hk1 Hk2]; specialize (Hk2 Hf Hm); fold p in El, Ew, Hhl, Hhw, Hk2; fold specs in Hk1, Hk2.
  apply has_get in Hhl; destruct Hhl as (l & Egl).
  exists l, (ap_lang ap), (ap_word ap), (loading_result (pg_view (ap_page ap)) (ap_lang ap) (ap_word ap)).
  destruct (C70_shows_partial worker manifest (ap_page ap) (ap_lang ap) (ap_word ap) Hw (v_reached _ _ _ _ Hi) Hpr Hty) as [S1 S2].
  split; [reflexivity|]; split; [exact Egl|]; split; [|split; [exact Ew|split; [|split; [apply defined_spec; exact Hk1|]]]].
  - intros Hn; rewrite El; unfold app_lang; rewrite Egl; destruct l; [congruence|reflexivity].
  - intros E; assert (param_has p (lit "word") = false) as En'.
    { destruct (param_has p (lit "word")) eqn:E'; [|reflexivity]; apply has_get in E'; destruct E' as (w & E'); congruence. }
    rewrite En' in Hhw, Hk2; split; [destruct Hk2 as [H|H]; [exact H|discriminate]|destruct Hhw as [H|H]; [discriminate|exact H]].
  - split; [exact Htitle|]; split; [exact Hpr|]; split; [exact Hty|]; split; [|exact S2]; intros H; apply S1; left; exact H.
Qed.
Print Assumptions C90_shows.

(** The component is removed for languages there are not, and only for them. *)
Theorem C90_thrown : forall worker tests manifest ap,
  manifest <> [] -> Forall language manifest -> (forall lang, Forall js_units (tests lang)) ->
  app_reached worker tests manifest ap -> ap_thrown ap = true ->
  let p := search_params (ad_search (ap_addr ap)) in
  exists l, param_get p (lit "lang") = Some l /\ l <> [] /\ ~ In l (v_specs (pg_view (ap_page ap))) /\
    (In l object_prototype -> param_get p (lit "word") = None).
Proof.
  intros worker tests manifest ap Hne Hl Ht Hr Hth p; pose proof (inv_app _ _ _ _ Hne Hl Ht Hr) as Hi.
  destruct (v_unknown _ _ _ _ Hi Hth) as (_ & Hn & Hp & sample & Hs & El); fold p in Hp, El.
  exists (ap_lang ap); unfold app_lang in El; destruct (param_get p (lit "lang")) as [[|u l]|]; cbn [js_empty] in El; [rewrite El in Hn; contradiction| |rewrite El in Hn; contradiction].
  rewrite El in *; split; [reflexivity|]; split; [discriminate|]; split; [exact Hn|]; intros H; specialize (Hp H).
  destruct (param_get p (lit "word")) as [w|] eqn:E; [|reflexivity]; rewrite (proj2 (has_get p (lit "word")) (ex_intro _ _ E)) in Hp; discriminate.
Qed.
Print Assumptions C90_thrown.

(** From an address with a language there is and a word, the page comes to show them. *)
Lemma steps_reached worker tests manifest n ap ap' : app_reached worker tests manifest ap -> app_steps worker tests n ap ap' ->
  app_reached worker tests manifest ap'.
Proof. intros Hr H; induction H as [|n ap ap1 ap2 Hs H IH]; [exact Hr|]; apply IH; eapply app_reached_step; eassumption. Qed.
Theorem C90_settled : forall worker tests manifest n ap ap' l w,
  (forall lang word, exists o, worker lang word o) -> manifest <> [] -> Forall language manifest -> (forall lang, Forall js_units (tests lang)) ->
  app_reached worker tests manifest ap -> ap_thrown ap = false -> ap_fresh ap = false ->
  param_get (search_params (ad_search (ap_addr ap))) (lit "lang") = Some l -> param_get (search_params (ad_search (ap_addr ap))) (lit "word") = Some w ->
  In l (v_specs (pg_next (ap_page ap))) ->
  app_steps worker tests n ap ap' -> app_rest worker tests ap' ->
  ap_thrown ap' = false /\ ap_addr ap' = ap_addr ap /\ at_rest worker (ap_page ap') /\ typed (ap_page ap') = (l, w) /\ In l (v_specs (pg_view (ap_page ap'))) /\
  ap_title ap' = (if js_empty w then page_name else page_name ++ [0x3A; 0x20]%N ++ w) /\
  exists r, app_shows ap' = (l, w, r) /\
    ((forall u, In u w -> js_space u = true) -> r = (false, [])) /\
    ((exists u, In u w /\ js_space u = false) -> exists o, worker l w o /\ forall v, o = Some v -> v <> [] -> r = (false, v)).
Proof.
  intros worker tests manifest n ap ap' l w Hw Hne Hl Ht Hr Hth Hf Eg Ew Hin Hs Hrest.
  assert (l <> []) as Hln by (pose proof (inv_app _ _ _ _ Hne Hl Ht Hr) as Hi; pose proof (v_langs _ _ _ _ Hi) as H; rewrite Forall_forall in H; apply (H _ Hin)).
  assert (ap_thrown ap' = false /\ ap_addr ap' = ap_addr ap /\ In l (v_specs (pg_next (ap_page ap'))) /\ app_reached worker tests manifest ap') as (Hth' & Ea & Hin' & Hr').
  { assert (ap_fresh ap = true -> In l (v_specs (pg_view (ap_page ap)))) as Hfv by congruence.
    clear Hf Hrest; induction Hs as [ap|n ap ap1 ap2 Hs Hss IH]; [auto|].
    pose proof (inv_app _ _ _ _ Hne Hl Ht Hr) as Hi; pose proof (visited_current _ (v_visited _ _ _ _ Hi)) as Ec.
    assert (app_reached worker tests manifest ap1) as Hr1 by (eapply app_reached_step; eassumption).
    assert (ap_thrown ap1 = false /\ ap_addr ap1 = ap_addr ap /\ In l (v_specs (pg_next (ap_page ap1))) /\
            (ap_fresh ap1 = true -> In l (v_specs (pg_view (ap_page ap1))))) as (H1 & H2 & H3 & H4).
    { destruct Hs as [ap sample _ Hf Hc Hs|ap example _ Hf Hex|ap pg _ Hp Ev Ee].
      - unfold app_render, rendered; cbn [ap_thrown ap_addr ap_page ap_fresh render pg_next pg_view].
        rewrite Ec; assert (app_lang sample (search_params (ad_search (ap_addr ap))) = l) as -> by (unfold app_lang; rewrite Eg; destruct l; [congruence|reflexivity]).
        split; [|auto]; apply negb_false_iff, defined_spec; left; exact Hin.
      - destruct (v_seen _ _ _ _ Hi (v_still _ _ _ _ Hi Hf)) as (sample & _ & _ & El & _).
        assert (ap_lang ap = l) as El' by (rewrite El; unfold app_lang; rewrite Eg; destruct l; [congruence|reflexivity]).
        set (pg := if pg_effect (ap_page ap) then run_effect (ap_page ap) else ap_page ap).
        assert (pg_view pg = pg_view (ap_page ap) /\ v_specs (pg_next pg) = v_specs (pg_next (ap_page ap))) as (Ev & Es)
          by (unfold pg; destruct (pg_effect (ap_page ap)) eqn:E; [split; apply run_keeps|auto]).
        unfold app_effects; cbv zeta; fold pg; rewrite El', Ev.
        assert (existsb (beqb l) (v_specs (pg_view (ap_page ap))) = true) as -> by (apply own_spec; auto); cbn [negb andb].
        cbn [ap_thrown ap_addr ap_page ap_fresh]; split; [reflexivity|]; split; [|split; [|discriminate]].
        + unfold redirect, redirects; rewrite Ec, (proj2 (has_get _ (lit "lang")) (ex_intro _ _ Eg)), (proj2 (has_get _ (lit "word")) (ex_intro _ _ Ew)).
          destruct example; reflexivity.
        + destruct (match ap_sent ap with Some _ => _ | None => _ end); cbn [set_input pg_next v_specs]; rewrite Es; exact Hin.
      - cbn [with_page ap_thrown ap_addr ap_page ap_fresh]; destruct (page_kinds _ _ _ Hp) as [(He & Hn & ->)|[(He & ->)|(_ & _ & Es & _)]].
        + exfalso; apply Hn; rewrite <- Ev; reflexivity.
        + destruct (run_keeps (ap_page ap)) as (_ & E & _); congruence.
        + rewrite Es, Ev; auto. }
    destruct (IH Hr1 H1) as (A & B & C); [rewrite H2; assumption..|assumption|exact H4|]; split; [exact A|]; split; [congruence|exact C]. }
  destruct (C90_shows _ _ _ _ Hw Hne Hl Ht Hr' Hrest Hth') as (l1 & lang & word & r & Esh & Eg1 & Hl1 & Ew1 & _ & _ & Eti & Hpr & Hty & S1 & S2).
  rewrite Ea in Eg1, Ew1; rewrite Eg in Eg1; injection Eg1 as <-; rewrite Ew in Ew1; rewrite (Hl1 Hln) in *; subst word.
  destruct (rest_view _ _ Hpr) as [_ Ev]; rewrite <- Ev in Hin'.
  split; [exact Hth'|]; split; [exact Ea|]; split; [exact Hpr|]; split; [exact Hty|]; split; [exact Hin'|]; split; [exact Eti|].
  exists r; split; [exact Esh|]; split; [exact S1|]; intros H; exact (S2 H Hin').
Qed.
Print Assumptions C90_settled.

(** What is typed, and the language that is chosen *)
Lemma change_get a lang word : visited a -> js_units lang -> js_units word ->
  let p := search_params (ad_search (handle_change lang word a)) in
  param_get p (lit "lang") = Some (usv_string lang) /\ param_get p (lit "word") = Some (usv_string word).
Proof.
  intros Ha Hl Hw p; pose proof (visited_good a Ha) as [Ht _].
  set (q := param_set (param_set (ad_first a) (lit "lang") lang) (lit "word") word).
  assert (texts q) as Hq by (unfold q; repeat apply set_texts; auto using lang_text, word_text).
  assert (p = q) as -> by (unfold p, handle_change; cbn [navigate ad_search]; apply C77_serialized; exact Hq).
  unfold q; split; rewrite get_set by exact word_text; [|reflexivity]; change (beqb (lit "word") (lit "lang")) with false; cbv iota.
  rewrite get_set by exact lang_text; reflexivity.
Qed.
Theorem C90_changed : forall worker tests manifest n ap ap1 ap' lang word,
  (forall lang word, exists o, worker lang word o) -> manifest <> [] -> Forall language manifest -> (forall lang, Forall js_units (tests lang)) ->
  app_reached worker tests manifest ap -> js_units word -> In lang (v_specs (pg_next (ap_page ap))) ->
  outer_step ap ap1 -> ap1 = with_addr ap (handle_change lang word (ap_addr ap)) ->
  app_steps worker tests n ap1 ap' -> app_rest worker tests ap' ->
  ap_thrown ap' = false /\ ad_search (ap_addr ap') = ad_search (handle_change lang word (ap_addr ap)) /\
  exists r, app_shows ap' = (lang, usv_string word, r) /\
    ((forall u, In u (usv_string word) -> js_space u = true) -> r = (false, [])) /\
    ((exists u, In u (usv_string word) /\ js_space u = false) ->
     exists o, worker lang (usv_string word) o /\ forall v, o = Some v -> v <> [] -> r = (false, v)).
Proof.
  intros worker tests manifest n ap ap1 ap' lang word Hw Hne Hl Ht Hr Hu Hin Ho E1 Hs Hrest.
  pose proof (inv_app _ _ _ _ Hne Hl Ht Hr) as Hi.
  assert (language lang) as (Hln & Hlu & Hlt) by (pose proof (v_langs _ _ _ _ Hi) as H; rewrite Forall_forall in H; exact (H _ Hin)).
  assert (ap_thrown ap = false /\ ap_fresh ap = false) as [Hth Hf] by (destruct Ho; auto).
  destruct (change_get (ap_addr ap) lang word (v_visited _ _ _ _ Hi) Hlu Hu) as [G1 G2]; rewrite Hlt in G1.
  assert (app_reached worker tests manifest ap1) as Hr1 by (eapply app_reached_outer; eassumption).
  destruct (C90_settled worker tests manifest n ap1 ap' lang (usv_string word) Hw Hne Hl Ht Hr1) as (A1 & A2 & _ & _ & _ & _ & A3); subst ap1; try assumption.
  split; [exact A1|]; split; [rewrite A2; reflexivity|exact A3].
Qed.
Print Assumptions C90_changed.

(** The link of an example *)
Theorem C90_link : forall worker tests manifest n ap ap' lang word search,
  (forall lang word, exists o, worker lang word o) -> manifest <> [] -> Forall language manifest -> (forall lang, Forall js_units (tests lang)) ->
  app_reached worker tests manifest ap -> ap_thrown ap = false -> ap_fresh ap = false ->
  In lang (v_specs (pg_next (ap_page ap))) -> link_safe lang -> link_safe word -> (exists w u, word = w ++ [u] /\ (0x20 < u)%N) ->
  search = parse_path (example_link lang word) \/ search = url_query (parse_path (example_link lang word)) ->
  app_steps worker tests n (with_addr ap (navigate (ap_addr ap) search)) ap' -> app_rest worker tests ap' ->
  ap_thrown ap' = false /\
  exists r, app_shows ap' = (lang, word, r) /\
    ((exists u, In u word /\ js_space u = false) -> exists o, worker lang word o /\ forall v, o = Some v -> v <> [] -> r = (false, v)).
Proof.
  intros worker tests manifest n ap ap' lang word search Hw Hne Hl Ht Hr Hth Hf Hin Hsl Hsw (w0 & u0 & Ew & Hu0) Hse Hs Hrest.
  pose proof (inv_app _ _ _ _ Hne Hl Ht Hr) as Hi.
  assert (language lang) as (Hln & Hlu & Hlt) by (pose proof (v_langs _ _ _ _ Hi) as H; rewrite Forall_forall in H; exact (H _ Hin)).
  assert (app_reached worker tests manifest (with_addr ap (navigate (ap_addr ap) search))) as Hr1 by (eapply app_reached_outer; [exact Hr|apply outer_goes; assumption]).
  destruct (C78_link_partial (ap_addr ap) lang word search (v_visited _ _ _ _ Hi) Hsl Hln Hsw) as (V & L & W & _ & _); [|exact Hse|].
  { intros w u E; rewrite E in Ew; apply app_inj_tail in Ew; destruct Ew as [_ ->]; exact Hu0. }
  rewrite (visited_current _ V) in L, W.
  destruct (C90_settled worker tests manifest n _ ap' lang word Hw Hne Hl Ht Hr1) as (A1 & A2 & _ & _ & _ & _ & r & A3 & _ & A4); try assumption.
  - specialize (L []); unfold app_lang in L; cbn [with_addr ap_addr]; destruct (param_get _ (lit "lang")) as [[|u l]|]; cbn [js_empty] in L; congruence.
  - unfold app_word in W; cbn [with_addr ap_addr]; destruct (param_get _ (lit "word")); [congruence|]; rewrite <- W in Ew; destruct w0; discriminate.
  - split; [exact A1|]; exists r; auto.
Qed.
Print Assumptions C90_link.

(** With the module as the worker: what is shown is what Hangulize returns. *)
Theorem C90_page : forall H c0 order0 nfc readings tokenize order specs translits methods cache0 manifest_langs tests n ap ap1 ap' lang word src s0 c,
  (forall lang, choices_ok (c0 lang)) -> (forall l, Permutation l (order0 l)) -> choices_ok c ->
  manifest bundled_files c0 order0 = Ok (specs, translits) -> methods_of translits methods ->
  (forall word, tokens_ok (tokenize word)) -> (forall c t, lookup CyrDict.cyr_dict c = Some t -> Permutation t (order c t)) ->
  cached_ok bundled_files cache0 ->
  manifest_langs <> [] -> Forall language manifest_langs -> (forall lang, Forall js_units (tests lang)) ->
  let worker := page_answer H cache0 nfc readings tokenize order methods in
  app_reached worker tests manifest_langs ap -> js_units word -> In lang (v_specs (pg_next (ap_page ap))) ->
  outer_step ap ap1 -> ap1 = with_addr ap (handle_change lang word (ap_addr ap)) ->
  app_steps worker tests n ap1 ap' -> app_rest worker tests ap' ->
  (exists u, In u (usv_string word) /\ js_space u = false) ->
  lookup bundled_files (specs_dir ++ text_encode lang ++ ext) = Some src -> parse_spec choices0 src = Ok s0 ->
  stays_plain (installed nfc readings tokenize order) (l_translit (s_lang s0)) (text_encode (usv_string word)) ->
  forall cache1 out,
    hangulize H bundled_files c [] (installed nfc readings tokenize order) tt (text_encode lang) (text_encode (usv_string word)) = (cache1, tt, Ok (out, None)) ->
    text_decode out <> [] -> app_shows ap' = (lang, usv_string word, (false, text_decode out)).
Proof.
  intros H c0 order0 nfc readings tokenize order specs translits methods cache0 manifest_langs tests n ap ap1 ap' lang word src s0 c
    Hc0 Ho0 Hc Em Hm Htok Ho Hca Hne Hl Ht worker Hr Hu Hin Hout E1 Hs Hrest Hvis Es E0 Hp cache1 out E Hno.
  assert (forall l w, exists o, worker l w o) as Hw by (intros l w; eapply C75_answers; eassumption).
  pose proof (inv_app _ _ _ _ Hne Hl Ht Hr) as Hi.
  assert (language lang) as (Hln & Hlu & Hlt) by (pose proof (v_langs _ _ _ _ Hi) as Hx; rewrite Forall_forall in Hx; exact (Hx _ Hin)).
  assert (ap_thrown ap = false /\ ap_fresh ap = false) as [Hth Hf] by (destruct Hout; auto).
  destruct (change_get (ap_addr ap) lang word (v_visited _ _ _ _ Hi) Hlu Hu) as [G1 G2]; rewrite Hlt in G1.
  assert (app_reached worker tests manifest_langs ap1) as Hr1 by (eapply app_reached_outer; eassumption).
  pose proof (steps_reached _ _ _ _ _ _ Hr1 Hs) as Hr'; pose proof (inv_app _ _ _ _ Hne Hl Ht Hr') as Hi'.
  destruct (C90_settled worker tests manifest_langs n ap1 ap' lang (usv_string word) Hw Hne Hl Ht Hr1) as (_ & _ & A3 & A4 & A5 & _ & r & A6 & _); subst ap1; try assumption.
  unfold app_shows in *; injection A6 as B1 B2 B3; rewrite B1, B2; f_equal.
  eapply C75_shows_partial; try eassumption; apply Hi'.
Qed.
Print Assumptions C90_page.

(** ** C91 The page comes to rest *)
Definition no_tests (l : list jstring) : bool := match l with [] => true | _ => false end.
Definition needs (tests : jstring -> list jstring) (p : params) : bool :=
  match param_get p (lit "lang") with None => true | Some l => negb (param_has p (lit "word")) && negb (no_tests (tests l)) end.
Definition told (ap : app) (p : params) : bool :=
  match ap_sent ap, param_get p (lit "lang") with
  | Some (lang, word), Some l => beqb lang l && beqb word (app_word p)
  | _, _ => false
  end.
Definition app_cost tests (ap : app) : nat :=
  let p := search_params (ad_search (ap_addr ap)) in
  3 * cost (ap_page ap) + (if ap_fresh ap then 1 else 0) + (if ap_moved ap then 5 else 0) + (if told ap p then 0 else 40) +
  (if needs tests p then 100 else 0).

Lemma cost_input pg lang word : cost (set_input pg lang word) <= cost pg + 11.
Proof.
  unfold cost, set_input; cbn [pg_next pg_view pg_effect pg_timers pg_promises pg_jobs].
  match goal with |- context [view_eq_dec ?a ?b] => pose proof (unequal_cost a b) end.
  destruct (same_deps _ (pg_view pg)); destruct (same_deps (pg_next pg) (pg_view pg)); lia.
Qed.
Lemma cost_render pg : pg_effect pg = false -> cost (render pg) + (if view_eq_dec (pg_next pg) (pg_view pg) then 0 else 1) <= cost pg.
Proof.
  intros He; destruct (view_eq_dec (pg_next pg) (pg_view pg)) as [E|E]; [rewrite (render_same pg He E); lia|].
  pose proof (cost_step (fun _ _ _ => False) pg _ (step_render _ pg He E)); lia.
Qed.
Lemma redirected_get lang example p :
  param_get (redirected lang example p) (lit "lang") = match param_get p (lit "lang") with Some l => Some l | None => Some (usv_string lang) end /\
  param_has (redirected lang example p) (lit "word") = (param_has p (lit "word") || match example with Some _ => true | None => false end)%bool.
Proof.
  assert (forall q m v n, text m -> param_has (param_set q m v) n = (beqb m n || param_has q n)%bool) as Hhas.
  { intros q m v n Hm; pose proof (get_set q m v n Hm) as G; destruct (beqb m n); cbn [orb].
    - apply has_get; eexists; exact G.
    - destruct (param_has q n) eqn:E; [apply has_get in E; destruct E as (x & E); apply has_get; exists x; congruence|].
      destruct (param_has (param_set q m v) n) eqn:E'; [|reflexivity]; apply has_get in E'; destruct E' as (x & E'); rewrite G in E'.
      rewrite (proj2 (has_get q n) (ex_intro _ _ E')) in E; discriminate. }
  unfold redirected; set (p1 := if param_has p (lit "lang") then p else _).
  assert (param_get p1 (lit "lang") = match param_get p (lit "lang") with Some l => Some l | None => Some (usv_string lang) end /\
          param_has p1 (lit "word") = param_has p (lit "word")) as [G1 G2].
  { unfold p1; destruct (param_has p (lit "lang")) eqn:E.
    - apply has_get in E; destruct E as (l & E); rewrite E; auto.
    - split; [|rewrite (Hhas _ _ _ _ lang_text); reflexivity]; rewrite get_set by exact lang_text; change (beqb (lit "lang") (lit "lang")) with true; cbv iota.
      destruct (param_get p (lit "lang")) as [l|] eqn:E'; [|reflexivity]; rewrite (proj2 (has_get p (lit "lang")) (ex_intro _ _ E')) in E; discriminate. }
  destruct example as [w|]; [|rewrite orb_false_r; auto].
  destruct (param_has p1 (lit "word")) eqn:E; [rewrite <- G2; auto|]; rewrite <- G2; split.
  - rewrite get_set by exact word_text; exact G1.
  - rewrite (Hhas _ _ _ _ word_text); reflexivity.
Qed.
Lemma has_none p n : param_has p n = false <-> param_get p n = None.
Proof.
  pose proof (has_get p n) as [H1 H2]; destruct (param_get p n) as [v|]; [rewrite (H2 (ex_intro _ _ eq_refl)); split; discriminate|].
  split; [reflexivity|]; intros _; destruct (param_has p n); [destruct (H1 eq_refl); discriminate|reflexivity].
Qed.

Lemma app_cost_step worker tests manifest ap ap' : (forall lang, Forall js_units (tests lang)) -> app_inv worker tests manifest ap ->
  param_get (search_params (ad_search (ap_addr ap))) (lit "lang") <> Some [] -> app_step worker tests ap ap' ->
  app_cost tests ap' < app_cost tests ap /\ param_get (search_params (ad_search (ap_addr ap'))) (lit "lang") <> Some [].
Proof.
  intros Ht Hi Hg Hs; pose proof (visited_current _ (v_visited _ _ _ _ Hi)) as Ec.
  destruct Hs as [ap sample Hth Hf Hc Hs|ap example Hth Hf Hex|ap pg Hth Hp Ev Ee].
  - split; [|exact Hg]; pose proof (cost_render (ap_page ap) (v_none _ _ _ _ Hi Hf)) as Hr.
    unfold app_cost, app_render, rendered, told; cbn [ap_page ap_addr ap_moved ap_sent ap_fresh]; rewrite Hf.
    destruct (view_eq_dec (pg_next (ap_page ap)) (pg_view (ap_page ap))) as [E|E]; destruct (ap_moved ap) eqn:Em; try lia.
    destruct Hc as [Hc|Hc]; congruence.
  - pose proof (v_still _ _ _ _ Hi Hf) as Hm; destruct (v_seen _ _ _ _ Hi Hm) as (sample & Hsl & Hsi & El & Ew).
    set (p := search_params (ad_search (ap_addr ap))) in *.
    set (pg := if pg_effect (ap_page ap) then run_effect (ap_page ap) else ap_page ap).
    assert (cost pg <= cost (ap_page ap)) as Hpg.
    { unfold pg; destruct (pg_effect (ap_page ap)) eqn:E; [|lia]; pose proof (cost_step (fun _ _ _ => False) _ _ (step_effect _ _ E)); lia. }
    unfold app_effects; cbv zeta; fold pg; rewrite Ec.
    destruct (negb (existsb _ _) && _) eqn:Eth.
    { split; [|exact Hg]; unfold app_cost, told; cbn [ap_page ap_addr ap_moved ap_sent ap_fresh]; rewrite Hf; lia. }
    clear Eth; set (sent := match ap_sent ap with Some _ => _ | None => _ end).
    set (pg' := if sent then pg else set_input pg (ap_lang ap) (ap_word ap)).
    assert (cost pg' <= cost pg + if sent then 0 else 11) as Hpg' by (unfold pg'; destruct sent; [lia|apply cost_input]).
    assert (forall w, example = Some w -> js_units w) as Hwu.
    { intros w ->; pose proof (Ht (ap_lang ap)) as H; rewrite Forall_forall in H; exact (H _ Hex). }
    unfold app_cost, told; cbn [ap_page ap_addr ap_moved ap_sent ap_fresh ap_lang ap_word]; rewrite Hf, Hm; fold p.
    fold (told ap p).
    destruct (redirects example p) eqn:Er.
    + assert (search_params (ad_search (redirect (ap_lang ap) example (ap_addr ap))) = redirected (ap_lang ap) example p) as Ep'.
      { unfold redirect; rewrite Ec; fold p; rewrite Er; cbn [navigate ad_search]; apply C77_serialized; apply redirected_texts; [apply search_texts|apply Hi|exact Hwu]. }
      rewrite Ep'; destruct (redirected_get (ap_lang ap) example p) as [G1 G2].
      assert (param_get (redirected (ap_lang ap) example p) (lit "lang") = Some (ap_lang ap) /\ ap_lang ap <> []) as [G3 Hne].
      { rewrite G1; unfold app_lang in El; destruct (param_get p (lit "lang")) as [[|u l]|]; cbn [js_empty] in El; [exfalso; apply Hg; reflexivity|rewrite El; split; [reflexivity|discriminate]|].
        destruct Hsl as (S1 & _ & S3); rewrite El, S3; split; [reflexivity|exact S1]. }
      assert (needs tests (redirected (ap_lang ap) example p) = false) as Hn1.
      { unfold needs; rewrite G3, G2; destruct example as [w|]; [rewrite orb_true_r; reflexivity|]; rewrite Hex; apply andb_false_r. }
      assert (needs tests p = true) as Hn0.
      { unfold redirects in Er; apply orb_true_iff in Er; unfold needs; destruct Er as [Er|Er].
        - apply negb_true_iff, has_none in Er; rewrite Er; reflexivity.
        - destruct example as [w|]; [|discriminate]; destruct (param_get p (lit "lang")) as [l|] eqn:E; [|reflexivity]; rewrite Er; cbn [andb].
          unfold app_lang in El; rewrite E in El; destruct l as [|u l]; [congruence|]; cbn [js_empty] in El; rewrite <- El.
          destruct (tests (ap_lang ap)); [destruct Hex|reflexivity]. }
      rewrite Hn1, Hn0, G3; split; [|congruence].
      destruct (beqb (ap_lang ap) (ap_lang ap) && _), (told ap p), sent; lia.
    + assert (redirect (ap_lang ap) example (ap_addr ap) = ap_addr ap) as -> by (unfold redirect; rewrite Ec; fold p; rewrite Er; reflexivity).
      fold p; split; [|exact Hg].
      assert (param_has p (lit "lang") = true) as Hh by (unfold redirects in Er; apply orb_false_iff in Er; destruct Er as [Er _]; apply negb_false_iff; exact Er).
      apply has_get in Hh; destruct Hh as (l & Egl).
      assert (ap_lang ap = l) as Ell by (rewrite El; unfold app_lang; rewrite Egl; destruct l; [exfalso; exact (Hg Egl)|reflexivity]).
      assert (told ap p = sent) as Etold.
      { unfold told, sent; rewrite Egl, <- Ell, <- Ew; destruct (ap_sent ap) as [[x y]|]; reflexivity. }
      rewrite Etold, Egl, <- Ell, <- Ew.
      assert (beqb (ap_lang ap) (ap_lang ap) && beqb (ap_word ap) (ap_word ap) = true)%bool as -> by (apply andb_true_iff; split; apply beqb_eq; reflexivity).
      destruct sent; lia.
  - split; [|exact Hg]; apply cost_step in Hp; unfold app_cost, with_page, told; cbn [ap_page ap_addr ap_moved ap_sent ap_fresh]; lia.
Qed.

(** Without anything from outside the page makes a bounded number of steps, if there is no
    empty language in its address. *)
Theorem C91_rests_partial : forall worker tests manifest ap,
  manifest <> [] -> Forall language manifest -> (forall lang, Forall js_units (tests lang)) -> app_reached worker tests manifest ap ->
  param_get (search_params (ad_search (ap_addr ap))) (lit "lang") <> Some [] ->
  exists bound, forall n ap', app_steps worker tests n ap ap' -> n <= bound.
Proof.
  intros worker tests manifest ap Hne Hl Ht Hr Hg; exists (app_cost tests ap); intros n ap' H; induction H as [|n ap ap1 ap2 Hs H IH]; [lia|].
  pose proof (inv_app _ _ _ _ Hne Hl Ht Hr) as Hi; destruct (app_cost_step _ _ _ _ _ Ht Hi Hg Hs) as [Hc Hg1].
  specialize (IH (app_reached_step _ _ _ _ _ Hr Hs) Hg1); lia.
Qed.
Print Assumptions C91_rests_partial.

(** With an empty language in the address, each rendering chooses another one, which is another
    input, and so on forever. *)
Lemma draws_on worker tests ap a b : (forall lang, tests lang = []) -> a <> b ->
  In a (v_specs (pg_next (ap_page ap))) -> In b (v_specs (pg_next (ap_page ap))) ->
  param_get (current_params (ap_addr ap)) (lit "lang") = Some [] -> param_get (current_params (ap_addr ap)) (lit "word") <> None ->
  ap_thrown ap = false -> ap_fresh ap = false -> pg_effect (ap_page ap) = false ->
  pg_next (ap_page ap) <> pg_view (ap_page ap) ->
  v_input (pg_next (ap_page ap)) < length (pg_inputs (ap_page ap)) ->
  forall n, exists ap', app_steps worker tests n ap ap'.
Proof.
  intros Ht Hab Ha Hb Hg Hgw Hth Hf He Hn Hv n; revert ap Ha Hb Hg Hgw Hth Hf He Hn Hv; induction n as [n IH] using lt_wf_ind; intros ap Ha Hb Hg Hgw Hth Hf He Hn Hv.
  assert (exists c, In c (v_specs (pg_next (ap_page ap))) /\ forall w, ap_sent ap <> Some (c, w)) as (c & Hc & Hcs).
  { destruct (ap_sent ap) as [[l w]|]; [|exists a; split; [exact Ha|discriminate]].
    destruct (list_eq_dec N.eq_dec l a) as [->|E]; [exists b|exists a]; (split; [assumption|]); intros w' E'; injection E' as E1 E2; congruence. }
  destruct n as [|n]; [exists ap; constructor|].
  set (ap1 := app_render c ap).
  assert (app_step worker tests ap ap1) as S1 by (apply app_draws; auto).
  assert (ap_lang ap1 = c) as Elc by (unfold ap1, app_render, rendered; cbn [ap_lang]; unfold app_lang; rewrite Hg; reflexivity).
  assert (ap_thrown ap1 = false) as Ht1.
  { unfold ap1, app_render, rendered; cbn [ap_thrown]; unfold app_lang; rewrite Hg; cbn [js_empty]; apply negb_false_iff, defined_spec; left; exact Hc. }
  destruct n as [|n]; [exists ap1; eapply app_steps_more; [exact S1|constructor]|].
  set (ap2 := app_effects None ap1).
  assert (app_step worker tests ap1 ap2) as S2 by (apply app_runs; [exact Ht1|reflexivity|apply Ht]).
  assert (param_has (current_params (ap_addr ap)) (lit "lang") = true) as Hhl by (apply has_get; eauto).
  set (pg := if pg_effect (ap_page ap1) then run_effect (ap_page ap1) else ap_page ap1).
  assert (pg_view pg = pg_next (ap_page ap) /\ pg_effect pg = false /\ v_specs (pg_next pg) = v_specs (pg_next (ap_page ap)) /\
          pg_inputs pg = pg_inputs (ap_page ap)) as (Ev & Ee & Es & Ei).
  { unfold pg; destruct (pg_effect (ap_page ap1)) eqn:E; [apply (run_keeps (ap_page ap1))|repeat split; exact E]. }
  assert (ap2 = {| ap_page := set_input pg c (ap_word ap1); ap_addr := ap_addr ap; ap_moved := false; ap_lang := c; ap_word := ap_word ap1;
                   ap_sent := Some (c, ap_word ap1); ap_title := app_title (ap_word ap1); ap_fresh := false; ap_thrown := false |}) as E2.
  { unfold ap2, app_effects; cbv zeta; fold pg; rewrite Elc.
    assert (existsb (beqb c) (v_specs (pg_view pg)) = true) as -> by (apply own_spec; rewrite Ev; exact Hc); cbn [negb andb].
    change (ap_addr ap1) with (ap_addr ap); change (ap_sent ap1) with (ap_sent ap).
    assert (redirects None (current_params (ap_addr ap)) = false) as Er by (unfold redirects; rewrite Hhl; reflexivity).
    unfold redirect; rewrite Er.
    assert (match ap_sent ap with Some (lang, word) => beqb lang c && beqb word (ap_word ap1) | None => false end = false)%bool as ->.
    { destruct (ap_sent ap) as [[l w]|]; [|reflexivity]; destruct (beqb l c) eqn:E; [|reflexivity]; apply beqb_eq in E; subst l; destruct (Hcs w eq_refl). }
    reflexivity. }
  destruct (IH n) with (ap := ap2) as (ap' & Hrun); rewrite ?E2; cbn [ap_page ap_addr ap_moved ap_lang ap_word ap_sent ap_title ap_fresh ap_thrown set_input pg_next pg_view pg_effect pg_inputs v_specs v_input];
    try reflexivity; try assumption; try (rewrite Es; assumption); try lia.
  - intros E; apply (f_equal v_input) in E; cbn [v_input] in E; rewrite Ev, Ei in E; lia.
  - rewrite app_length; cbn [length]; lia.
  - exists ap'; eapply app_steps_more; [exact S1|]; eapply app_steps_more; [exact S2|]; rewrite E2 in Hrun |- *; exact Hrun.
Qed.
Definition two_languages : list jstring := [lit "ita"; lit "eng"].
Lemma two_language : Forall language two_languages.
Proof. repeat constructor; try discriminate; cbn; lia. Qed.
Theorem C91_rests_refuted : forall worker, exists tests manifest ap, Forall language manifest /\ app_reached worker tests manifest ap /\
  ad_search (ap_addr ap) = lit "?lang=&word=a" /\ ap_thrown ap = false /\ forall n, exists ap', app_steps worker tests n ap ap'.
Proof.
  intros worker; exists (fun _ => []), two_languages.
  set (ap0 := first_app two_languages (lit "?lang=&word=a") (lit "ita")).
  assert (app_step worker (fun _ => []) ap0 (app_effects None ap0)) as S1 by (apply app_runs; reflexivity).
  exists (app_effects None ap0); split; [exact two_language|]; split; [|split; [reflexivity|split; [reflexivity|]]].
  - eapply app_reached_step; [apply app_first; left; reflexivity|exact S1].
  - apply draws_on with (lit "ita") (lit "eng"); try reflexivity; try discriminate; [left; reflexivity|right; left; reflexivity|vm_compute; lia].
Qed.
Print Assumptions C91_rests_refuted.

(** A first visit, with a worker that spells the word twice: the page chooses Italian and one of
    its examples, asks for it and shows the answer. *)
Lemma app_rest_intro worker tests ap : ap_fresh ap = false -> ap_moved ap = false -> pg_next (ap_page ap) = pg_view (ap_page ap) ->
  at_rest worker (ap_page ap) -> app_rest worker tests ap.
Proof.
  intros Hf Hm En Hr ap' Hs; destruct Hs as [ap sample _ _ Hc _|ap example _ H _|ap pg _ Hp _ _]; [destruct Hc; congruence|congruence|exact (Hr _ Hp)].
Qed.
Definition ex_worker (lang word : jstring) (o : option jstring) : Prop := o = Some (word ++ word).
Definition ex_tests (lang : jstring) : list jstring := [lit "ab"].
Definition ex_effects (ap : app) : app := app_effects (Some (lit "ab")) ap.
Definition ex_both (ap : app) : app := ex_effects (app_render (lit "ita") ap).
Definition ex_asks : app := Eval vm_compute in ex_both (ex_both (ex_both (ex_effects (first_app [lit "ita"] [] (lit "ita"))))).
Definition ex_answers : app := Eval vm_compute in
  with_page ex_asks (fulfil (ap_page ex_asks) [] (lit "ita") (lit "ab") (caught (Some (lit "abab"))) []).
Definition ex_ends : app := Eval vm_compute in with_page ex_answers (finish (ap_page ex_answers) [] 3 (lit "abab") []).
Definition ex_last : app := Eval vm_compute in ex_both ex_ends.
Lemma ex_both_reached ap : app_reached ex_worker ex_tests [lit "ita"] ap -> ap_thrown ap = false -> ap_fresh ap = false ->
  pg_next (ap_page ap) <> pg_view (ap_page ap) -> In (lit "ita") (v_specs (pg_next (ap_page ap))) ->
  ap_thrown (app_render (lit "ita") ap) = false -> app_reached ex_worker ex_tests [lit "ita"] (ex_both ap).
Proof.
  intros Hr Hth Hf Hn Hs Ht1; eapply app_reached_step; [eapply app_reached_step; [exact Hr|]|].
  - apply (app_draws _ _ ap (lit "ita")); auto.
  - apply app_runs; [exact Ht1|reflexivity|left; reflexivity].
Qed.
Example C90_example : app_reached ex_worker ex_tests [lit "ita"] ex_last /\ app_rest ex_worker ex_tests ex_last /\ ap_thrown ex_last = false /\
  ad_search (ap_addr ex_last) = lit "?lang=ita&word=ab" /\ app_shows ex_last = (lit "ita", lit "ab", (false, lit "abab")).
Proof.
  split; [|split; [|split; [reflexivity|split; reflexivity]]].
  - assert (app_reached ex_worker ex_tests [lit "ita"] ex_asks) as H3.
    { replace ex_asks with (ex_both (ex_both (ex_both (ex_effects (first_app [lit "ita"] [] (lit "ita")))))) by (vm_compute; reflexivity).
      repeat (apply ex_both_reached; [|vm_compute; try reflexivity; try discriminate; left; reflexivity..]).
      eapply app_reached_step; [apply app_first; left; reflexivity|]; apply app_runs; try reflexivity; left; reflexivity. }
    assert (app_reached ex_worker ex_tests [lit "ita"] ex_ends) as H5.
    { eapply app_reached_step; [eapply app_reached_step; [exact H3|]|].
      - apply (app_goes _ _ ex_asks (ap_page ex_answers)); [reflexivity| |reflexivity|reflexivity].
        apply (step_answer ex_worker (ap_page ex_asks) [] (lit "ita") (lit "ab") [] (Some (lit "abab"))); reflexivity.
      - apply (app_goes _ _ ex_answers (ap_page ex_ends)); [reflexivity| |reflexivity|reflexivity].
        apply (step_done ex_worker (ap_page ex_answers) [] 3 0 [] (lit "abab")); [reflexivity|]; exists (lit "ita"), (lit "ab"); reflexivity. }
    exact (ex_both_reached ex_ends H5 eq_refl eq_refl ltac:(discriminate) ltac:(left; reflexivity) eq_refl).
  - apply app_rest_intro; try reflexivity; apply rest_intro; try reflexivity; [intros j []|intros l w [H|[]]; discriminate].
Qed.
