(** C70, C71: the page in web/. *)
From Coq Require Import String Permutation.
From Verif Require Import GoBase Unicode Utf8Facts Web.

(** ** The invariant of the page *)

Section Page.
  Context (worker : jstring -> jstring -> option jstring -> Prop) (manifest : list jstring).

  Definition answered (pg : page) (i : nat) (v : jstring) : Prop :=
    exists o, worker (fst (input_of pg i)) (snd (input_of pg i)) o /\ v = caught o.
  Definition job_input (j : job) : nat := match j with Sleeping i | Waiting i _ | Running i _ => i end.
  Definition job_ok (pg : page) (j : job) : Prop :=
    (job_input j < length (pg_inputs pg))%nat /\
    match j with
    | Sleeping _ => True
    | Waiting _ p => (p < length (pg_promises pg))%nat
    | Running i p => exists o, nth_error (pg_promises pg) p = Some (fst (input_of pg i), snd (input_of pg i), o)
    end.
  Definition valid_at (pg : page) (specs : list jstring) (i : nat) : bool :=
    is_valid_input specs (fst (input_of pg i)) (snd (input_of pg i)).

  (** [e]: the dependencies of the effect that ran last *)
  Definition last_effect (pg : page) (e : option (nat * list jstring * nat)) : Prop :=
    match e with
    | None => pg_effect pg = true /\ pg_view pg = first_view manifest /\ pg_target pg = 0%nat
    | Some (ver, specs, i) =>
      (i <= v_input (pg_view pg) /\ ver <= v_version (pg_view pg) /\ pg_target pg <= i)%nat /\
      (ver = v_version (pg_view pg) -> specs = v_specs (pg_view pg)) /\
      (pg_effect pg = false -> ver = v_version (pg_view pg) /\ i = v_input (pg_view pg)) /\
      (pg_effect pg = true -> v_state (pg_view pg) <> Initializing /\
         ~ (ver = v_version (pg_view pg) /\ i = v_input (pg_view pg))) /\
      v_state (pg_next pg) <> Initializing /\
      (pg_target pg = i -> valid_at pg specs i = true \/ ver = 1%nat) /\
      (valid_at pg specs i = true -> pg_target pg = i /\
         (In i (map job_input (pg_jobs pg)) /\ pg_timer pg <> None \/
          answered pg i (v_result (pg_next pg)) /\ v_state (pg_next pg) = Idle /\ pg_timer pg = None)) /\
      (valid_at pg specs i = false -> v_state (pg_next pg) = Idle /\ pg_timer pg = None)
    end.
  Record inv (pg : page) (e : option (nat * list jstring * nat)) : Prop := {
    i_jobs : Forall (job_ok pg) (pg_jobs pg);
    i_promises : forall l w v, In (l, w, Some v) (pg_promises pg) -> exists o, worker l w o /\ v = caught o;
    i_processing : forall p, pg_processing pg = Some p -> (p < length (pg_promises pg))%nat;
    i_timers : pg_timers pg = [] \/ exists t, pg_timer pg = Some t /\ pg_timers pg = [t];
    i_first : exists rest, pg_inputs pg = ([], []) :: ([], []) :: rest;
    i_order : (v_input (pg_view pg) <= v_input (pg_next pg) < length (pg_inputs pg))%nat;
    i_version : (v_version (pg_view pg) <= v_version (pg_next pg) <= 1)%nat /\
                (v_version (pg_view pg) = v_version (pg_next pg) -> v_specs (pg_view pg) = v_specs (pg_next pg));
    i_last : last_effect pg e
  }.

  Lemma inv_first : inv (first_page manifest) None.
  Proof.
    split; cbn; auto; try lia.
    all: try (intros l w v []); try (intros p H; discriminate H); exists []; reflexivity.
  Qed.

  Lemma last_target pg e : inv pg e -> (pg_target pg < length (pg_inputs pg))%nat.
  Proof.
    intros Hi; pose proof (i_last _ _ Hi) as Hl; pose proof (i_order _ _ Hi); destruct e as [[[ver specs] i]|]; cbn in Hl; intuition lia.
  Qed.

  (** Jobs and promises *)
  Lemma job_ok_same pg pg' j :
    pg_inputs pg' = pg_inputs pg -> (exists more, pg_promises pg' = pg_promises pg ++ more) -> job_ok pg j -> job_ok pg' j.
  Proof.
    intros Ei (more & Ep) [H1 H2]; unfold job_ok, input_of; rewrite Ei, Ep; split; [exact H1|].
    destruct j as [i|i p|i p]; [exact I|rewrite app_length; lia|].
    destruct H2 as (o & H2); exists o; rewrite nth_error_app1; [exact H2|apply nth_error_Some; unfold rune in *; congruence].
  Qed.
  Lemma jobs_same pg pg' l :
    pg_inputs pg' = pg_inputs pg -> (exists more, pg_promises pg' = pg_promises pg ++ more) ->
    Forall (job_ok pg) l -> Forall (job_ok pg') l.
  Proof. intros Ei Ep; apply Forall_impl; intros j; apply job_ok_same; assumption. Qed.
  Lemma no_more (pg pg' : page) : pg_promises pg' = pg_promises pg -> exists more, pg_promises pg' = pg_promises pg ++ more.
  Proof. intros ->; exists []; symmetry; apply app_nil_r. Qed.

  Lemma job_parts pg l j r : Forall (job_ok pg) (pg_jobs pg) -> pg_jobs pg = l ++ j :: r ->
    Forall (job_ok pg) l /\ job_ok pg j /\ Forall (job_ok pg) r.
  Proof. intros H E; rewrite E in H; apply Forall_app in H; destruct H as [H1 H2]; inversion H2; auto. Qed.

  Lemma inv_timers_none pg e : inv pg e -> pg_timer pg = None -> pg_timers pg = [].
  Proof. intros Hi E; destruct (i_timers _ _ Hi) as [H|(t & H & _)]; [exact H|congruence]. Qed.

  Lemma clear_timers pg : (pg_timers pg = [] \/ exists t, pg_timer pg = Some t /\ pg_timers pg = [t]) -> pg_timers (clear_timer pg) = [].
  Proof.
    unfold clear_timer; cbn; intros [->|(t & -> & ->)]; [destruct (pg_timer pg); reflexivity|].
    cbn; rewrite Nat.eqb_refl; reflexivity.
  Qed.

  Definition deps (v : view) := (v_version v, v_specs v, v_input v).

  (** Rendering *)
  Lemma inv_render pg e : inv pg e -> pg_effect pg = false -> inv (render pg) e.
  Proof.
    intros Hi He; destruct Hi as [Hj Hp Hpr Ht Hf Ho Hv Hl].
    split; try assumption.
    - cbn; lia.
    - cbn; split; [lia|reflexivity].
    - destruct e as [[[ver specs] i]|]; [|cbn in Hl; destruct Hl; congruence].
      destruct Hl as ((H1 & H2 & H3) & H4 & H5 & H6 & H7 & H8 & H9 & H10); destruct (H5 He) as [Ev Ei].
      cbn; repeat split; auto; try lia; try (apply H9; assumption); try (apply H10; assumption).
      + intros E; rewrite <- (proj2 Hv) by lia; apply H4; exact Ev.
  Qed.

  Lemma ask_jobs pg l i r : (i < length (pg_inputs pg))%nat -> Forall (job_ok pg) l -> Forall (job_ok pg) r ->
    Forall (job_ok (ask pg l i r)) (pg_jobs (ask pg l i r)).
  Proof.
    intros Hi Hl Hr; cbn; assert (exists more, pg_promises (ask pg l i r) = pg_promises pg ++ more) as Hm by (eexists; reflexivity).
    apply Forall_app; split; [exact (jobs_same pg (ask pg l i r) l eq_refl Hm Hl)|]; constructor; [|exact (jobs_same pg (ask pg l i r) r eq_refl Hm Hr)].
    split; [exact Hi|]; exists None; cbn; rewrite nth_error_app2, Nat.sub_diag by lia; reflexivity.
  Qed.

  (** The facts about the effect that ran last, when nothing they speak of changes *)
  Lemma last_same pg pg' e :
    pg_view pg' = pg_view pg -> pg_effect pg' = pg_effect pg -> pg_target pg' = pg_target pg -> pg_inputs pg' = pg_inputs pg ->
    pg_next pg' = pg_next pg -> pg_timer pg' = pg_timer pg ->
    (forall i, i = pg_target pg -> In i (map job_input (pg_jobs pg)) -> In i (map job_input (pg_jobs pg'))) ->
    last_effect pg e -> last_effect pg' e.
  Proof.
    intros E1 E2 E3 E4 E5 E6 Hin; destruct e as [[[ver specs] i]|]; cbn; unfold valid_at, answered, input_of; [rewrite E1, E2, E3, E4, E5, E6|rewrite E1, E2, E3; auto].
    intros (H1 & H4 & H5 & H6 & H7 & H8 & H9 & H10); repeat split; auto; try tauto; try (apply H9; assumption); try (apply H10; assumption).
    - destruct (H9 H) as [Ea [[Hb Hc]|Hb]]; [left; split; [apply Hin; [congruence|exact Hb]|exact Hc]|right; exact Hb].
  Qed.

  Lemma inv_ask pg e l j r i : inv pg e -> pg_jobs pg = l ++ j :: r -> job_input j = i -> inv (ask pg l i r) e.
  Proof.
    intros Hi Ej Eij; pose proof (job_parts pg l j r (i_jobs _ _ Hi) Ej) as (H1 & [H2 _] & H3).
    destruct Hi as [Hj Hp Hpr Ht Hf Ho Hv Hl]; split; try assumption.
    - apply ask_jobs; [congruence|exact H1|exact H3].
    - cbn; intros lang w v Hin; apply in_app_or in Hin; destruct Hin as [Hin|[E|[]]]; [exact (Hp _ _ _ Hin)|discriminate].
    - cbn; intros p E; injection E as <-; rewrite app_length; cbn; lia.
    - revert Hl; apply last_same; try reflexivity; cbn; intros i' _; rewrite Ej, !map_app; cbn [map job_input].
      rewrite Eij; auto.
  Qed.

  Lemma inv_wait pg e l j r i : inv pg e -> pg_jobs pg = l ++ j :: r -> job_input j = i -> inv (wait pg l i r) e.
  Proof.
    intros Hi Ej Eij; unfold wait; destruct (pg_processing pg) as [p|] eqn:Ep; [|apply inv_ask with j; assumption].
    pose proof (job_parts pg l j r (i_jobs _ _ Hi) Ej) as (H1 & [H2 _] & H3).
    destruct Hi as [Hj Hp Hpr Ht Hf Ho Hv Hl]; split; try assumption.
    - eapply jobs_same; [reflexivity|apply no_more; reflexivity|]; cbn; apply Forall_app; split; [exact H1|constructor; [|exact H3]].
      split; [cbn; congruence|apply Hpr; exact Ep].
    - revert Hl; apply last_same; try reflexivity; cbn; intros i' _; rewrite Ej, !map_app; cbn [map job_input].
      rewrite Eij; auto.
  Qed.

  Lemma inv_drop pg e l j r : inv pg e -> pg_jobs pg = l ++ j :: r -> job_input j <> pg_target pg -> inv (with_jobs pg (l ++ r)) e.
  Proof.
    intros Hi Ej Hne; pose proof (job_parts pg l j r (i_jobs _ _ Hi) Ej) as (H1 & _ & H3).
    destruct Hi as [Hj Hp Hpr Ht Hf Ho Hv Hl]; split; try assumption.
    - eapply jobs_same; [reflexivity|apply no_more; reflexivity|]; cbn; apply Forall_app; auto.
    - revert Hl; apply last_same; try reflexivity; cbn; intros i' ->; rewrite Ej, !map_app, !in_app_iff; cbn [map In]; tauto.
  Qed.

  Lemma inv_finish pg e l i p r v : inv pg e -> pg_jobs pg = l ++ Running i p :: r -> settled_with pg p v -> inv (finish pg l i v r) e.
  Proof.
    intros Hi Ej (lang & word & Es); unfold finish; cbn [pg_target with_jobs].
    destruct (Nat.eqb_spec (pg_target pg) i) as [Et|Et]; cbn [negb]; [|apply (inv_drop pg e l _ r Hi Ej); cbn; congruence].
    pose proof (job_parts pg l _ r (i_jobs _ _ Hi) Ej) as (H1 & [_ (o & Eo)] & H3).
    rewrite Eo in Es; injection Es as El Ew ->; apply nth_error_In in Eo; apply (i_promises _ _ Hi) in Eo.
    pose proof (clear_timers _ (i_timers _ _ Hi)) as Hcl.
    destruct Hi as [Hj Hp Hpr Ht Hf Ho Hv Hl]; split; try assumption.
    - eapply jobs_same; [reflexivity|apply no_more; reflexivity|]; cbn; apply Forall_app; auto.
    - left; exact Hcl.
    - destruct e as [[[ver specs] k]|]; [|exact Hl].
      destruct Hl as (A1 & A4 & A5 & A6 & A7 & A8 & A9 & A10); cbn; repeat split; auto; try tauto; try (apply A5; assumption); try (apply A6; assumption); try discriminate.
      + right; split; [|auto]; destruct (A9 H) as [Ek _]; unfold answered; cbn; rewrite <- Ek, Et; exact Eo.
  Qed.

  Lemma inv_answer pg e l lang word r o : inv pg e -> pg_promises pg = l ++ (lang, word, None) :: r -> worker lang word o ->
    inv (fulfil pg l lang word (caught o) r) e.
  Proof.
    intros Hi Ep Ho'; destruct Hi as [Hj Hp Hpr Ht Hf Ho Hv Hl].
    assert (length (l ++ (lang, word, Some (caught o)) :: r) = length (pg_promises pg)) as Elen
      by (rewrite Ep, !app_length; reflexivity).
    split; try assumption.
    - eapply Forall_impl; [|exact Hj]; intros j [H1 H2]; split; [exact H1|]; destruct j as [i|i p|i p]; cbn; [exact I|rewrite Elen; exact H2|].
      destruct H2 as (o1 & H2); rewrite Ep in H2; destruct (Nat.lt_trichotomy p (length l)) as [Hlt|[->|Hgt]].
      + rewrite nth_error_app1 in H2 |- * by lia; exists o1; exact H2.
      + rewrite nth_error_app2, Nat.sub_diag in H2 |- * by lia; cbn in H2 |- *; injection H2 as -> -> _; eexists; reflexivity.
      + rewrite nth_error_app2 in H2 |- * by lia; destruct (p - length l)%nat as [|q] eqn:Eq; [lia|]; exists o1; exact H2.
    - cbn; intros l' w v Hin; apply in_app_or in Hin; destruct Hin as [Hin|[E|Hin]].
      + apply Hp; rewrite Ep; apply in_or_app; left; exact Hin.
      + injection E as <- <- <-; exists o; auto.
      + apply Hp; rewrite Ep; apply in_or_app; right; right; exact Hin.
    - cbn; intros p E; rewrite Elen; apply Hpr; exact E.
  Qed.

  Lemma inv_timer pg e l t r : inv pg e -> pg_timers pg = l ++ t :: r ->
    inv (with_timer (set_state pg ProcessingDelayed) (pg_timer pg) (l ++ r) (pg_made pg)) e.
  Proof.
    intros Hi Et; destruct (i_timers _ _ Hi) as [E|(t' & Er & E)]; rewrite E in Et; [destruct l; discriminate|].
    assert (l = [] /\ r = []) as [-> ->] by (destruct l as [|? [|]]; [injection Et as _ <-; auto|discriminate..]).
    destruct Hi as [Hj Hp Hpr Ht Hf Ho Hv Hl]; split; try assumption.
    - left; reflexivity.
    - destruct e as [[[ver specs] k]|]; [|exact Hl].
      destruct Hl as (A1 & A4 & A5 & A6 & A7 & A8 & A9 & A10); cbn; repeat split; auto; try tauto; try (apply A5; assumption);
        try (apply A6; assumption); try discriminate.
      + destruct (A9 H) as [_ [Hin|(_ & _ & E0)]]; [left; exact Hin|congruence].
      + destruct (A10 H) as [_ E0]; congruence.
  Qed.

  Lemma empty_invalid specs : is_valid_input specs [] [] = false.
  Proof. reflexivity. Qed.

  (** The effect *)
  Lemma inv_effect pg e : inv pg e -> pg_effect pg = true -> inv (run_effect pg) (Some (deps (pg_view pg))).
  Proof.
    intros Hi He; unfold run_effect.
    change (valid_for (effect_done pg) (pg_view pg)) with (valid_at pg (v_specs (pg_view pg)) (v_input (pg_view pg))).
    set (v := pg_view pg); pose proof (clear_timers _ (i_timers _ _ Hi)) as Hcl.
    assert (pg_target pg <= v_input v)%nat as Hle
      by (pose proof (i_last _ _ Hi) as Hl; destruct e as [[[ver specs] k]|]; cbn in Hl; fold v in Hl; intuition lia).
    assert (pg_target pg = v_input v -> valid_at pg (v_specs v) (v_input v) = true -> exists ver specs,
        e = Some (ver, specs, v_input v) /\ valid_at pg specs (v_input v) = true /\ v_version v = 1%nat) as Hsame.
    { intros Et Hval; pose proof (i_last _ _ Hi) as Hl; pose proof (i_version _ _ Hi) as Hv; destruct e as [[[ver specs] k]|].
      - cbn in Hl; fold v in Hl; destruct Hl as (A1 & A4 & A5 & A6 & A7 & A8 & A9 & A10); assert (k = v_input v) as -> by lia.
        exists ver, specs; split; [reflexivity|]; destruct (A6 He) as [_ Hn]; unfold v in *.
        assert (ver <> v_version (pg_view pg)) as Hn' by (intros E; apply Hn; auto).
        split; [|lia]; destruct (A8 Et) as [H|H]; [exact H|lia].
      - destruct Hl as (_ & Hl & Ht); unfold v in Et; rewrite Hl, Ht in Et; discriminate. }
    assert (valid_at pg (v_specs v) (v_input v) = true -> v_state v <> Initializing) as Hstate.
    { intros Hval; pose proof (i_last _ _ Hi) as Hl; destruct e as [[[ver specs] k]|].
      - cbn in Hl; destruct Hl as (_ & _ & _ & A6 & _); apply A6; exact He.
      - destruct Hl as (_ & Hl & _); destruct (i_first _ _ Hi) as (rest & Ef).
        unfold v, valid_at, input_of in Hval; rewrite Hl, Ef in Hval; discriminate. }
    assert (pg_view pg = v) as Ev by reflexivity.
    destruct (valid_at pg (v_specs v) (v_input v)) eqn:Hval; cbn [negb].
    2:{ destruct Hi as [Hj Hp Hpr Ht Hf Ho Hv Hl]; split; try assumption.
        - left; exact Hcl.
        - cbn; unfold valid_at, input_of in *; cbn; fold v; rewrite Hval; repeat split; auto; try discriminate; try lia.
          intros Et; right; pose proof (i_version) as _.
          destruct e as [[[ver specs] k]|].
          + cbn in Hl; fold v in Hl; destruct Hl as (A1 & A4 & A5 & A6 & A7 & A8 & A9 & A10); assert (k = v_input v) as -> by lia.
            destruct (A6 He) as [_ Hn]; assert (ver <> v_version v) as Hn' by (intros E; apply Hn; auto); fold v in Hv; lia.
          + destruct Hl as (_ & Hl & Htt); rewrite Ev in Hl; rewrite Hl, Htt in Et; discriminate. }
    assert (forall pg', pg' = (if Nat.eqb (pg_target (effect_done pg)) (v_input v) then effect_done pg
         else let pg := start_timer (with_target (effect_done pg) (v_input v)) in
              if js_empty (v_result v) then wait pg (pg_jobs pg) (v_input v) []
              else with_jobs pg (pg_jobs pg ++ [Sleeping (v_input v)])) -> inv pg' (Some (deps v))) as H.
    2:{ specialize (Hstate eq_refl); destruct (v_state v); [congruence|..]; apply H; reflexivity. }
    intros pg' ->; cbn [pg_target effect_done]; destruct (Nat.eqb_spec (pg_target pg) (v_input v)) as [Et|Et].
    - destruct (Hsame Et eq_refl) as (ver & specs & -> & Hval0 & Hver).
      destruct Hi as [Hj Hp Hpr Ht Hf Ho Hv Hl]; split; try assumption.
      + cbn in Hl; fold v in Hl; destruct Hl as (A1 & A4 & A5 & A6 & A7 & A8 & A9 & A10).
        cbn; unfold valid_at, input_of in *; cbn; fold v; rewrite Hval; repeat split; auto; try discriminate; try lia.
        destruct (A9 Hval0) as [_ Hx]; exact Hx.
    - set (pg1 := start_timer (with_target (effect_done pg) (v_input v))).
      assert (pg_inputs pg1 = pg_inputs pg /\ pg_promises pg1 = pg_promises pg /\ pg_processing pg1 = pg_processing pg /\
              pg_jobs pg1 = pg_jobs pg /\ pg_view pg1 = v /\ pg_effect pg1 = false /\ pg_target pg1 = v_input v /\
              v_input (pg_next pg1) = v_input (pg_next pg) /\ v_version (pg_next pg1) = v_version (pg_next pg) /\
              v_specs (pg_next pg1) = v_specs (pg_next pg) /\ v_state (pg_next pg1) <> Initializing /\
              exists t, pg_timer pg1 = Some t /\ (pg_timers pg1 = [] \/ pg_timers pg1 = [t])) as
        (E1 & E2 & E3 & E4 & E5 & E6 & E7 & E8 & E9 & E10 & E11 & t & E12 & E13).
      { unfold pg1, start_timer; cbn; destruct (pg_timer pg) as [t|] eqn:Etm; cbn; repeat split; auto; try discriminate.
        - pose proof (i_last _ _ Hi) as Hl; destruct e as [[[ver specs] k]|]; [apply Hl|].
          destruct Hl as (_ & Hl & _); exfalso; destruct (i_first _ _ Hi) as (rest & Ef).
          rewrite Ev in Hl; unfold valid_at, input_of in Hval; rewrite Hl, Ef in Hval; discriminate.
        - exists t; split; [exact Etm|]; destruct (i_timers _ _ Hi) as [H|(t' & H & H')]; [auto|right; congruence].
        - eexists; split; [reflexivity|]; rewrite (inv_timers_none _ _ Hi Etm); auto. }
      assert (forall pg2 js, pg_inputs pg2 = pg_inputs pg -> pg_view pg2 = v -> pg_effect pg2 = false -> pg_target pg2 = v_input v ->
                pg_next pg2 = pg_next pg1 -> pg_timer pg2 = pg_timer pg1 -> pg_timers pg2 = pg_timers pg1 ->
                (exists more, pg_promises pg2 = pg_promises pg ++ more) -> (forall l w r, In (l, w, Some r) (pg_promises pg2) -> In (l, w, Some r) (pg_promises pg)) ->
                (forall p, pg_processing pg2 = Some p -> (p < length (pg_promises pg2))%nat) ->
                pg_jobs pg2 = pg_jobs pg ++ [js] -> job_input js = v_input v -> job_ok pg2 js ->
                inv pg2 (Some (deps v))) as Hinv.
      { intros pg2 js F1 F2 F3 F4 F5 F6 F7 F8 F9 F10 F11 F12 F13; split.
        - rewrite F11; apply Forall_app; split; [eapply jobs_same; [exact F1|exact F8|exact (i_jobs _ _ Hi)]|constructor; [exact F13|constructor]].
        - intros l w r Hin; apply (i_promises _ _ Hi), F9; exact Hin.
        - exact F10.
        - rewrite F6, F7; destruct E13 as [E13|E13]; [left; exact E13|right; exists t; auto].
        - rewrite F1; exact (i_first _ _ Hi).
        - rewrite F2, F5, E8, F1; exact (i_order _ _ Hi).
        - rewrite F2, F5, E9, E10; exact (i_version _ _ Hi).
        - cbn; unfold valid_at, input_of in *; rewrite F1, F2, F3, F4, F5; rewrite Hval; repeat split; auto; try discriminate; try lia.
          left; split; [rewrite F11, map_app, in_app_iff; right; left; exact F12|rewrite F6, E12; discriminate]. }
      pose proof (i_order _ _ Hi) as Hord; fold v in Hord.
      cbv zeta; destruct (js_empty (v_result v)).
      + unfold wait; destruct (pg_processing pg1) as [p|] eqn:Ep.
        * rewrite E4; apply (Hinv _ (Waiting (v_input v) p)); try reflexivity; cbn; try assumption.
          -- apply no_more; exact E2.
          -- rewrite E2; auto.
          -- rewrite Ep, E2; intros q E; apply (i_processing _ _ Hi); congruence.
          -- split; cbn; [rewrite E1; lia|rewrite E2; apply (i_processing _ _ Hi); congruence].
        * rewrite E4; apply (Hinv _ (Running (v_input v) (length (pg_promises pg1)))); try reflexivity; cbn; try assumption.
          -- rewrite E2; eexists; reflexivity.
          -- rewrite E2; intros l w r Hin; apply in_app_or in Hin; destruct Hin as [Hin|[E|[]]]; [exact Hin|discriminate].
          -- intros q E; injection E as <-; rewrite app_length; cbn; lia.
          -- split; cbn; [rewrite E1; lia|]; exists None; rewrite nth_error_app2, Nat.sub_diag by lia; reflexivity.
      + rewrite E4; apply (Hinv _ (Sleeping (v_input v))); try reflexivity; cbn; try assumption.
        * apply no_more; exact E2.
        * rewrite E2; auto.
        * rewrite E3, E2; exact (i_processing _ _ Hi).
        * split; cbn; [rewrite E1; lia|exact I].
  Qed.

  Lemma inv_step pg e pg' : inv pg e -> page_step worker pg pg' -> exists e', inv pg' e'.
  Proof.
    intros Hi Hs; destruct Hs as [pg He _|pg He|pg l i r Ej|pg l i p r v Ej _|pg l i p r v Ej Hv|pg l lang word r o Ep Hw|pg l t r Et].
    - exists e; apply inv_render; assumption.
    - eexists; eapply inv_effect; eassumption.
    - exists e; destruct (Nat.eqb_spec (pg_target pg) i) as [E|E]; [eapply inv_wait; [exact Hi|exact Ej|reflexivity]|].
      eapply inv_drop; [exact Hi|exact Ej|cbn; congruence].
    - exists e; eapply inv_ask; [exact Hi|exact Ej|reflexivity].
    - exists e; eapply inv_finish; eassumption.
    - exists e; apply inv_answer; assumption.
    - exists e; eapply inv_timer; eassumption.
  Qed.

  Lemma nth_more {A} (l : list A) x i d : (i < length l)%nat -> nth i (l ++ [x]) d = nth i l d.
  Proof. intros H; apply app_nth1; exact H. Qed.
  Lemma inv_user pg e pg' : inv pg e -> user_step pg pg' -> inv pg' e.
  Proof.
    intros Hi Hs; pose proof (last_target _ _ Hi) as Htgt.
    destruct Hs as [pg lang word|pg specs E0]; destruct Hi as [Hj Hp Hpr Ht Hf Ho Hv Hl]; split; try assumption.
    - eapply Forall_impl; [|exact Hj]; intros j [H1 H2]; split; [cbn; rewrite app_length; cbn; lia|]; destruct j as [i|i p|i p]; [exact I|exact H2|].
      destruct H2 as (o & H2); exists o; cbn [pg_promises set_input]; rewrite H2; unfold input_of; cbn; rewrite nth_more by exact H1; reflexivity.
    - destruct Hf as (rest & Ef); exists (rest ++ [(lang, word)]); cbn; rewrite Ef; reflexivity.
    - cbn; rewrite app_length; cbn; lia.
    - destruct e as [[[ver specs] i]|]; [|exact Hl].
      assert (input_of (set_input pg lang word) i = input_of pg i) as Ei
        by (unfold input_of; cbn; apply nth_more; destruct Hl as [Hl _]; lia).
      cbn; unfold valid_at, answered in *; rewrite Ei; exact Hl.
    - cbn; split; [lia|]; intros E; lia.
  Qed.

  Lemma reached_inv pg : reached worker manifest pg -> exists e, inv pg e.
  Proof.
    induction 1 as [|pg pg' Hr [e IH] Hs|pg pg' Hr [e IH] Hs]; [exists None; apply inv_first|..].
    - apply inv_step with pg e; assumption.
    - exists e; apply inv_user with pg; assumption.
  Qed.
End Page.

(** ** C70 The page shows the transcription of what is typed *)

Definition at_rest (worker : jstring -> jstring -> option jstring -> Prop) (pg : page) : Prop :=
  forall pg', ~ page_step worker pg pg'.

Lemma view_eq_dec (v w : view) : {v = w} + {v <> w}.
Proof.
  assert (forall a b : jstring, {a = b} + {a <> b}) as Hs by (apply list_eq_dec; apply N.eq_dec).
  decide equality; try apply Nat.eq_dec; try apply Hs; [apply list_eq_dec; exact Hs|decide equality].
Qed.

(** The last input there is, and the one the page has *)
Definition typed (pg : page) : jstring * jstring := last (pg_inputs pg) ([], []).
Lemma nth_last {A} (l : list A) d : nth (pred (length l)) l d = last l d.
Proof.
  induction l as [|x l IH]; [reflexivity|]; destruct l as [|y l]; [reflexivity|].
  change (last (x :: y :: l) d) with (last (y :: l) d); rewrite <- IH; reflexivity.
Qed.
Lemma reached_typed worker manifest pg : reached worker manifest pg -> v_input (pg_next pg) = pred (length (pg_inputs pg)).
Proof.
  induction 1 as [|pg pg' Hr IH Hs|pg pg' Hr IH Hs]; [reflexivity|..].
  - assert (v_input (pg_next pg') = v_input (pg_next pg) /\ pg_inputs pg' = pg_inputs pg) as [-> ->]; [|exact IH].
    destruct Hs as [pg He _|pg He|pg l i r Ej|pg l i p r v Ej _|pg l i p r v Ej Hv|pg l lang word r o Ep Hw|pg l t r Et]; try (split; reflexivity).
    + unfold run_effect, wait, start_timer; cbn; destruct (negb _); [split; reflexivity|].
      destruct (v_state (pg_view pg)); [split; reflexivity|..]; (destruct (Nat.eqb _ _); [split; reflexivity|]);
        destruct (pg_timer pg); cbn; destruct (js_empty _), (pg_processing pg); split; reflexivity.
    + unfold wait; destruct (Nat.eqb _ _), (pg_processing pg); split; reflexivity.
    + unfold finish; destruct (negb _); split; reflexivity.
  - destruct Hs as [pg lang word|pg specs E0]; [|exact IH].
    cbn; rewrite app_length; cbn; lia.
Qed.
Lemma input_typed worker manifest pg : reached worker manifest pg -> input_of pg (v_input (pg_next pg)) = typed pg.
Proof. intros H; unfold input_of, typed; rewrite (reached_typed _ _ _ H); apply nth_last. Qed.

(** Inputs that are transcribed, and those that are not *)
Lemma drop_visible s : (exists u, In u s /\ js_space u = false) <-> js_drop s <> [].
Proof.
  induction s as [|u s IH]; cbn [js_drop In]; [split; [intros (u & [] & _)|congruence]|].
  destruct (js_space u) eqn:E; [rewrite <- IH|split; [discriminate|intros _; exists u; auto]].
  split; intros (w & Hw & Hf); [destruct Hw as [->|Hw]; [congruence|]|]; exists w; auto.
Qed.
Lemma trim_visible s : (exists u, In u s /\ js_space u = false) <-> js_trim s <> [].
Proof.
  assert (forall l : jstring, rev l <> [] <-> l <> []) as Hrev
    by (intros l; split; intros H E; apply H; [rewrite E; reflexivity|]; rewrite <- (rev_involutive l), E; reflexivity).
  unfold js_trim; rewrite Hrev, <- drop_visible.
  assert (forall x, (exists u, In u x /\ js_space u = false) <-> exists u, In u (rev x) /\ js_space u = false) as H
    by (intros x; split; intros (u & Hu & Hf); exists u; (split; [|exact Hf]); [apply in_rev; rewrite rev_involutive|apply in_rev]; exact Hu).
  rewrite <- H, drop_visible.
  assert (forall x, js_drop x <> [] <-> js_drop (js_drop x) <> []) as Hd.
  { induction x as [|u x IH]; cbn [js_drop]; [tauto|]; destruct (js_space u) eqn:E; [exact IH|]; cbn [js_drop]; rewrite E; tauto. }
  rewrite (Hd s), <- (drop_visible (js_drop s)); tauto.
Qed.
Definition shown_language (specs : list jstring) (lang : jstring) : Prop := In lang specs \/ In lang object_prototype.
Lemma valid_input specs lang word :
  is_valid_input specs lang word = true <-> (exists u, In u word /\ js_space u = false) /\ shown_language specs lang.
Proof.
  unfold is_valid_input, js_defined, shown_language; rewrite trim_visible, <- in_app_iff.
  assert (js_empty (js_trim word) = true <-> js_trim word = []) as He by (destruct (js_trim word); split; intros H; reflexivity || discriminate H).
  assert (existsb (beqb lang) (specs ++ object_prototype) = true <-> In lang (specs ++ object_prototype)) as Hb.
  { rewrite existsb_exists; split; [intros (x & Hx & E); apply beqb_eq in E; subst x; exact Hx|].
    intros Hx; exists lang; split; [exact Hx|apply beqb_eq; reflexivity]. }
  rewrite <- Hb; destruct (js_empty (js_trim word)) eqn:E.
  - pose proof (proj1 He eq_refl) as E'; split; [discriminate|tauto].
  - destruct (existsb (beqb lang) (specs ++ object_prototype)); cbn [negb]; split; try tauto; try discriminate.
    + intros _; split; [|reflexivity]; intros E'; apply He in E'; discriminate.
Qed.

(** What is blank for the page is blank for Go, but for the byte order mark, and the other way
    round, but for the next line. *)
Theorem C70_blank : forall u, js_space u = true <-> is_space u = true /\ u <> 0x85%N \/ u = 0xFEFF%N.
Proof.
  intros u; unfold js_space, is_space; rewrite existsb_exists; split.
  - intros (x & Hx & E); apply N.eqb_eq in E; subst x; cbn [In] in Hx; destruct (u <=? 0xFF)%N eqn:E; lia.
  - intros H; exists u; split; [|apply N.eqb_refl]; cbn [In]; destruct (u <=? 0xFF)%N eqn:E; lia.
Qed.
Print Assumptions C70_blank.

Lemma rest_view worker pg : at_rest worker pg -> pg_effect pg = false /\ pg_view pg = pg_next pg.
Proof.
  intros Hr; assert (pg_effect pg = false) as He by (destruct (pg_effect pg) eqn:E; [destruct (Hr _ (step_effect worker pg E))|reflexivity]).
  split; [exact He|]; destruct (view_eq_dec (pg_next pg) (pg_view pg)) as [E|E]; [auto|destruct (Hr _ (step_render worker pg He E))].
Qed.
Lemma rest_jobs worker manifest pg :
  (forall lang word, exists o, worker lang word o) -> reached worker manifest pg -> at_rest worker pg -> pg_jobs pg = [].
Proof.
  intros Hw Hre Hr; destruct (reached_inv _ _ _ Hre) as (e & Hi).
  assert (forall p, (p < length (pg_promises pg))%nat -> exists v, settled_with pg p v) as Hset.
  { intros p Hp; apply nth_error_Some in Hp; destruct (nth_error (pg_promises pg) p) as [[[lang word] [v|]]|] eqn:E; [|exfalso|congruence].
    - exists v, lang, word; exact E.
    - destruct (nth_error_split _ _ E) as (l & r & Es & _); destruct (Hw lang word) as (o & Ho).
      exact (Hr _ (step_answer worker pg l lang word r o Es Ho)). }
  pose proof (i_jobs _ _ _ _ Hi) as Hj.
  destruct (pg_jobs pg) as [|j js] eqn:Ej; [reflexivity|exfalso].
  inversion Hj as [|? ? [_ H1] _]; subst; destruct j as [i|i p|i p].
  - exact (Hr _ (step_wake worker pg [] i js Ej)).
  - destruct (Hset p H1) as (v & Hv); exact (Hr _ (step_resume worker pg [] i p js v Ej Hv)).
  - destruct H1 as (o & Eo); destruct (Hset p) as (v & Hv); [apply nth_error_Some; congruence|].
    exact (Hr _ (step_done worker pg [] i p js v Ej Hv)).
Qed.

(** However the inputs, the answers and the timers come: when nothing is left to do, a page
    with an input to transcribe shows what the worker has answered to that input, if this is
    not empty; it is then not loading. With any other input it shows nothing. *)
Theorem C70_shows_partial : forall worker manifest pg lang word,
  (forall lang word, exists o, worker lang word o) -> reached worker manifest pg -> at_rest worker pg ->
  typed pg = (lang, word) ->
  ((forall u, In u word -> js_space u = true) \/ ~ shown_language (v_specs (pg_view pg)) lang ->
   loading_result (pg_view pg) lang word = (false, [])) /\
  ((exists u, In u word /\ js_space u = false) -> In lang (v_specs (pg_view pg)) ->
   exists o, worker lang word o /\
     (forall v, o = Some v -> v <> [] -> loading_result (pg_view pg) lang word = (false, v))).
Proof.
  intros worker manifest pg lang word Hw Hre Hr Et; split.
  - intros Hn; unfold loading_result.
    destruct (is_valid_input (v_specs (pg_view pg)) lang word) eqn:E; [|reflexivity].
    apply valid_input in E; destruct E as [(u & Hu & Hf) Hl]; destruct Hn as [Hn|Hn]; [rewrite (Hn u Hu) in Hf; discriminate|contradiction].
  - intros Hu Hl; destruct (reached_inv _ _ _ Hre) as (e & Hi).
    destruct (rest_view _ _ Hr) as [He Ev]; pose proof (rest_jobs _ _ _ Hw Hre Hr) as Ej.
    assert (is_valid_input (v_specs (pg_view pg)) lang word = true) as Hval by (apply valid_input; split; [exact Hu|left; exact Hl]).
    pose proof (input_typed _ _ _ Hre) as Ein; rewrite Et in Ein.
    pose proof (i_last _ _ _ _ Hi) as Hla; destruct e as [[[ver specs] i]|]; [|cbn in Hla; destruct Hla; congruence].
    destruct Hla as (A1 & A4 & A5 & A6 & A7 & A8 & A9 & A10); destruct (A5 He) as [E1 E2].
    rewrite (A4 E1), E2, Ev in A9; unfold valid_at, answered in A9; rewrite Ein, <- Ev in A9; cbn [fst snd] in A9.
    destruct (A9 Hval) as [_ [[Hin _]|((o & Ho & Eo) & Es & _)]]; [rewrite Ej in Hin; destruct Hin|].
    exists o; split; [exact Ho|]; intros v -> Hne; unfold loading_result; rewrite Hval; cbn [negb].
    rewrite Es, Eo; cbn [caught]; destruct v; [congruence|reflexivity].
Qed.
Print Assumptions C70_shows_partial.

(** It comes to rest: without new inputs there are at most [cost] steps. *)
Definition job_cost (j : job) : nat := match j with Sleeping _ => 5 | Waiting _ _ => 4 | Running _ _ => 2 end.
Definition pending (pr : jstring * jstring * option jstring) : nat := match snd pr with None => 1 | Some _ => 0 end.
Definition same_deps (v w : view) : bool := Nat.eqb (v_version v) (v_version w) && Nat.eqb (v_input v) (v_input w).
Fixpoint sum_of (l : list nat) : nat := match l with [] => 0 | x :: l' => x + sum_of l' end.
Lemma sum_app l r : sum_of (l ++ r) = (sum_of l + sum_of r)%nat.
Proof. induction l as [|x l IH]; cbn; [reflexivity|rewrite IH; lia]. Qed.
Definition cost (pg : page) : nat :=
  (if same_deps (pg_next pg) (pg_view pg) then 0 else 10) + (if pg_effect pg then 9 else 0) +
  (if view_eq_dec (pg_next pg) (pg_view pg) then 0 else 1) + 2 * length (pg_timers pg) +
  sum_of (map pending (pg_promises pg)) + sum_of (map job_cost (pg_jobs pg)).

Lemma filter_shorter {A} (f : A -> bool) l : (length (filter f l) <= length l)%nat.
Proof. induction l as [|x l IH]; cbn; [lia|]; destruct (f x); cbn; lia. Qed.
Lemma clear_shorter pg : (length (pg_timers (clear_timer pg)) <= length (pg_timers pg))%nat.
Proof. unfold clear_timer; cbn; destruct (pg_timer pg); [apply filter_shorter|lia]. Qed.
Lemma same_deps_sym v w : same_deps v w = same_deps w v.
Proof. unfold same_deps; rewrite (Nat.eqb_sym (v_version v)), (Nat.eqb_sym (v_input v)); reflexivity. Qed.
Lemma unequal_cost (v w : view) : ((if view_eq_dec v w then 0 else 1) <= 1)%nat. Proof. destruct (view_eq_dec v w); lia. Qed.

Lemma cost_ask pg l i r :
  (cost (ask pg l i r) + sum_of (map job_cost (pg_jobs pg)) = cost pg + sum_of (map job_cost l) + sum_of (map job_cost r) + 3)%nat.
Proof. unfold cost; cbn; rewrite !map_app, !sum_app; cbn; lia. Qed.
Lemma cost_jobs pg js :
  (cost (with_jobs pg js) + sum_of (map job_cost (pg_jobs pg)) = cost pg + sum_of (map job_cost js))%nat.
Proof. unfold cost; cbn; lia. Qed.
Lemma cost_wait pg l i r :
  (cost (wait pg l i r) + sum_of (map job_cost (pg_jobs pg)) <= cost pg + sum_of (map job_cost l) + sum_of (map job_cost r) + 4)%nat.
Proof.
  unfold wait; destruct (pg_processing pg).
  - rewrite cost_jobs, map_app, sum_app; cbn; lia.
  - rewrite cost_ask; lia.
Qed.
(** Setting the result and the state, and clearing the timer *)
Lemma cost_settle pg v :
  (cost (clear_timer (set_state (set_result pg v) Idle)) <= cost pg + 1)%nat.
Proof.
  unfold cost; cbn -[clear_timer]; pose proof (clear_shorter pg) as Hc.
  match goal with |- context [view_eq_dec ?a ?b] => pose proof (unequal_cost a b) end.
  unfold clear_timer in *; cbn in *; unfold same_deps; cbn; lia.
Qed.

Lemma cost_step worker pg pg' : page_step worker pg pg' -> (cost pg' < cost pg)%nat.
Proof.
  intros Hs; destruct Hs as [pg He Hne|pg He|pg l i r Ej|pg l i p r v Ej _|pg l i p r v Ej Hv|pg l lang word r o Ep Hw|pg l t r Et].
  - unfold cost; cbn; rewrite He; fold (same_deps (pg_next pg) (pg_view pg)).
    assert (same_deps (pg_next pg) (pg_next pg) = true) as -> by (unfold same_deps; rewrite !Nat.eqb_refl; reflexivity).
    destruct (view_eq_dec (pg_next pg) (pg_next pg)) as [_|E]; [|congruence].
    destruct (view_eq_dec (pg_next pg) (pg_view pg)) as [E|_]; [congruence|].
    destruct (same_deps (pg_next pg) (pg_view pg)); cbn [negb]; lia.
  - assert (cost (effect_done pg) + 9 = cost pg)%nat as Hd by (unfold cost; cbn; rewrite He; lia).
    unfold run_effect; destruct (negb _); [pose proof (cost_settle (effect_done pg) []); lia|].
    assert (forall pg', (cost pg' <= cost (effect_done pg) \/ exists pg2, cost pg2 <= cost (effect_done pg) + 3 /\
              cost pg' <= cost pg2 + 5)%nat -> (cost pg' < cost pg)%nat) as Hlt by (intros pg' [H|(pg2 & H1 & H2)]; lia).
    destruct (v_state (pg_view pg)); [lia|..]; (destruct (Nat.eqb _ _); [lia|]); apply Hlt; right;
      exists (start_timer (with_target (effect_done pg) (v_input (pg_view pg)))); (split;
        [unfold start_timer; cbn; destruct (pg_timer pg); [apply Nat.le_trans with (cost (effect_done pg)); [apply Nat.le_refl|lia]|];
         unfold cost; cbn; unfold same_deps; cbn;
         match goal with |- context [view_eq_dec ?a ?b] => pose proof (unequal_cost a b) end; lia|]);
      cbv zeta; set (pg2 := start_timer _);
      (destruct (js_empty _); [pose proof (cost_wait pg2 (pg_jobs pg2) (v_input (pg_view pg)) []) as Hc; cbn [map sum_of] in Hc; lia|]);
      pose proof (cost_jobs pg2 (pg_jobs pg2 ++ [Sleeping (v_input (pg_view pg))])) as Hc; rewrite map_app, sum_app in Hc; cbn in Hc; lia.
  - destruct (Nat.eqb _ _); [pose proof (cost_wait pg l i r) as Hc|pose proof (cost_jobs pg (l ++ r)) as Hc];
      rewrite Ej, ?map_app, ?sum_app in Hc; cbn in Hc; lia.
  - pose proof (cost_ask pg l i r) as Hc; rewrite Ej, map_app, sum_app in Hc; cbn in Hc; lia.
  - pose proof (cost_jobs pg (l ++ r)) as Hc; rewrite Ej, !map_app, !sum_app in Hc; cbn in Hc.
    unfold finish; destruct (negb _); [lia|]; pose proof (cost_settle (with_jobs pg (l ++ r)) v); lia.
  - unfold cost; cbn; rewrite Ep, !map_app, !sum_app; cbn; lia.
  - unfold cost; cbn; rewrite Et, !app_length; cbn; unfold same_deps; cbn.
    match goal with |- context [view_eq_dec ?a (pg_view pg)] => pose proof (unequal_cost a (pg_view pg)) end; lia.
Qed.
Inductive page_steps (worker : jstring -> jstring -> option jstring -> Prop) : nat -> page -> page -> Prop :=
| page_steps_none pg : page_steps worker 0 pg pg
| page_steps_more n pg pg1 pg2 : page_step worker pg pg1 -> page_steps worker n pg1 pg2 -> page_steps worker (S n) pg pg2.
Theorem C70_rests : forall worker pg, exists bound, forall n pg', page_steps worker n pg pg' -> (n <= bound)%nat.
Proof.
  intros worker pg; exists (cost pg); intros n pg' H; induction H as [|n pg pg1 pg2 Hs Hr IH]; [lia|].
  apply cost_step in Hs; lia.
Qed.
Print Assumptions C70_rests.

(** Clearing the input between two words clears the result: while the next word is
    transcribed, nothing of the word before is shown. *)
Definition clearing (lang word : jstring) (pg : page) : Prop :=
  pg_jobs pg = [] /\ v_version (pg_next pg) = v_version (pg_view pg) /\ v_specs (pg_next pg) = v_specs (pg_view pg) /\
  is_valid_input (v_specs (pg_view pg)) lang word = false /\
  input_of pg (v_input (pg_next pg)) = (lang, word) /\
  (pg_effect pg = false /\ v_input (pg_next pg) <> v_input (pg_view pg) \/
   pg_effect pg = true /\ v_input (pg_next pg) = v_input (pg_view pg) \/
   pg_effect pg = false /\ v_input (pg_next pg) = v_input (pg_view pg) /\ v_result (pg_next pg) = []).
Lemma clearing_step worker lang word pg pg' : page_step worker pg pg' -> clearing lang word pg -> clearing lang word pg'.
Proof.
  intros Hs (Ej & Ev & Esp & Hval & Ein & Hph); destruct Hs as [pg He Hne|pg He|pg l i r E|pg l i p r v E _|pg l i p r v E _|pg l lang' word' r o E _|pg l t r E];
    try (rewrite Ej in E; destruct l; discriminate).
  - assert (is_valid_input (v_specs (pg_next pg)) lang word = false) as Hval' by (rewrite Esp; exact Hval).
    unfold clearing, render, input_of in *; cbn [pg_jobs pg_next pg_view pg_inputs pg_effect].
    rewrite Ev, Nat.eqb_refl; cbn [andb negb]; split; [exact Ej|]; split; [reflexivity|]; split; [reflexivity|]; split; [exact Hval'|]; split; [exact Ein|].
    destruct Hph as [[_ Hi]|[[He' _]|(_ & Hi & Hr)]]; [|congruence|].
    + apply Nat.eqb_neq in Hi; rewrite Hi; right; left; split; reflexivity.
    + rewrite Hi, Nat.eqb_refl; right; right; split; [reflexivity|]; split; [reflexivity|exact Hr].
  - destruct Hph as [[He' _]|[[_ Hnv]|[He' _]]]; [congruence| |congruence].
    assert (valid_for (effect_done pg) (pg_view pg) = false) as Hv.
    { unfold valid_for, input_of in *; cbn [effect_done pg_inputs]; rewrite <- Hnv, Ein; exact Hval. }
    unfold run_effect; rewrite Hv; cbn [negb]; unfold clearing, input_of in *; cbn.
    repeat (split; [assumption|]); right; right; split; [reflexivity|]; split; [exact Hnv|reflexivity].
  - unfold clearing, fulfil, input_of in *; cbn; repeat (split; [assumption|]); exact Hph.
  - unfold clearing, input_of in *; cbn; repeat (split; [assumption|]); exact Hph.
Qed.
Theorem C70_cleared : forall worker manifest pg lang word n pg',
  (forall lang word, exists o, worker lang word o) -> reached worker manifest pg -> at_rest worker pg ->
  (forall u, In u word -> js_space u = true) \/ ~ shown_language (v_specs (pg_view pg)) lang ->
  page_steps worker n (set_input pg lang word) pg' -> at_rest worker pg' ->
  forall lang' word', In (loading_result (pg_view pg') lang' word') [(false, []); (true, [0x2026%N])].
Proof.
  intros worker manifest pg lang word n pg' Hw Hre Hr Hn Hsteps Hr' lang' word'.
  assert (clearing lang word (set_input pg lang word)) as H0.
  { destruct (rest_view _ _ Hr) as [He Ev]; pose proof (rest_jobs _ _ _ Hw Hre Hr) as Ej.
    destruct (reached_inv _ _ _ Hre) as (e & Hi); pose proof (i_order _ _ _ _ Hi) as Ho.
    unfold clearing, set_input, input_of; cbn [pg_jobs pg_next pg_view pg_inputs pg_effect v_version v_specs v_input].
    rewrite Ev; repeat (split; [assumption || reflexivity|]); split.
    - destruct (is_valid_input (v_specs (pg_next pg)) lang word) eqn:E; [|reflexivity].
      apply valid_input in E; rewrite Ev in Hn; destruct E as [(u & Hu & Hf) Hl]; destruct Hn as [Hn|Hn]; [rewrite (Hn u Hu) in Hf; discriminate|contradiction].
    - split; [rewrite app_nth2, Nat.sub_diag by lia; reflexivity|]; left; split; [exact He|lia]. }
  assert (clearing lang word pg') as (_ & _ & _ & _ & _ & Hph).
  { revert Hsteps H0; generalize (set_input pg lang word); intros q Hsteps H0; clear - H0 Hsteps.
    induction Hsteps as [|m q q1 q2 Hs Hsteps IH]; [exact H0|]; apply IH; eapply clearing_step; eassumption. }
  destruct (rest_view _ _ Hr') as [He Ev]; rewrite Ev in *.
  destruct Hph as [[_ Hi]|[[He' _]|(_ & _ & Er)]]; [contradiction|congruence|].
  unfold loading_result; rewrite Er; cbn [js_empty]; destruct (is_valid_input _ _ _); cbn [negb In]; auto.
Qed.
Print Assumptions C70_cleared.

(** Half a second after the input, when the timer has fired, the text of another input is no
    longer shown as if it were the result: whatever is shown without loading is what the
    worker has answered to the input. *)
Lemma reached_timer worker manifest pg : reached worker manifest pg ->
  pg_timer pg = None /\ pg_timers pg = [] \/
  (exists t, pg_timer pg = Some t /\ pg_timers pg = [t]) \/
  pg_timer pg <> None /\ pg_timers pg = [] /\ v_state (pg_next pg) = ProcessingDelayed.
Proof.
  induction 1 as [|pg pg' Hr IH Hs|pg pg' Hr IH Hs]; [left; split; reflexivity|..].
  - destruct (reached_inv _ _ _ Hr) as (e & Hi); pose proof (clear_timers _ (i_timers _ _ _ _ Hi)) as Hcl.
    destruct Hs as [pg He _|pg He|pg l i r Ej|pg l i p r v Ej _|pg l i p r v Ej Hv|pg l lang word r o Ep Hw|pg l t r Et]; try exact IH.
    + unfold run_effect, wait, start_timer; cbn.
      destruct (negb _); [left; split; [reflexivity|exact Hcl]|].
      destruct (v_state (pg_view pg)); [exact IH|..]; (destruct (Nat.eqb _ _); [exact IH|]);
        (destruct (pg_timer pg) as [t|] eqn:Et; cbn; destruct (js_empty _), (pg_processing pg); cbn; rewrite ?Et;
         try exact IH; right; left; eexists; (split; [reflexivity|]); destruct IH as [[_ ->]|[(t & E & _)|(E & _)]]; congruence).
    + unfold wait; destruct (Nat.eqb _ _), (pg_processing pg); exact IH.
    + unfold finish; destruct (negb _); [exact IH|left; split; [reflexivity|exact Hcl]].
    + right; right; cbn; destruct IH as [[_ E]|[(t' & E1 & E2)|(_ & E & _)]]; try (rewrite Et in E; destruct l; discriminate).
      rewrite Et in E2; destruct l as [|? [|]]; [|discriminate..]; injection E2 as _ ->; rewrite E1; repeat split; discriminate.
  - destruct Hs as [pg lang word|pg specs E0]; exact IH.
Qed.
Theorem C70_late : forall worker manifest pg lang word,
  reached worker manifest pg -> pg_effect pg = false -> pg_view pg = pg_next pg -> pg_timers pg = [] -> typed pg = (lang, word) ->
  (exists u, In u word /\ js_space u = false) -> In lang (v_specs (pg_view pg)) ->
  fst (loading_result (pg_view pg) lang word) = false -> worker lang word (Some (snd (loading_result (pg_view pg) lang word))).
Proof.
  intros worker manifest pg lang word Hre He Ev Et Ety Hu Hl.
  destruct (reached_inv _ _ _ Hre) as (e & Hi); pose proof (i_last _ _ _ _ Hi) as Hle.
  destruct e as [[[ver specs] i]|]; [|destruct Hle; congruence].
  destruct Hle as (_ & A4 & A5 & _ & _ & _ & A9 & _); destruct (A5 He) as [Ever Ei]; specialize (A4 Ever); subst specs ver.
  pose proof (input_typed _ _ _ Hre) as Ein; rewrite <- Ev, <- Ei, Ety in Ein.
  unfold valid_at, answered in A9; rewrite Ein in A9; cbn [fst snd] in A9.
  assert (is_valid_input (v_specs (pg_view pg)) lang word = true) as Hval by (apply valid_input; split; [exact Hu|left; exact Hl]).
  unfold loading_result; rewrite Hval; cbn [negb]; destruct (js_empty (v_result (pg_view pg))) eqn:Ee; [discriminate|].
  destruct (A9 Hval) as [_ [[_ Hn]|((o & Ho & Er) & Es & _)]].
  - destruct (reached_timer _ _ _ Hre) as [[E _]|[(t & _ & E)|(_ & _ & E)]]; [congruence|rewrite Et in E; discriminate|].
    rewrite Ev, E; discriminate.
  - rewrite Ev in *; rewrite Es; cbn [fst snd]; intros _; rewrite Er in *; destruct o as [v|]; [exact Ho|discriminate].
Qed.
Print Assumptions C70_late.

Lemma rest_intro worker pg :
  pg_effect pg = false -> pg_next pg = pg_view pg -> pg_timers pg = [] ->
  (forall j, In j (pg_jobs pg) -> match j with Sleeping _ => False | Waiting _ p | Running _ p => forall v, ~ settled_with pg p v end) ->
  (forall l w, In (l, w, None) (pg_promises pg) -> forall o, ~ worker l w o) -> at_rest worker pg.
Proof.
  intros He En Et Hj Hp pg' Hs; destruct Hs as [pg E Hne|pg E|pg l i r Ej|pg l i p r v Ej Hv|pg l i p r v Ej Hv|pg l lang word r o Ep Hw|pg l t r Ett].
  - congruence.
  - congruence.
  - apply (Hj (Sleeping i)); rewrite Ej; apply in_or_app; right; left; reflexivity.
  - apply (Hj (Waiting i p)) with v; [rewrite Ej; apply in_or_app; right; left; reflexivity|exact Hv].
  - apply (Hj (Running i p)) with v; [rewrite Ej; apply in_or_app; right; left; reflexivity|exact Hv].
  - apply (Hp lang word) with o; [rewrite Ep; apply in_or_app; right; left; reflexivity|exact Hw].
  - rewrite Et in Ett; destruct l; discriminate.
Qed.

(** A page with "x" typed for Italian, and then other words. *)
Definition ex_idle : page := Eval vm_compute in render (run_effect (first_page [lit "ita"])).
Definition ex_type (pg : page) (word : jstring) : page := run_effect (render (set_input pg (lit "ita") word)).
Definition ex_asked : page := Eval vm_compute in ex_type ex_idle (lit "x").
Definition ex_two : page := Eval vm_compute in ex_type ex_asked (lit "y").
Definition ex_three : page := Eval vm_compute in ex_type ex_two (lit "z").
Lemma ex_idle_reached worker : reached worker [lit "ita"] ex_idle.
Proof.
  replace ex_idle with (render (run_effect (first_page [lit "ita"]))) by (vm_compute; reflexivity).
  eapply reached_page; [eapply reached_page; [apply reached_first|]|]; [apply step_effect; reflexivity|].
  apply step_render; [reflexivity|discriminate].
Qed.
Lemma ex_type_reached worker pg word : reached worker [lit "ita"] pg -> pg_effect pg = false ->
  (v_input (pg_view pg) < length (pg_inputs pg))%nat -> reached worker [lit "ita"] (ex_type pg word).
Proof.
  intros Hr He Hlt; unfold ex_type; eapply reached_page; [eapply reached_page; [eapply reached_user; [exact Hr|]|]|].
  - apply user_input.
  - apply step_render; [exact He|]; intros E; apply (f_equal v_input) in E; cbn in E; lia.
  - apply step_effect; cbn; destruct (Nat.eqb_spec (length (pg_inputs pg)) (v_input (pg_view pg))); [lia|apply negb_true_iff, andb_false_r].
Qed.
Lemma ex_asked_reached worker : reached worker [lit "ita"] ex_asked.
Proof.
  replace ex_asked with (ex_type ex_idle (lit "x")) by (vm_compute; reflexivity).
  apply ex_type_reached; [apply ex_idle_reached|reflexivity|vm_compute; lia].
Qed.
Lemma ex_two_reached worker : reached worker [lit "ita"] ex_two.
Proof.
  replace ex_two with (ex_type ex_asked (lit "y")) by (vm_compute; reflexivity).
  apply ex_type_reached; [apply ex_asked_reached|reflexivity|vm_compute; lia].
Qed.
Lemma ex_three_reached worker : reached worker [lit "ita"] ex_three.
Proof.
  replace ex_three with (ex_type ex_two (lit "z")) by (vm_compute; reflexivity).
  apply ex_type_reached; [apply ex_two_reached|reflexivity|vm_compute; lia].
Qed.

(** The specs of the module can take the place of those of the manifest. *)
Lemma C70_module : forall worker manifest specs, exists pg, reached worker manifest pg /\ v_specs (pg_view pg) = specs.
Proof.
  intros worker manifest specs; exists (render (set_specs (run_effect (first_page manifest)) specs)); split; [|reflexivity].
  eapply reached_page; [eapply reached_user; [eapply reached_page; [apply reached_first|apply step_effect; reflexivity]|apply user_specs; reflexivity]|].
  apply step_render; [reflexivity|]; intros E; apply (f_equal v_version) in E; discriminate.
Qed.

(** False when the transcription fails, or is empty: the page is loading for ever. *)
Theorem C70_loading_refuted : forall failure : option jstring, failure = None \/ failure = Some [] ->
  exists (worker : jstring -> jstring -> option jstring -> Prop) manifest pg lang word,
  (forall lang word, worker lang word failure) /\ reached worker manifest pg /\ at_rest worker pg /\ typed pg = (lang, word) /\
  In lang (v_specs (pg_view pg)) /\ loading_result (pg_view pg) lang word = (true, [0x2026%N]).
Proof.
  intros failure Hf.
  exists (fun _ _ o => o = failure), [lit "ita"],
    (finish (fulfil ex_asked [] (lit "ita") (lit "x") (caught failure) []) [] 2 (caught failure) []), (lit "ita"), (lit "x").
  split; [reflexivity|]; split; [|split; [|split; [reflexivity|split; [left; reflexivity|reflexivity]]]].
  - eapply reached_page; [eapply reached_page; [apply ex_asked_reached|]|].
    + apply (step_answer _ ex_asked []); reflexivity.
    + apply step_done with (p := 0%nat); [reflexivity|]; exists (lit "ita"), (lit "x"); reflexivity.
  - destruct Hf as [-> | ->]; (apply rest_intro; try reflexivity; [intros j []|]; intros l w [E|[]]; discriminate).
Qed.
Print Assumptions C70_loading_refuted.

(** When the input is cleared while a request runs, its answer is kept nevertheless and shows
    for the next word. *)
Definition ex_blank : page := Eval vm_compute in ex_type ex_asked [].
Definition ex_kept : page := Eval vm_compute in render (finish (fulfil ex_blank [] (lit "ita") (lit "x") (lit "z") []) [] 2 (lit "z") []).
Theorem C70_cleared_refuted : exists (worker : jstring -> jstring -> option jstring -> Prop) manifest pg word v,
  (forall lang word, exists o, worker lang word o) /\ reached worker manifest pg /\ at_rest worker pg /\ snd (typed pg) = [] /\
  ~ worker (lit "ita") word (Some v) /\ loading_result (pg_view (render (set_input pg (lit "ita") word))) (lit "ita") word = (false, v) /\ v <> [].
Proof.
  exists (fun _ w o => o = Some (if js_empty w then [] else if (hd 0%N w =? 0x78)%N then lit "z" else lit "q")), [lit "ita"], ex_kept, (lit "y"), (lit "z").
  split; [intros lang word; eexists; reflexivity|]; split; [|split; [|split; [reflexivity|split; [discriminate|split; [reflexivity|discriminate]]]]].
  - replace ex_kept with (render (finish (fulfil ex_blank [] (lit "ita") (lit "x") (lit "z") []) [] 2 (lit "z") [])) by (vm_compute; reflexivity).
    assert (forall worker, reached worker [lit "ita"] ex_blank) as Hb.
    { intros worker; replace ex_blank with (ex_type ex_asked []) by (vm_compute; reflexivity).
      apply ex_type_reached; [apply ex_asked_reached|reflexivity|vm_compute; lia]. }
    eapply reached_page; [eapply reached_page; [eapply reached_page; [apply Hb|]|]|].
    + apply (step_answer _ ex_blank [] (lit "ita") (lit "x") [] (Some (lit "z"))); reflexivity.
    + apply (step_done _ (fulfil ex_blank [] (lit "ita") (lit "x") (lit "z") []) [] 2 0 [] (lit "z")); [reflexivity|]; exists (lit "ita"), (lit "x"); reflexivity.
    + apply step_render; [reflexivity|discriminate].
  - apply rest_intro; try reflexivity; [intros j []|]; intros l w [E|[]]; discriminate.
Qed.
Print Assumptions C70_cleared_refuted.

(** One request that is never answered leaves all later inputs without one. *)
Theorem C70_blocked_refuted : exists (worker : jstring -> jstring -> option jstring -> Prop) manifest pg lang word v,
  worker lang word (Some v) /\ v <> [] /\ reached worker manifest pg /\ at_rest worker pg /\ typed pg = (lang, word) /\
  In lang (v_specs (pg_view pg)) /\ loading_result (pg_view pg) lang word = (true, [0x2026%N]).
Proof.
  exists (fun _ word o => word = lit "y" /\ o = Some (lit "z")), [lit "ita"],
    (render (with_timer (set_state ex_two ProcessingDelayed) (pg_timer ex_two) [] (pg_made ex_two))), (lit "ita"), (lit "y"), (lit "z").
  split; [split; reflexivity|]; split; [discriminate|]; split; [|split; [|split; [reflexivity|split; [left; reflexivity|reflexivity]]]].
  - eapply reached_page; [eapply reached_page; [apply ex_two_reached|]|].
    + apply (step_timer _ ex_two [] 0%nat []); reflexivity.
    + apply step_render; [reflexivity|discriminate].
  - apply rest_intro; try reflexivity.
    + intros j [<-|[<-|[]]]; intros v (lang & word & E); discriminate.
    + intros l w [E|[]] o [Ew _]; injection E as <- <-; discriminate.
Qed.
Print Assumptions C70_blocked_refuted.

Example C70_example : exists pg, reached (fun _ _ o => o = Some (lit "y")) [lit "ita"] pg /\ at_rest (fun _ _ o => o = Some (lit "y")) pg /\
  typed pg = (lit "ita", lit "x") /\ loading_result (pg_view pg) (lit "ita") (lit "x") = (false, lit "y").
Proof.
  exists (render (finish (fulfil ex_asked [] (lit "ita") (lit "x") (lit "y") []) [] 2 (lit "y") [])); split; [|split; [|split; reflexivity]].
  - eapply reached_page; [eapply reached_page; [eapply reached_page; [apply ex_asked_reached|]|]|].
    + apply (step_answer _ ex_asked [] (lit "ita") (lit "x") [] (Some (lit "y"))); reflexivity.
    + apply (step_done _ (fulfil ex_asked [] (lit "ita") (lit "x") (lit "y") []) [] 2 0 [] (lit "y")); [reflexivity|]; exists (lit "ita"), (lit "x"); reflexivity.
    + apply step_render; [reflexivity|discriminate].
  - apply rest_intro; try reflexivity; [intros j []|].
    intros l w [E|[]]; discriminate.
Qed.
(** Then the word is cleared; z, typed next, shows no y. *)
Example C70_cleared_example :
  let pg := render (finish (fulfil ex_asked [] (lit "ita") (lit "x") (lit "y") []) [] 2 (lit "y") []) in
  exists pg', page_steps (fun _ _ o => o = Some (lit "y")) 3 (set_input pg (lit "ita") []) pg' /\ at_rest (fun _ _ o => o = Some (lit "y")) pg' /\
    loading_result (pg_view pg') (lit "ita") (lit "z") = (true, [0x2026%N]).
Proof.
  intros pg; exists (render (run_effect (render (set_input pg (lit "ita") [])))); split; [|split; [|reflexivity]].
  - eapply page_steps_more; [apply step_render; [reflexivity|discriminate]|].
    eapply page_steps_more; [apply step_effect; reflexivity|].
    eapply page_steps_more; [apply step_render; [reflexivity|discriminate]|apply page_steps_none].
  - apply rest_intro; try reflexivity; [intros j []|]; intros l w [E|[]]; discriminate.
Qed.
(** Then z is typed: for half a second y is shown, then it is shown as loading. *)
Example C70_late_example :
  let pg := ex_type (render (finish (fulfil ex_asked [] (lit "ita") (lit "x") (lit "y") []) [] 2 (lit "y") [])) (lit "z") in
  let late := render (with_timer (set_state pg ProcessingDelayed) (pg_timer pg) [] (pg_made pg)) in
  pg_timers pg = [1%nat] /\ loading_result (pg_view pg) (lit "ita") (lit "z") = (false, lit "y") /\
  typed late = (lit "ita", lit "z") /\ pg_effect late = false /\ pg_view late = pg_next late /\ pg_timers late = [] /\
  loading_result (pg_view late) (lit "ita") (lit "z") = (true, lit "y").
Proof. vm_compute; repeat split; reflexivity. Qed.

(** ** C71 The worker is asked for the latest word only, and for one at a time

    False: inputs that come while a job runs are all asked for when it ends. *)
Theorem C71_latest_refuted : exists (worker : jstring -> jstring -> option jstring -> Prop) manifest pg pg' lang word,
  reached worker manifest pg /\ page_step worker pg pg' /\
  pg_promises pg' = pg_promises pg ++ [(lang, word, None)] /\ typed pg <> (lang, word) /\
  exists pg'', reached worker manifest pg'' /\ sum_of (map pending (pg_promises pg'')) = 2%nat.
Proof.
  set (worker := fun (_ _ : jstring) o => o = Some (lit "r")).
  set (pg := fulfil ex_three [] (lit "ita") (lit "x") (lit "r") []).
  assert (reached worker [lit "ita"] pg) as Hr.
  { eapply reached_page; [apply ex_three_reached|].
    apply (step_answer worker ex_three [] (lit "ita") (lit "x") [] (Some (lit "r"))); reflexivity. }
  assert (page_step worker pg (ask pg [Running 2 0] 3 [Waiting 4 0])) as H1
    by (apply step_resume with (p := 0%nat) (v := lit "r"); [reflexivity|exists (lit "ita"), (lit "x"); reflexivity]).
  exists worker, [lit "ita"], pg, (ask pg [Running 2 0] 3 [Waiting 4 0]), (lit "ita"), (lit "y").
  split; [exact Hr|]; split; [exact H1|]; split; [reflexivity|]; split; [discriminate|].
  exists (ask (ask pg [Running 2 0] 3 [Waiting 4 0]) [Running 2 0; Running 3 1] 4 []); split; [|reflexivity].
  eapply reached_page; [eapply reached_page; [exact Hr|exact H1]|].
  apply step_resume with (p := 0%nat) (v := lit "r"); [reflexivity|exists (lit "ita"), (lit "x"); reflexivity].
Qed.
Print Assumptions C71_latest_refuted.

(** The worker is asked at most once for each input. *)
Section Once.
  Context (worker : jstring -> jstring -> option jstring -> Prop) (manifest : list jstring).
  Definition to_ask (j : job) : list nat := match j with Sleeping i | Waiting i _ => [i] | Running _ _ => [] end.
  Definition asks (pg : page) (i : nat) (pr : jstring * jstring * option jstring) : Prop :=
    (i < length (pg_inputs pg))%nat /\ fst pr = input_of pg i.
  (** [asked]: the input of each promise *)
  Definition once (pg : page) (asked : list nat) : Prop :=
    NoDup (asked ++ flat_map to_ask (pg_jobs pg)) /\ Forall2 (asks pg) asked (pg_promises pg) /\
    Forall (fun i => i <= pg_target pg)%nat (asked ++ flat_map to_ask (pg_jobs pg)).

  Lemma once_same pg pg' asked :
    pg_inputs pg' = pg_inputs pg -> pg_promises pg' = pg_promises pg -> pg_target pg' = pg_target pg -> pg_jobs pg' = pg_jobs pg ->
    once pg asked -> once pg' asked.
  Proof. intros E1 E2 E3 E4; unfold once, asks, input_of; rewrite E1, E2, E3, E4; auto. Qed.
  Lemma once_fewer pg asked l j r : pg_jobs pg = l ++ j :: r -> once pg asked -> once (with_jobs pg (l ++ r)) asked.
  Proof.
    intros Ej (H1 & H2 & H3); rewrite Ej in H1, H3; rewrite flat_map_app in H1, H3; cbn [flat_map] in H1, H3.
    split; [|split; [exact H2|]]; cbn [pg_jobs pg_target with_jobs]; rewrite flat_map_app.
    - rewrite app_assoc in H1 |- *; revert H1; generalize (asked ++ flat_map to_ask l); intros x H1.
      induction x as [|y x IH]; cbn [app] in *.
      + destruct j; cbn [to_ask app] in H1; try exact H1; inversion H1; assumption.
      + inversion H1 as [|? ? Hn Hd]; subst; constructor; [|apply IH; exact Hd].
        intros Hin; apply Hn; apply in_app_or in Hin; apply in_or_app; destruct Hin as [Hin|Hin]; [left; exact Hin|right; apply in_or_app; right; exact Hin].
    - rewrite !Forall_app in H3; rewrite !Forall_app; tauto.
  Qed.
  Lemma once_ask pg asked l j r i : (i < length (pg_inputs pg))%nat -> pg_jobs pg = l ++ j :: r -> to_ask j = [i] -> once pg asked ->
    once (ask pg l i r) (asked ++ [i]).
  Proof.
    intros Hi Ej Ea (H1 & H2 & H3); rewrite Ej in H1, H3; rewrite flat_map_app in H1, H3; cbn [flat_map] in H1, H3; rewrite Ea in H1, H3.
    assert (Permutation (asked ++ flat_map to_ask l ++ [i] ++ flat_map to_ask r)
                        ((asked ++ [i]) ++ flat_map to_ask (l ++ Running i (length (pg_promises pg)) :: r))) as Hp.
    { rewrite flat_map_app; cbn [flat_map to_ask]; rewrite <- !app_assoc; apply Permutation_app_head; cbn [app].
      apply Permutation_sym, Permutation_middle. }
    split; [|split].
    - exact (Permutation_NoDup Hp H1).
    - cbn; apply Forall2_app; [|constructor; [|constructor]].
      + exact H2.
      + split; [exact Hi|]; symmetry; apply surjective_pairing.
    - eapply Permutation_Forall; [exact Hp|exact H3].
  Qed.
  Lemma once_wait pg asked l j r i : (i < length (pg_inputs pg))%nat -> pg_jobs pg = l ++ j :: r -> to_ask j = [i] -> once pg asked ->
    exists asked', once (wait pg l i r) asked'.
  Proof.
    intros Hi Ej Ea H; unfold wait; destruct (pg_processing pg) as [p|]; [exists asked|exists (asked ++ [i]); eapply once_ask; eassumption].
    destruct H as (H1 & H2 & H3); rewrite Ej in H1, H3; rewrite flat_map_app in H1, H3; cbn [flat_map] in H1, H3; rewrite Ea in H1, H3.
    split; [|split; [exact H2|]]; cbn [pg_jobs pg_target with_jobs]; rewrite flat_map_app; assumption.
  Qed.
  Lemma once_effect pg e asked : inv worker manifest pg e -> once pg asked -> exists asked', once (run_effect pg) asked'.
  Proof.
    intros Hi Ho; unfold run_effect; set (v := pg_view pg).
    assert (once (effect_done pg) asked) as Ho' by (revert Ho; apply once_same; reflexivity).
    destruct (negb _); [exists asked; revert Ho; apply once_same; reflexivity|].
    assert (pg_target pg <= v_input v < length (pg_inputs pg))%nat as Hle.
    { pose proof (i_last _ _ _ _ Hi) as Hl; pose proof (i_order _ _ _ _ Hi) as Hor; fold v in Hor.
      destruct e as [[[ver specs] k]|]; cbn in Hl; fold v in Hl; intuition lia. }
    assert (exists asked', once (if Nat.eqb (pg_target (effect_done pg)) (v_input v) then effect_done pg
         else let pg := start_timer (with_target (effect_done pg) (v_input v)) in
              if js_empty (v_result v) then wait pg (pg_jobs pg) (v_input v) []
              else with_jobs pg (pg_jobs pg ++ [Sleeping (v_input v)])) asked') as H
      by (cbn [pg_target effect_done]; destruct (Nat.eqb_spec (pg_target pg) (v_input v)) as [Et|Et]; [exists asked; exact Ho'|];
          set (pg1 := start_timer (with_target (effect_done pg) (v_input v)));
          assert (pg_inputs pg1 = pg_inputs pg /\ pg_promises pg1 = pg_promises pg /\ pg_jobs pg1 = pg_jobs pg /\ pg_target pg1 = v_input v)
            as (E1 & E2 & E3 & E4) by (unfold pg1, start_timer; cbn; destruct (pg_timer pg); cbn; repeat split);
          assert (once (with_jobs pg1 (pg_jobs pg ++ [Sleeping (v_input v)])) asked) as Hs;
            [destruct Ho as (H1 & H2 & H3); unfold once; cbn [pg_jobs pg_promises pg_target with_jobs]; rewrite flat_map_app; cbn [flat_map to_ask app];
             rewrite E2, E4; split; [|split];
             [rewrite app_assoc; apply (Permutation_NoDup (l := v_input v :: asked ++ flat_map to_ask (pg_jobs pg)));
                [apply Permutation_cons_append|constructor; [|exact H1]]; intros Hin; rewrite Forall_forall in H3; apply H3 in Hin; lia
             |unfold asks, input_of; cbn [pg_inputs with_jobs]; rewrite E1; exact H2
             |rewrite Forall_forall in H3 |- *; intros x Hx; rewrite !in_app_iff in Hx; cbn [In] in Hx;
              assert (In x (asked ++ flat_map to_ask (pg_jobs pg)) \/ x = v_input v) as [Hx'| ->]
                by (rewrite in_app_iff; destruct Hx as [Hx|[Hx|[Hx|[]]]]; auto); [apply H3 in Hx'; lia|lia]]
            |cbv zeta; destruct (js_empty (v_result v)); [|rewrite E3; exists asked; exact Hs];
             destruct (once_wait (with_jobs pg1 (pg_jobs pg ++ [Sleeping (v_input v)])) _ (pg_jobs pg) (Sleeping (v_input v)) [] (v_input v) ltac:(cbn; rewrite E1; lia) eq_refl eq_refl Hs) as (asked' & Ha);
             exists asked'; rewrite E3; revert Ha; unfold wait; cbn [pg_processing with_jobs]; destruct (pg_processing pg1); apply once_same; reflexivity]).
    destruct (v_state v); [exists asked; exact Ho'|exact H..].
  Qed.
  Lemma reached_once pg : reached worker manifest pg -> exists asked, once pg asked.
  Proof.
    induction 1 as [|pg pg' Hr (asked & IH) Hs|pg pg' Hr (asked & IH) Hs].
    - exists []; repeat constructor.
    - destruct (reached_inv _ _ _ Hr) as (e & Hi); pose proof (i_jobs _ _ _ _ Hi) as Hjobs.
      destruct Hs as [pg He _|pg He|pg l i r Ej|pg l i p r v Ej _|pg l i p r v Ej Hv|pg l lang word r o Ep Hw|pg l t r Et].
      + exists asked; revert IH; apply once_same; reflexivity.
      + eapply once_effect; eassumption.
      + destruct (job_parts _ _ _ _ Hjobs Ej) as (_ & [Hlt _] & _); destruct (Nat.eqb _ _); [eapply once_wait; [exact Hlt|exact Ej|reflexivity|exact IH]|].
        exists asked; eapply once_fewer; eassumption.
      + destruct (job_parts _ _ _ _ Hjobs Ej) as (_ & [Hlt _] & _); exists (asked ++ [i]); eapply once_ask; [exact Hlt|exact Ej|reflexivity|exact IH].
      + exists asked; apply (once_fewer _ _ _ _ _ Ej) in IH; unfold finish; destruct (negb _); [exact IH|]; revert IH; apply once_same; reflexivity.
      + exists asked; destruct IH as (H1 & H2 & H3); split; [exact H1|]; split; [|exact H3]; cbn.
        rewrite Ep in H2; apply Forall2_app_inv_r in H2; destruct H2 as (a1 & a2 & F1 & F2 & ->); apply Forall2_app; [exact F1|].
        inversion F2 as [|? ? ? ? G1 G2]; subst; constructor; [exact G1|exact G2].
      + exists asked; revert IH; apply once_same; reflexivity.
    - exists asked; destruct Hs as [pg lang word|pg specs E0]; [|revert IH; apply once_same; reflexivity].
      destruct IH as (H1 & H2 & H3); split; [exact H1|]; split; [|exact H3]; cbn.
      clear - H2; induction H2 as [|i pr l l' [H0 E] H2 IH]; constructor; [|exact IH].
      split; [cbn; rewrite app_length; lia|]; rewrite E; unfold input_of; cbn; symmetry; apply nth_more; exact H0.
  Qed.
End Once.
Theorem C71_once_partial : forall worker manifest pg, reached worker manifest pg -> exists asked,
  NoDup asked /\ Forall2 (fun i pr => nth_error (pg_inputs pg) i = Some (fst pr)) asked (pg_promises pg).
Proof.
  intros worker manifest pg Hr; destruct (reached_once _ _ _ Hr) as (asked & H1 & H2 & _); exists asked; split.
  - clear - H1; induction asked as [|i l IH]; [constructor|]; inversion H1 as [|? ? Hn Hd]; subst; constructor; [|apply IH; exact Hd].
    intros Hin; apply Hn, in_or_app; left; exact Hin.
  - clear - H2; induction H2 as [|i pr l l' [H0 E] H2 IH]; constructor; [|exact IH].
    rewrite E; apply nth_error_nth'; exact H0.
Qed.
Print Assumptions C71_once_partial.
Example C71_example : map fst (pg_promises ex_asked) = [(lit "ita", lit "x")] /\ length (pg_inputs ex_asked) = 3%nat.
Proof. split; reflexivity. Qed.
