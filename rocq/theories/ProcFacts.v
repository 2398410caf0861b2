(** The phases of the procedure return, with and without a tracer. *)
From Verif Require Import GoBase Utf8 Utf8Facts Unicode Replacer Regex RegexFacts Hre FindFacts Subword
  SubwordFacts Rule RuleFacts Scripts Hsl Spec LettersFacts Jamo Procedure.
Open Scope Z_scope.

(** ** Replacers *)
Definition rep_wf (r : replacer) : Prop :=
  length (rr_levels r) = length (rr_word r) /\ rr_repls r = [].

Lemma new_replacer_wf w a b : rep_wf (new_replacer w a b).
Proof. split; [apply repeat_length|reflexivity]. Qed.

Lemma apply_repls_length tb tb' next next' off repls repls' :
  length tb = length tb' ->
  Forall2 (fun x y => rp_start x = rp_start y /\ rp_stop x = rp_stop y /\
                      length (rp_word x) = length (rp_word y)) repls repls' ->
  length (apply_repls tb next off repls) = length (apply_repls tb' next' off repls').
Proof.
  intros Hl H; revert off; induction H as [|x y repls repls' (E1 & E2 & E3) H IH]; intros off;
    cbn [apply_repls]; [rewrite !skipn_length; lia|].
  unfold tag; rewrite !app_length, !firstn_length, !skipn_length, !map_length, (IH (rp_stop x)), Hl, E1, E2, E3.
  reflexivity.
Qed.
Lemma combine_len {A B} (a : list A) (b : list B) : length b = length a -> length (combine a b) = length a.
Proof. intros H; rewrite combine_length; lia. Qed.

Lemma string_total r repls :
  rep_wf r -> ordered_repls (len (rr_word r)) 0 repls ->
  exists r', replacer_string (replace_by r repls) = Ok (r', rr_word r') /\ rep_wf r' /\
    rr_next r' = rr_next r /\
    length (rr_word r') = length (apply_repls (combine (rr_word r) (rr_levels r)) (rr_next r) 0 repls).
Proof.
  intros [Hl Hr] Ho; unfold replacer_string.
  destruct (commit_ok (replace_by r repls)) as (r' & -> & H1 & H2 & H3 & H4).
  - exact Hl.
  - unfold replace_by; cbn [rr_repls rr_word]; rewrite Hr; exact Ho.
  - cbn [bind]; exists r'; split; [reflexivity|]; split; [split; assumption|]; split; [exact H2|].
    rewrite <- (combine_len _ _ H3), H4; unfold replace_by; cbn [rr_repls rr_word rr_levels rr_next].
    rewrite Hr; reflexivity.
Qed.

Lemma subwords_loop_total gs i levels level buf :
  Forall (fun g => 0 < snd g)%nat gs -> (i + gwidth gs <= length levels)%nat ->
  exists sws, subwords_loop gs i levels level buf = Ok sws.
Proof.
  revert i level buf; induction gs as [|[ch w] gs IH]; intros i level buf Hw Hi; cbn [subwords_loop];
    [eexists; reflexivity|].
  inversion Hw as [|? ? Hw0 Hws]; subst; cbn [snd] in Hw0; rewrite gwidth_cons in Hi; cbn [snd] in Hi.
  destruct (index_ok levels (Z.of_nat i)) as (l & ->); [unfold len; lia|]; cbn [bind].
  destruct (l =? level); [apply IH; [exact Hws|lia]|].
  destruct (IH (i + w)%nat l (encode_rune ch) Hws ltac:(lia)) as (t & ->); eexists; reflexivity.
Qed.
Lemma subwords_total r : rep_wf r -> exists sws, replacer_subwords r = Ok (r, sws).
Proof.
  intros [Hl Hr]; unfold replacer_subwords, commit; rewrite Hr; cbn [commit_loop].
  rewrite slice_all, slice_all; cbn [bind].
  assert ({| rr_word := rr_word r; rr_repls := []; rr_levels := rr_levels r; rr_next := rr_next r |} = r) as ->
    by (destruct r; cbn in *; subst; reflexivity).
  destruct (rr_levels r) as [|l lv] eqn:El; [eexists; reflexivity|]; rewrite <- El in *.
  destruct (subwords_loop_total (glyphs (rr_word r)) 0 (rr_levels r) l []) as (sws & ->);
    [apply glyphs_width_pos|rewrite gwidth_glyphs; lia|].
  eexists; reflexivity.
Qed.

(** ** Partitioning *)
Lemma partition_repls_ordered s gs i n :
  Forall (fun g => length (encode_rune (fst g)) = snd g) gs ->
  i + Z.of_nat (gwidth gs) = n -> ordered_repls n i (partition_repls s gs i).
Proof.
  revert i; induction gs as [|[l w] gs IH]; intros i Hw Hn; cbn [partition_repls].
  - rewrite gwidth_nil in Hn; cbn; lia.
  - apply Forall_cons_iff in Hw; destruct Hw as [H0 Hws]; cbn [fst snd] in H0.
    rewrite gwidth_cons in Hn; cbn [snd] in Hn.
    specialize (IH (i + Z.of_nat w) Hws ltac:(lia)).
    destruct (meaningful s l).
    + cbn [ordered_repls rp_start rp_stop]; unfold len; rewrite H0; repeat split; try lia; exact IH.
    + destruct (partition_repls s gs (i + Z.of_nat w)); cbn [ordered_repls] in *; repeat split; try tauto; lia.
Qed.

Lemma partition_total s rs : scalars rs -> exists sws, partition s (encode rs) = Ok sws.
Proof.
  intros Hs; unfold partition.
  assert (Forall (fun g => length (encode_rune (fst g)) = snd g) (glyphs (encode rs))) as Hw.
  { rewrite <- (app_nil_r (encode rs)), glyphs_encode_app by exact Hs.
    cbn [glyphs glyphs_from]; rewrite app_nil_r; apply Forall_map, Forall_forall; intros; reflexivity. }
  unfold replacer_subwords.
  destruct (commit_ok (replace_by (new_replacer (encode rs) 0 1) (partition_repls s (glyphs (encode rs)) 0)))
    as (r' & E & H1 & _ & H3 & _).
  - apply repeat_length.
  - unfold replace_by, new_replacer; cbn [rr_word rr_repls app].
    apply partition_repls_ordered; [exact Hw|rewrite gwidth_glyphs; reflexivity].
  - rewrite E; destruct (subwords_total r' (conj H3 H1)) as (sws & Es).
    unfold replacer_subwords, commit in Es; rewrite H1 in Es; cbn [commit_loop] in Es.
    rewrite !slice_all in Es; cbn [bind rr_levels rr_word] in *.
    destruct (rr_levels r'); [eexists; reflexivity|].
    destruct (subwords_loop _ _ _ _ _); cbn [bind] in *; try discriminate; eexists; reflexivity.
Qed.

(** ** Rules that work on every word *)
Definition works (r : rule) : Prop :=
  forall word, exists repls, replacements r word = Ok repls /\ ordered_repls (len word) 0 repls.
Definition numbered (rules : list rule) : Prop :=
  forall i r, nth_error rules i = Some r -> rule_id r = Z.of_nat i.

(** The records of a subwordsTracer: the rules from the first on. *)
Definition recs_wf (nsub : nat) (rules : list rule) (recs : records) : Prop :=
  exists l, recs = map Some l /\ map st_rule l = firstn (length l) rules /\
            (length l <= length rules)%nat /\
            Forall (fun r => length (st_subwords r) = nsub) l.

Lemma set_nth_ok {A} (l : list A) i x :
  (i < length l)%nat -> set_nth l i x = Some (firstn i l ++ x :: skipn (S i) l).
Proof.
  revert i; induction l as [|y l IH]; intros i H; [cbn in H; lia|].
  destruct i as [|i]; [reflexivity|]; cbn [set_nth firstn skipn app] in *.
  rewrite IH by (cbn in H; lia); reflexivity.
Qed.

Lemma firstn_add_one {A} (l : list A) k x :
  nth_error l k = Some x -> firstn (k + 1) l = firstn k l ++ [x].
Proof.
  revert k; induction l as [|y l IH]; intros [|k] H; try discriminate; cbn [Nat.add firstn app] in *.
  - injection H as ->; reflexivity.
  - rewrite (IH _ H); reflexivity.
Qed.
Lemma nth_split_at {A} (l : list A) k x :
  nth_error l k = Some x -> l = firstn k l ++ x :: skipn (S k) l.
Proof.
  revert k; induction l as [|y l IH]; intros [|k] H; try discriminate; cbn [nth_error firstn skipn app] in *.
  - injection H as ->; reflexivity.
  - f_equal; apply IH; exact H.
Qed.

Lemma record_ok nsub rules recs k r i word :
  numbered rules -> nth_error rules k = Some r -> recs_wf nsub rules recs ->
  (k <= length recs)%nat -> (i < nsub)%nat ->
  exists recs', record_subword true nsub recs (Z.of_nat i) word r = Ok recs' /\
    recs_wf nsub rules recs' /\ (k < length recs')%nat /\ (length recs <= length recs')%nat.
Proof.
  intros Hnum Hr (l & -> & Hl & Hle & Hn) Hk Hi; rewrite map_length in Hk.
  unfold record_subword; cbn [negb]; rewrite (Hnum _ _ Hr); unfold len; rewrite map_length.
  assert (forall x, length (st_subwords x) = nsub ->
    set_index (st_subwords x) (Z.of_nat i) (Some word)
    = Ok (firstn i (st_subwords x) ++ Some word :: skipn (S i) (st_subwords x))) as Hset.
  { intros x Hx; unfold set_index; replace (Z.of_nat i <? 0) with false by lia.
    rewrite Nat2Z.id, set_nth_ok by lia; reflexivity. }
  assert (forall x : strecord, length (st_subwords x) = nsub ->
    length (firstn i (st_subwords x) ++ Some word :: skipn (S i) (st_subwords x)) = nsub) as Hlen.
  { intros x Hx; rewrite app_length, firstn_length; cbn [length]; rewrite skipn_length; lia. }
  destruct (Z.of_nat (length l) <? Z.of_nat k + 1) eqn:E.
  - assert (k = length l) as -> by lia.
    replace (Z.to_nat (Z.of_nat (length l) + 1 - Z.of_nat (length l))) with 1%nat by lia; cbn [repeat].
    assert (len (map Some l) = Z.of_nat (length l)) as El by (unfold len; rewrite map_length; reflexivity).
    assert (index (map Some l ++ [None]) (Z.of_nat (length l)) = Ok (@None strecord)) as ->
      by (rewrite <- El; apply index_app_mid).
    cbn [bind].
    set (x0 := {| st_rule := r; st_subwords := repeat None nsub |}).
    rewrite (Hset x0) by apply repeat_length; cbn [bind].
    unfold set_index; replace (Z.of_nat (length l) <? 0) with false by lia; rewrite Nat2Z.id.
    rewrite set_nth_ok by (rewrite app_length, map_length; cbn; lia).
    rewrite firstn_app, map_length, Nat.sub_diag, firstn_all2 by (rewrite map_length; lia); cbn [firstn].
    assert (skipn (S (length l)) (map Some l ++ [@None strecord]) = []) as ->
      by (apply skipn_all2; rewrite app_length, map_length; cbn; lia).
    rewrite app_nil_r.
    eexists; split; [reflexivity|].
    assert (length l < length rules)%nat as Hlt by (apply nth_error_Some; congruence).
    split; [|rewrite app_length, map_length; cbn; lia].
    exists (l ++ [{| st_rule := st_rule x0;
                     st_subwords := firstn i (st_subwords x0) ++ Some word :: skipn (S i) (st_subwords x0) |}]).
    split; [rewrite map_app; reflexivity|].
    split; [|split; [rewrite app_length; cbn; lia|]].
    + rewrite map_app, app_length, Hl; cbn [map length st_rule].
      rewrite (firstn_add_one rules (length l) r) by exact Hr; reflexivity.
    + apply Forall_app; split; [exact Hn|]; repeat constructor; cbn [st_subwords]; apply (Hlen x0), repeat_length.
  - assert (k < length l)%nat as Hlt by lia.
    destruct (nth_error l k) as [x|] eqn:Ex; [|apply nth_error_None in Ex; lia].
    assert (length (st_subwords x) = nsub) as Hx
      by (rewrite Forall_forall in Hn; apply Hn; eapply nth_error_In; exact Ex).
    assert (index (map Some l) (Z.of_nat k) = Ok (Some x)) as ->.
    { unfold index; replace (0 <=? Z.of_nat k) with true by lia; rewrite Nat2Z.id, nth_error_map, Ex; reflexivity. }
    cbn [bind]; rewrite (Hset x Hx); cbn [bind].
    unfold set_index; replace (Z.of_nat k <? 0) with false by lia; rewrite Nat2Z.id.
    rewrite set_nth_ok by (rewrite map_length; lia).
    eexists; split; [reflexivity|].
    set (x' := {| st_rule := st_rule x;
                  st_subwords := firstn i (st_subwords x) ++ Some word :: skipn (S i) (st_subwords x) |}).
    assert (length (firstn k l ++ x' :: skipn (S k) l) = length l) as El.
    { rewrite app_length, firstn_length; cbn [length]; rewrite skipn_length; lia. }
    split; [|rewrite app_length, firstn_length, map_length; cbn [length]; rewrite skipn_length, map_length; lia].
    exists (firstn k l ++ x' :: skipn (S k) l); rewrite El.
    split; [rewrite map_app; cbn [map]; rewrite firstn_map, skipn_map; reflexivity|].
    assert (l = firstn k l ++ x :: skipn (S k) l) as Esplit by (apply nth_split_at; exact Ex).
    split; [|split; [lia|]].
    + rewrite <- Hl, Esplit at 1; rewrite !map_app; cbn [map]; subst x'; cbn [st_rule].
      replace (firstn k (firstn k l ++ x :: skipn (S k) l)) with (firstn k l) by (rewrite <- Esplit; reflexivity).
      replace (skipn (S k) (firstn k l ++ x :: skipn (S k) l)) with (skipn (S k) l) by (rewrite <- Esplit; reflexivity).
      rewrite Esplit at 3; rewrite map_app; reflexivity.
    + rewrite Esplit in Hn; apply Forall_app in Hn; destruct Hn as [Hn1 Hn2]; apply Forall_cons_iff in Hn2; destruct Hn2 as [_ Hn2].
      apply Forall_app; split; [exact Hn1|]; constructor; [subst x'; cbn [st_subwords]; apply Hlen; exact Hx|assumption].
Qed.

Lemma nth_error_skip {A} (l : list A) k x rest : skipn k l = x :: rest -> nth_error l k = Some x.
Proof.
  revert l; induction k as [|k IH]; intros l H; [cbn in H; subst; reflexivity|].
  destruct l as [|y l]; [discriminate|]; apply IH; exact H.
Qed.
Lemma skipn_next {A} (l : list A) k x rest : skipn k l = x :: rest -> skipn (S k) l = rest.
Proof.
  revert l; induction k as [|k IH]; intros l H; [cbn in H; subst; reflexivity|].
  destruct l as [|y l]; [discriminate|]; apply IH; exact H.
Qed.

(** ** Tracing does not disturb the rules *)
Section Tracing.
  Context (nsub : nat) (rules0 : list rule) (Hnum : numbered rules0).

  Lemma rewrite_rules_trace k rules i word rep recs recs0 :
    skipn k rules0 = rules -> recs_wf nsub rules0 recs -> (k <= length recs)%nat -> (i < nsub)%nat ->
    map_res fst (rewrite_rules true nsub rules (Z.of_nat i) word rep recs)
    = map_res fst (rewrite_rules false nsub rules (Z.of_nat i) word rep recs0) /\
    forall rep' recs', rewrite_rules true nsub rules (Z.of_nat i) word rep recs = Ok (rep', recs') ->
                       recs_wf nsub rules0 recs'.
  Proof.
    revert k word rep recs recs0; induction rules as [|r rules IH]; intros k word rep recs recs0 Hk Hwf Hlen Hi;
      cbn [rewrite_rules].
    - split; [reflexivity|]; intros rep' recs' H; injection H as <- <-; exact Hwf.
    - destruct (replacements r word) as [repls| | | | |]; cbn [bind map_res];
        try (split; [reflexivity|discriminate]).
      destruct (replacer_string (replace_by rep repls)) as [[rep1 word1]| | | | |]; cbn [bind map_res];
        try (split; [reflexivity|discriminate]).
      pose proof (nth_error_skip _ _ _ _ Hk) as Hr.
      destruct (record_ok nsub rules0 recs k r i word1 Hnum Hr Hwf Hlen Hi) as (recs1 & -> & Hwf1 & Hk1 & _).
      cbn [bind record_subword negb].
      apply (IH (S k)); [|exact Hwf1|lia|exact Hi].
      exact (skipn_next _ _ _ _ Hk).
  Qed.

  Lemma transcribe_rules_trace k rules i word rep dummy recs recs0 :
    skipn k rules0 = rules -> recs_wf nsub rules0 recs -> (k <= length recs)%nat -> (i < nsub)%nat ->
    map_res fst (transcribe_rules true nsub rules (Z.of_nat i) word rep dummy recs)
    = map_res fst (transcribe_rules false nsub rules (Z.of_nat i) word rep dummy recs0) /\
    forall rep' recs', transcribe_rules true nsub rules (Z.of_nat i) word rep dummy recs = Ok (rep', recs') ->
                       recs_wf nsub rules0 recs'.
  Proof.
    revert k word rep dummy recs recs0; induction rules as [|r rules IH];
      intros k word rep dummy recs recs0 Hk Hwf Hlen Hi; cbn [transcribe_rules].
    - split; [reflexivity|]; intros rep' recs' H; injection H as <- <-; exact Hwf.
    - destruct (replacements r word) as [repls| | | | |]; cbn [bind map_res];
        try (split; [reflexivity|discriminate]).
      destruct (replacer_string (replace_by dummy (map mask repls))) as [[dummy1 word1]| | | | |];
        cbn [bind map_res]; try (split; [reflexivity|discriminate]).
      destruct (replacer_string (replace_by rep repls)) as [[rep1 shown]| | | | |]; cbn [bind map_res];
        try (split; [reflexivity|discriminate]).
      pose proof (nth_error_skip _ _ _ _ Hk) as Hr.
      destruct (record_ok nsub rules0 recs k r i shown Hnum Hr Hwf Hlen Hi) as (recs1 & -> & Hwf1 & Hk1 & _).
      cbn [bind record_subword negb].
      apply (IH (S k)); [|exact Hwf1|lia|exact Hi].
      exact (skipn_next _ _ _ _ Hk).
  Qed.

  Lemma rewrite_loop_trace i sws buf recs recs0 :
    recs_wf nsub rules0 recs -> (i + length sws <= nsub)%nat ->
    map_res fst (rewrite_loop true nsub rules0 (Z.of_nat i) sws buf recs)
    = map_res fst (rewrite_loop false nsub rules0 (Z.of_nat i) sws buf recs0) /\
    forall buf' recs', rewrite_loop true nsub rules0 (Z.of_nat i) sws buf recs = Ok (buf', recs') ->
                       recs_wf nsub rules0 recs'.
  Proof.
    revert i buf recs recs0; induction sws as [|sw sws IH]; intros i buf recs recs0 Hwf Hi; cbn [rewrite_loop].
    - split; [reflexivity|]; intros buf' recs' H; injection H as <- <-; exact Hwf.
    - cbn [length] in Hi.
      destruct (rewrite_rules_trace 0 rules0 i (sw_word sw) (new_replacer (sw_word sw) (sw_level sw) 1) recs recs0
                  eq_refl Hwf ltac:(lia) ltac:(lia)) as [E Hr].
      destruct (rewrite_rules true _ _ _ _ _ recs) as [[rep recs1]|e|p| | |];
        destruct (rewrite_rules false _ _ _ _ _ recs0) as [[rep' recs1']|e'|p'| | |]; cbn [map_res fst] in E;
        try discriminate; try (injection E as <-); cbn [bind map_res]; try (split; [reflexivity|discriminate]).
      destruct (replacer_subwords rep) as [[r2 out]| | | | |]; cbn [bind map_res]; try (split; [reflexivity|discriminate]).
      replace (Z.of_nat i + 1) with (Z.of_nat (S i)) by lia.
      apply IH; [exact (Hr _ _ eq_refl)|lia].
  Qed.

  Lemma transcribe_loop_trace i sws buf recs recs0 :
    recs_wf nsub rules0 recs -> (i + length sws <= nsub)%nat ->
    map_res fst (transcribe_loop true nsub rules0 (Z.of_nat i) sws buf recs)
    = map_res fst (transcribe_loop false nsub rules0 (Z.of_nat i) sws buf recs0) /\
    forall buf' recs', transcribe_loop true nsub rules0 (Z.of_nat i) sws buf recs = Ok (buf', recs') ->
                       recs_wf nsub rules0 recs'.
  Proof.
    revert i buf recs recs0; induction sws as [|sw sws IH]; intros i buf recs recs0 Hwf Hi; cbn [transcribe_loop].
    - split; [reflexivity|]; intros buf' recs' H; injection H as <- <-; exact Hwf.
    - cbn [length] in Hi; replace (Z.of_nat i + 1) with (Z.of_nat (S i)) by lia.
      destruct (sw_level sw =? 0); [apply IH; [exact Hwf|lia]|].
      destruct (transcribe_rules_trace 0 rules0 i (sw_word sw) (new_replacer (sw_word sw) (sw_level sw) 2)
                  (new_replacer (sw_word sw) 0 0) recs recs0
                  eq_refl Hwf ltac:(lia) ltac:(lia)) as [E Hr].
      destruct (transcribe_rules true _ _ _ _ _ _ recs) as [[rep recs1]|e|p| | |];
        destruct (transcribe_rules false _ _ _ _ _ _ recs0) as [[rep' recs1']|e'|p'| | |]; cbn [map_res fst] in E;
        try discriminate; try (injection E as <-); cbn [bind map_res]; try (split; [reflexivity|discriminate]).
      destruct (replacer_subwords rep) as [[r2 out]| | | | |]; cbn [bind map_res]; try (split; [reflexivity|discriminate]).
      apply IH; [exact (Hr _ _ eq_refl)|lia].
  Qed.
End Tracing.

Lemma recs_wf_nil nsub rules : recs_wf nsub rules [].
Proof. exists []; repeat split; [cbn; lia|constructor]. Qed.

Lemma commit_records_total tr step sws nsub rules recs :
  recs_wf nsub rules recs -> exists tr', commit_records tr step sws recs = Ok tr'.
Proof.
  intros (l & -> & _ & _ & _); revert tr sws; induction l as [|r l IH]; intros tr sws; cbn [map commit_records];
    [eexists; reflexivity|apply IH].
Qed.

(** ** What the tracer holds *)
Definition rank (s : step_name) : nat :=
  match s with
  | SInput => 0 | STransliterate => 1 | SNormalize => 2 | SRewrite => 3 | STranscribe => 4
  | SSyllabify => 5 | SLocalize => 6
  end.
(** A newer event after an older one. *)
Definition follows (newer older : trace) : Prop :=
  t_word newer <> t_word older /\
  ((rank (t_step older) < rank (t_step newer))%nat \/
   t_step older = t_step newer /\
   match t_rule older, t_rule newer with
   | Some a, Some b => rule_id a < rule_id b
   | _, _ => True
   end).
Definition names_rule (rw tc : list rule) (e : trace) : Prop :=
  match t_step e with
  | SRewrite => exists r, t_rule e = Some r /\ In r rw
  | STranscribe => exists r, t_rule e = Some r /\ In r tc
  | _ => t_rule e = None
  end.
(** Events, latest first. *)
Fixpoint log_ok (evs : list trace) : Prop :=
  match evs with
  | [] => True
  | e :: older =>
    match older with [] => t_word e <> [] | o :: _ => follows e o end /\ log_ok older
  end.
Definition last_word (evs : list trace) : bytes := match evs with [] => [] | e :: _ => t_word e end.
Definition ready (rw tc : list rule) (k : nat) (m : Z) (tr : tracer) : Prop :=
  match tr with
  | None => True
  | Some (prev, evs) =>
    prev = last_word evs /\ log_ok evs /\ Forall (names_rule rw tc) evs /\
    match evs with
    | [] => True
    | e :: _ => (rank (t_step e) < k)%nat \/
                (rank (t_step e) = k /\ match t_rule e with Some r => rule_id r < m | None => True end)
    end
  end.

Lemma rank_inj a b : rank a = rank b -> a = b.
Proof. destruct a, b; cbn; congruence. Qed.

Lemma emit_ready rw tc m m' tr t :
  ready rw tc (rank (t_step t)) m tr -> names_rule rw tc t ->
  match t_rule t with Some r => m <= rule_id r < m' | None => True end -> m <= m' ->
  ready rw tc (rank (t_step t)) m' (emit tr t).
Proof.
  destruct tr as [[prev evs]|]; [|intros; exact I]; cbn [ready emit].
  intros (-> & Hlog & Hn & Hlast) Hname Hrule Hm.
  destruct (beqb (last_word evs) (t_word t)) eqn:E.
  - split; [reflexivity|]; split; [exact Hlog|]; split; [exact Hn|].
    destruct evs as [|e evs]; [exact I|]; destruct Hlast as [H|[H1 H2]]; [left; exact H|right; split; [exact H1|]].
    destruct (t_rule e); [lia|exact I].
  - apply beqb_neq in E; split; [reflexivity|]; split; [|split; [constructor; assumption|]].
    + cbn [log_ok]; split; [|exact Hlog]; destruct evs as [|o evs]; [cbn in E; congruence|].
      split; [cbn in E; congruence|]; destruct Hlast as [H|[H1 H2]]; [left; exact H|right].
      split; [apply rank_inj; exact H1|]; destruct (t_rule o), (t_rule t); try exact I; lia.
    + right; split; [reflexivity|]; destruct (t_rule t); [lia|exact I].
Qed.

Lemma ready_next rw tc k k' m m' tr : (k < k')%nat -> ready rw tc k m tr -> ready rw tc k' m' tr.
Proof.
  intros H; destruct tr as [[prev evs]|]; [|intros; exact I]; cbn [ready].
  intros (H1 & H2 & H3 & H4); repeat split; try assumption.
  destruct evs; [exact I|]; left; destruct H4 as [H4|[H4 _]]; lia.
Qed.

Lemma trace_word_ready rw tc m tr step word why :
  step <> SRewrite -> step <> STranscribe -> ready rw tc (rank step) m tr ->
  ready rw tc (rank step) m (trace_word tr step word why).
Proof.
  intros H1 H2 H; unfold trace_word.
  apply (emit_ready rw tc m m tr {| t_step := step; t_word := word; t_why := why; t_rule := None |});
    [exact H| |exact I|lia].
  unfold names_rule; cbn [t_step t_rule]; destruct step; congruence.
Qed.

Lemma commit_records_ready rw tc step rules nsub recs tr sws tr' :
  (step = SRewrite /\ rules = rw) \/ (step = STranscribe /\ rules = tc) ->
  numbered rules -> recs_wf nsub rules recs -> ready rw tc (rank step) 0 tr ->
  commit_records tr step sws recs = Ok tr' -> ready rw tc (rank step) (Z.of_nat (length recs)) tr'.
Proof.
  intros Hstep Hnum (l & -> & Hl & Hle & _).
  assert (forall j tr sws, map st_rule l = firstn (length l) (skipn j rules) ->
    ready rw tc (rank step) (Z.of_nat j) tr -> commit_records tr step sws (map Some l) = Ok tr' ->
    ready rw tc (rank step) (Z.of_nat (j + length l)) tr') as H.
  { clear Hl Hle tr sws; induction l as [|r l IH]; intros j tr sws Hl Hr H; cbn [map commit_records] in H.
    - injection H as <-; rewrite Nat.add_0_r; exact Hr.
    - cbn [map length] in Hl; destruct (skipn j rules) as [|r0 rest] eqn:Es; [discriminate|].
      cbn [firstn] in Hl; injection Hl as E0 Hl.
      pose proof (nth_error_skip _ _ _ _ Es) as Hr0; pose proof (skipn_next _ _ _ _ Es) as Es'.
      cbn [length]; replace (j + S (length l))%nat with (S j + length l)%nat by lia.
      refine (IH (S j) _ _ _ _ H); [rewrite Es'; exact Hl|].
      destruct (existsb is_some (st_subwords r)).
      + match goal with |- ready _ _ _ _ (emit _ ?t) => apply (emit_ready rw tc (Z.of_nat j) (Z.of_nat (S j)) tr t) end;
          cbn [t_step t_rule]; [exact Hr| | |lia].
        * unfold names_rule; cbn [t_step t_rule].
          destruct Hstep as [[-> ->]|[-> ->]]; exists (st_rule r); (split; [reflexivity|]);
            rewrite E0; eapply nth_error_In; exact Hr0.
        * rewrite E0, (Hnum _ _ Hr0); lia.
      + destruct tr as [[prev evs]|]; [|exact I]; destruct Hr as (H1 & H2 & H3 & H4); repeat split; try assumption.
        destruct evs as [|e evs]; [exact I|]; destruct H4 as [H4|[H4 H5]]; [left; exact H4|right; split; [exact H4|]].
        destruct (t_rule e); [lia|exact I]. }
  intros Hr Hc; rewrite map_length; apply (H 0%nat tr sws); [exact Hl|exact Hr|exact Hc].
Qed.

(** ** The phases with and without a tracer *)
Definition spec_numbered (s : spec) : Prop := numbered (s_rewrite s) /\ numbered (s_transcribe s).

Lemma rewrite_trace s tr sws :
  numbered (s_rewrite s) ->
  map_res snd (rewrite s tr sws) = map_res snd (rewrite s None sws).
Proof.
  intros Hn; unfold rewrite; cbn [is_some]; destruct tr as [x|]; [|reflexivity]; cbn [is_some].
  destruct (rewrite_loop_trace (length sws) (s_rewrite s) Hn 0 sws [] [] [] (recs_wf_nil _ _) (Nat.le_refl _)) as [E Hr].
  change (Z.of_nat 0) with 0 in *.
  destruct (rewrite_loop true _ _ _ _ _ _) as [[buf recs]|e|p| | |];
    destruct (rewrite_loop false _ _ _ _ _ _) as [[buf' recs']|e'|p'| | |]; cbn [map_res fst] in E;
    try discriminate; try (injection E as <-); cbn [bind map_res]; try reflexivity.
  unfold trace_commit; cbn [bind map_res].
  destruct (commit_records_total (Some x) SRewrite sws _ _ recs (Hr _ _ eq_refl)) as (tr' & ->); reflexivity.
Qed.
Lemma transcribe_trace s tr sws :
  numbered (s_transcribe s) ->
  map_res snd (transcribe s tr sws) = map_res snd (transcribe s None sws).
Proof.
  intros Hn; unfold transcribe; cbn [is_some]; destruct tr as [x|]; [|reflexivity]; cbn [is_some].
  destruct (transcribe_loop_trace (length sws) (s_transcribe s) Hn 0 sws [] [] [] (recs_wf_nil _ _) (Nat.le_refl _)) as [E Hr].
  change (Z.of_nat 0) with 0 in *.
  destruct (transcribe_loop true _ _ _ _ _ _) as [[buf recs]|e|p| | |];
    destruct (transcribe_loop false _ _ _ _ _ _) as [[buf' recs']|e'|p'| | |]; cbn [map_res fst] in E;
    try discriminate; try (injection E as <-); cbn [bind map_res]; try reflexivity.
  unfold trace_commit; cbn [bind map_res].
  destruct (commit_records_total (Some x) STranscribe sws _ _ recs (Hr _ _ eq_refl)) as (tr' & ->); reflexivity.
Qed.

Lemma after_translit_trace H s tr word :
  spec_numbered s ->
  map_res snd (after_translit H s tr word) = map_res snd (after_translit H s None word).
Proof.
  intros [Hr Ht]; unfold after_translit, normalize.
  destruct (partition s _) as [sws0| | | | |]; cbn [bind map_res]; try reflexivity.
  match goal with |- context [rewrite s ?t sws0] =>
    pose proof (rewrite_trace s t sws0 Hr) as E1; destruct (rewrite s t sws0) as [[tr2 sws1]| | | | |] end;
    destruct (rewrite s None sws0) as [[tr2' sws1']| | | | |] eqn:En; cbn [map_res snd] in E1;
    try discriminate; cbn [trace_word emit]; rewrite En; cbn [bind map_res]; try congruence.
  injection E1 as <-.
  assert (tr2' = None) as ->.
  { unfold rewrite in En; cbn [is_some] in En.
    destruct (rewrite_loop false _ _ _ _ _ _) as [[b r]| | | | |]; cbn in En; congruence. }
  pose proof (transcribe_trace s tr2 sws1 Ht) as E2.
  destruct (transcribe s tr2 sws1) as [[tr3 sws2]| | | | |];
    destruct (transcribe s None sws1) as [[tr3' sws2']| | | | |] eqn:Et; cbn [map_res snd] in E2;
    try discriminate; cbn [bind map_res]; try congruence.
  injection E2 as <-; reflexivity.
Qed.

Lemma transliterate_trace {W} schemes (reg : list (bytes * translit W)) w tr tr' word :
  fst (fst (transliterate schemes reg w tr word)) = fst (fst (transliterate schemes reg w tr' word)) /\
  snd (transliterate schemes reg w tr word) = snd (transliterate schemes reg w tr' word).
Proof.
  revert w tr tr' word; induction schemes as [|sc schemes IH]; intros w tr tr' word; cbn [transliterate];
    [split; reflexivity|].
  destruct (lookup reg sc) as [t|]; [|split; reflexivity].
  destruct (tl_run t w word) as [w1 [word1| | | | |]]; try (split; reflexivity); apply IH.
Qed.

(** The world and the outcome do not depend on tracing. *)
Lemma forward_trace {W} H s (reg : list (bytes * translit W)) w word :
  spec_numbered s ->
  let '(w1, _, r1) := forward H s reg true w word in
  let '(w2, _, r2) := forward H s reg false w word in
  w1 = w2 /\ r1 = r2.
Proof.
  intros Hn; unfold forward.
  match goal with |- context [transliterate ?a ?b ?c ?d ?e] =>
    destruct (transliterate_trace a b c d (trace_word (new_tracer false) SInput word []) e) as [E1 E2];
    destruct (transliterate a b c d e) as [[w1 tr1] r1] end.
  destruct (transliterate _ _ _ (trace_word (new_tracer false) SInput word []) _) as [[w2 tr2] r2].
  cbn [fst snd] in E1, E2; subst w2 r2.
  destruct r1 as [word1| | | | |]; try (split; reflexivity).
  pose proof (after_translit_trace H s tr1 word1 Hn) as E1.
  rewrite <- (after_translit_trace H s tr2 word1 Hn) in E1.
  destruct (after_translit H s tr1 word1) as [[tr3 x]| | | | |];
    destruct (after_translit H s tr2 word1) as [[tr4 y]| | | | |]; cbn [map_res snd] in *;
    try discriminate; split; congruence.
Qed.

(** ** The events of one call *)
Lemma rewrite_ready s tr sws tr' out :
  spec_numbered s -> ready (s_rewrite s) (s_transcribe s) 2 0 tr ->
  rewrite s tr sws = Ok (tr', out) ->
  (tr' = None <-> tr = None) /\ ready (s_rewrite s) (s_transcribe s) 4 0 tr'.
Proof.
  intros [Hn _] Hr; unfold rewrite; destruct tr as [x|]; cbn [is_some].
  - destruct (rewrite_loop_trace (length sws) (s_rewrite s) Hn 0 sws [] [] [] (recs_wf_nil _ _) (Nat.le_refl _)) as [_ Hw].
    change (Z.of_nat 0) with 0 in *.
    destruct (rewrite_loop true _ _ _ _ _ _) as [[buf recs]|e|p| | |]; cbn [bind]; try discriminate.
    unfold trace_commit.
    destruct (commit_records (Some x) SRewrite sws recs) as [t| | | | |] eqn:E; cbn [bind]; try discriminate.
    intros H; injection H as <- <-.
    pose proof (commit_records_ready _ (s_transcribe s) SRewrite (s_rewrite s) _ recs (Some x) sws t
      (or_introl (conj eq_refl eq_refl)) Hn (Hw _ _ eq_refl)
      (ready_next _ _ 2 3 0 0 _ ltac:(lia) Hr) E) as Hready.
    split; [|eapply ready_next; [|exact Hready]; cbn; lia].
    split; [|discriminate]; intros ->; exfalso.
    clear - E; destruct x as [prev evs]; revert prev evs sws E.
    induction recs as [|[r|] recs IH]; intros prev evs sws E; cbn [commit_records] in E; try discriminate.
    destruct (existsb is_some (st_subwords r)); [|eapply IH; exact E].
    unfold emit in E; destruct (beqb prev _); eapply IH; exact E.
  - destruct (rewrite_loop false _ _ _ _ _ _) as [[buf recs]|e|p| | |]; cbn [bind trace_commit]; try discriminate.
    intros H; injection H as <- <-; split; [tauto|exact I].
Qed.
Lemma transcribe_ready s tr sws tr' out :
  spec_numbered s -> ready (s_rewrite s) (s_transcribe s) 4 0 tr ->
  transcribe s tr sws = Ok (tr', out) ->
  (tr' = None <-> tr = None) /\ ready (s_rewrite s) (s_transcribe s) 5 0 tr'.
Proof.
  intros [_ Hn] Hr; unfold transcribe; destruct tr as [x|]; cbn [is_some].
  - destruct (transcribe_loop_trace (length sws) (s_transcribe s) Hn 0 sws [] [] [] (recs_wf_nil _ _) (Nat.le_refl _)) as [_ Hw].
    change (Z.of_nat 0) with 0 in *.
    destruct (transcribe_loop true _ _ _ _ _ _) as [[buf recs]|e|p| | |]; cbn [bind]; try discriminate.
    unfold trace_commit.
    destruct (commit_records (Some x) STranscribe sws recs) as [t| | | | |] eqn:E; cbn [bind]; try discriminate.
    intros H; injection H as <- <-.
    pose proof (commit_records_ready (s_rewrite s) (s_transcribe s) STranscribe (s_transcribe s) _ recs (Some x) sws t
      (or_intror (conj eq_refl eq_refl)) Hn (Hw _ _ eq_refl) Hr E) as Hready.
    split; [|eapply ready_next; [|exact Hready]; cbn; lia].
    split; [|discriminate]; intros ->; exfalso.
    clear - E; destruct x as [prev evs]; revert prev evs sws E.
    induction recs as [|[r|] recs IH]; intros prev evs sws E; cbn [commit_records] in E; try discriminate.
    destruct (existsb is_some (st_subwords r)); [|eapply IH; exact E].
    unfold emit in E; destruct (beqb prev _); eapply IH; exact E.
  - destruct (transcribe_loop false _ _ _ _ _ _) as [[buf recs]|e|p| | |]; cbn [bind trace_commit]; try discriminate.
    intros H; injection H as <- <-; split; [tauto|exact I].
Qed.

Lemma trace_word_some tr step word why : trace_word tr step word why = None <-> tr = None.
Proof.
  destruct tr as [[prev evs]|]; [|split; reflexivity].
  unfold trace_word, emit; destruct (beqb _ _); split; discriminate.
Qed.
Lemma trace_word_last prev evs step word why p' evs' :
  trace_word (Some (prev, evs)) step word why = Some (p', evs') -> p' = word.
Proof.
  unfold trace_word, emit; cbn [t_word]; destruct (beqb prev word) eqn:E; intros H; injection H as <- <-.
  - apply beqb_eq; exact E.
  - reflexivity.
Qed.

Lemma after_translit_ready H s tr word tr' out :
  spec_numbered s -> ready (s_rewrite s) (s_transcribe s) 1 0 tr ->
  after_translit H s tr word = Ok (tr', out) ->
  ready (s_rewrite s) (s_transcribe s) 6 0 tr' /\
  match tr' with Some (prev, _) => prev = out | None => tr = None end.
Proof.
  intros Hn Hr; unfold after_translit, normalize.
  match goal with |- context [partition s ?w] => destruct (partition s w) as [sws0| | | | |]; cbn [bind]; try discriminate end.
  match goal with |- context [rewrite s ?t sws0] => assert (ready (s_rewrite s) (s_transcribe s) 2 0 t) as R2 end.
  { change 2%nat with (rank SNormalize); do 2 (apply trace_word_ready; [discriminate|discriminate|]).
    eapply ready_next; [|exact Hr]; cbn; lia. }
  match goal with |- context [rewrite s ?t sws0] => destruct (rewrite s t sws0) as [[tr2 sws1]| | | | |] eqn:E1 end;
    cbn [bind]; try discriminate.
  destruct (rewrite_ready _ _ _ _ _ Hn R2 E1) as [N2 R3].
  destruct (transcribe s tr2 sws1) as [[tr3 sws2]| | | | |] eqn:E2; cbn [bind]; try discriminate.
  destruct (transcribe_ready _ _ _ _ _ Hn R3 E2) as [N3 R4].
  unfold syllabify, localize; intros E; injection E as <- <-; split.
  - change 6%nat with (rank SLocalize); apply trace_word_ready; [discriminate|discriminate|].
    eapply (ready_next _ _ 5); [cbn; lia|].
    change 5%nat with (rank SSyllabify); apply trace_word_ready; [discriminate|discriminate|exact R4].
  - match goal with |- match ?t with _ => _ end => destruct t as [[p evs]|] eqn:Et end.
    + destruct (trace_word tr3 SSyllabify _ []) as [[p0 evs0]|] eqn:E0; [|discriminate].
      exact (trace_word_last _ _ _ _ _ _ _ Et).
    + apply trace_word_some, trace_word_some, N3, N2, trace_word_some, trace_word_some in Et; exact Et.
Qed.

Lemma transliterate_ready {W} schemes (reg : list (bytes * translit W)) rw tc w tr word :
  ready rw tc 1 0 tr -> ready rw tc 1 0 (snd (fst (transliterate schemes reg w tr word))) /\
  (snd (fst (transliterate schemes reg w tr word)) = None <-> tr = None).
Proof.
  revert w tr word; induction schemes as [|sc schemes IH]; intros w tr word Hr; cbn [transliterate];
    [split; [exact Hr|cbn; tauto]|].
  destruct (lookup reg sc) as [t|]; [|split; [exact Hr|cbn; tauto]].
  destruct (tl_run t w word) as [w1 [word1| | | | |]]; try (split; [exact Hr|cbn; tauto]).
  destruct (IH w1 (trace_word tr STransliterate word1 (tl_scheme t)) word1) as [H1 H2].
  { change 1%nat with (rank STransliterate); apply trace_word_ready; [discriminate|discriminate|exact Hr]. }
  split; [exact H1|]; rewrite H2; apply trace_word_some.
Qed.

Lemma forward_log {W} H s (reg : list (bytes * translit W)) w word w1 tr r :
  spec_numbered s -> forward H s reg true w word = (w1, tr, r) ->
  exists evs, tr = Some (last_word evs, evs) /\ log_ok evs /\
    Forall (names_rule (s_rewrite s) (s_transcribe s)) evs /\
    forall out, r = Ok out -> last_word evs = out.
Proof.
  intros Hn; unfold forward.
  destruct (transliterate_ready (l_translit (s_lang s)) reg (s_rewrite s) (s_transcribe s) w
              (trace_word (new_tracer true) SInput word []) word) as [R N0].
  { apply (ready_next _ _ 0 1 0 0); [lia|].
    change 0%nat with (rank SInput); apply trace_word_ready; [discriminate|discriminate|].
    cbn; repeat split; constructor. }
  destruct (transliterate _ _ _ _ _) as [[w2 tr1] r1]; cbn [fst snd] in R, N0.
  assert (tr1 <> None) as Hsome.
  { intros E; apply N0, trace_word_some in E; discriminate. }
  assert (forall tr, ready (s_rewrite s) (s_transcribe s) 1 0 tr -> tr <> None ->
    exists evs, tr = Some (last_word evs, evs) /\ log_ok evs /\
    Forall (names_rule (s_rewrite s) (s_transcribe s)) evs) as Hx.
  { intros [[p evs]|] Hr Hs; [|contradiction]; destruct Hr as (-> & H1 & H2 & _); exists evs; auto. }
  destruct (Hx tr1 R Hsome) as (evs1 & Etr & L1 & L2).
  destruct r1 as [word1| | | | |];
    try (intros E; injection E as <- <- <-; exists evs1; repeat split; try assumption; intros; discriminate).
  destruct (after_translit H s tr1 word1) as [[tr2 out]| | | | |] eqn:E; cbn [map_res];
    try (intros E'; injection E' as <- <- <-; exists evs1; repeat split; try assumption; intros; discriminate).
  intros E'; injection E' as <- <- <-.
  destruct (after_translit_ready _ _ _ _ _ _ Hn R E) as [R6 Hlast].
  destruct tr2 as [[p evs]|]; [|contradiction].
  destruct R6 as (-> & H1 & H2 & _); exists evs; repeat split; try assumption.
  intros out' E'; injection E' as <-; exact Hlast.
Qed.

(** ** Specs whose rules work always transcribe *)
Lemma rewrite_rules_total nsub rules i rep :
  Forall works rules -> rep_wf rep ->
  forall recs, exists rep' recs', rewrite_rules false nsub rules i (rr_word rep) rep recs = Ok (rep', recs') /\
    rep_wf rep'.
Proof.
  intros Hw; revert rep; induction Hw as [|r rules Hr Hw IH]; intros rep Hrep recs; cbn [rewrite_rules].
  - eexists _, _; split; [reflexivity|exact Hrep].
  - destruct (Hr (rr_word rep)) as (repls & -> & Ho); cbn [bind].
    destruct (string_total rep repls Hrep Ho) as (rep1 & -> & Hrep1 & _); cbn [bind record_subword negb].
    apply IH; exact Hrep1.
Qed.
Lemma rewrite_loop_total nsub rules i sws buf recs :
  Forall works rules ->
  exists buf' recs', rewrite_loop false nsub rules i sws buf recs = Ok (buf', recs').
Proof.
  intros Hw; revert i buf recs; induction sws as [|sw sws IH]; intros i buf recs; cbn [rewrite_loop];
    [eexists _, _; reflexivity|].
  destruct (rewrite_rules_total nsub rules i (new_replacer (sw_word sw) (sw_level sw) 1) Hw
              (new_replacer_wf _ _ _) recs) as (rep & recs1 & E & Hrep).
  cbn [new_replacer rr_word] in E; rewrite E; cbn [bind].
  destruct (subwords_total rep Hrep) as (out & ->); cbn [bind]; apply IH.
Qed.

Lemma transcribe_rules_total nsub rules i rep dummy :
  Forall works rules -> rep_wf rep -> rep_wf dummy -> length (rr_word rep) = length (rr_word dummy) ->
  forall recs, exists rep' recs',
    transcribe_rules false nsub rules i (rr_word dummy) rep dummy recs = Ok (rep', recs') /\ rep_wf rep'.
Proof.
  intros Hw; revert rep dummy; induction Hw as [|r rules Hr Hw IH]; intros rep dummy Hrep Hdum Hlen recs;
    cbn [transcribe_rules].
  - eexists _, _; split; [reflexivity|exact Hrep].
  - destruct (Hr (rr_word dummy)) as (repls & -> & Ho); cbn [bind].
    assert (forall n off l, ordered_repls n off l -> ordered_repls n off (map mask l)) as Hmask.
    { intros n off l; revert off; induction l as [|x l IHl]; intros off Hx; [exact Hx|].
      cbn [map ordered_repls mask rp_start rp_stop] in *; repeat split; try tauto; apply IHl; tauto. }
    destruct (string_total dummy (map mask repls) Hdum (Hmask _ _ _ Ho)) as (dummy1 & -> & Hdum1 & _ & Hl1).
    cbn [bind].
    assert (ordered_repls (len (rr_word rep)) 0 repls) as Ho' by (unfold len in *; rewrite Hlen; exact Ho).
    destruct (string_total rep repls Hrep Ho') as (rep1 & -> & Hrep1 & _ & Hl2); cbn [bind record_subword negb].
    apply IH; [exact Hrep1|exact Hdum1|].
    rewrite Hl1, Hl2; apply apply_repls_length.
    + rewrite !combine_len; [exact Hlen|apply Hdum|apply Hrep].
    + clear; induction repls as [|x repls IHr]; constructor; [|exact IHr].
      cbn [mask rp_start rp_stop rp_word]; rewrite repeat_length; auto.
Qed.
Lemma transcribe_loop_total nsub rules i sws buf recs :
  Forall works rules ->
  exists buf' recs', transcribe_loop false nsub rules i sws buf recs = Ok (buf', recs').
Proof.
  intros Hw; revert i buf recs; induction sws as [|sw sws IH]; intros i buf recs; cbn [transcribe_loop];
    [eexists _, _; reflexivity|].
  destruct (sw_level sw =? 0); [apply IH|].
  destruct (transcribe_rules_total nsub rules i (new_replacer (sw_word sw) (sw_level sw) 2)
              (new_replacer (sw_word sw) 0 0) Hw
              (new_replacer_wf _ _ _) (new_replacer_wf _ _ _) eq_refl recs) as (rep & recs1 & E & Hrep).
  cbn [new_replacer rr_word] in E; rewrite E; cbn [bind].
  destruct (subwords_total rep Hrep) as (out & ->); cbn [bind]; apply IH.
Qed.

Definition spec_works (s : spec) : Prop := Forall works (s_rewrite s) /\ Forall works (s_transcribe s).

Lemma after_translit_total H s tr word :
  spec_numbered s -> spec_works s -> exists tr' out, after_translit H s tr word = Ok (tr', out).
Proof.
  intros Hn [Hw1 Hw2].
  assert (exists out, map_res snd (after_translit H s None word) = Ok out) as (out & E).
  { unfold after_translit, normalize.
    destruct (encode_utf8_text (map (norm_rune s) (runes (replacer_replace (s_normReplacer s) word)))) as (rs & Hrs & ->).
    destruct (partition_total s rs Hrs) as (sws0 & ->); cbn [bind].
    unfold rewrite; cbn [trace_word emit is_some].
    destruct (rewrite_loop_total (length sws0) (s_rewrite s) 0 sws0 [] [] Hw1) as (b1 & r1 & ->); cbn [bind trace_commit].
    unfold transcribe; cbn [is_some].
    destruct (transcribe_loop_total (length (builder_subwords b1)) (s_transcribe s) 0 (builder_subwords b1) [] [] Hw2)
      as (b2 & r2 & ->); cbn [bind trace_commit map_res]; eexists; reflexivity. }
  rewrite <- (after_translit_trace H s tr word Hn) in E.
  destruct (after_translit H s tr word) as [[tr' o]| | | | |]; try discriminate; eexists _, _; reflexivity.
Qed.

(** A call can only fail in a transliterator. *)
Lemma forward_total {W} H s (reg : list (bytes * translit W)) on w word :
  spec_numbered s -> spec_works s ->
  let '(_, _, r) := forward H s reg on w word in
  let '(_, _, t) := transliterate (l_translit (s_lang s)) reg w (trace_word (new_tracer on) SInput word []) word in
  (exists out mid, t = Ok mid /\ r = Ok out) \/ (r = t /\ forall mid, t <> Ok mid).
Proof.
  intros Hn Hw; unfold forward; destruct (transliterate _ _ _ _ _) as [[w1 tr1] r].
  destruct r as [mid| | | | |]; try (right; split; [reflexivity|intros; discriminate]).
  destruct (after_translit_total H s tr1 mid Hn Hw) as (tr2 & out & ->); left; exists out, mid; split; reflexivity.
Qed.

(** ** Specs made by ParseSpec *)
Lemma new_rules_facts c tr i pairs macros vars rules :
  new_rules c tr i pairs macros vars = Ok rules ->
  (forall k r, nth_error rules k = Some r -> rule_id r = Z.of_nat (i + k)) /\ Forall (fun r => compiled (rule_from r)) rules.
Proof.
  revert i rules; induction pairs as [|p pairs IH]; intros i rules H; cbn [new_rules] in H.
  - injection H as <-; split; [intros [|k] r E; discriminate|constructor].
  - destruct (new_pattern (pr_left p) _ vars) as [from| | | | |] eqn:Ef; try discriminate; cbn [bind] in H.
    destruct (negative_lookaround_widths from) as [wa wb]; destruct ((wa =? -1) || (wb =? -1)); [discriminate|].
    destruct (index (pr_right p) 0) as [right_| | | | |]; try discriminate; cbn [bind] in H.
    destruct (new_rules c tr (S i) pairs macros vars) as [rest| | | | |] eqn:Er; try discriminate; cbn [bind] in H.
    apply ok_inj in H; subst rules; destruct (IH _ _ Er) as [H1 H2]; split.
    + intros [|k] r E; cbn [nth_error] in E.
      * injection E as <-; cbn [rule_id]; f_equal; lia.
      * rewrite (H1 _ _ E); f_equal; lia.
    + constructor; [exact (new_pattern_compiled _ _ _ _ Ef)|exact H2].
Qed.

Lemma parse_spec_rules c src s :
  parse_spec c src = Ok s ->
  spec_numbered s /\ Forall (fun r => compiled (rule_from r)) (s_rewrite s ++ s_transcribe s).
Proof.
  unfold parse_spec.
  destruct (parse_hsl_src src) as [[h rest]| | | | |]; cbn [bind]; try discriminate.
  repeat match goal with |- context [bind (with_section ?a ?b ?c ?d) _] =>
    destruct (with_section a b c d); cbn [bind]; try discriminate
  | |- context [bind (new_rules ?a ?b ?c ?d ?e ?f) _] =>
    destruct (new_rules a b c d e f) eqn:?; cbn [bind]; try discriminate end.
  destruct (get_script _); [|discriminate]; intros H; apply ok_inj in H; subst s.
  unfold spec_numbered, numbered; cbn [s_rewrite s_transcribe].
  repeat match goal with E : new_rules _ _ 0 _ _ _ = Ok _ |- _ => apply new_rules_facts in E; destruct E end.
  split; [split; assumption|apply Forall_app; split; assumption].
Qed.

Lemma spec_ok_works s :
  Forall (fun r => compiled (rule_from r)) (s_rewrite s ++ s_transcribe s) ->
  forallb rule_ok (s_rewrite s ++ s_transcribe s) = true -> spec_works s.
Proof.
  intros Hc Ho; assert (Forall works (s_rewrite s ++ s_transcribe s)) as Hw.
  { rewrite Forall_forall in *; rewrite forallb_forall in Ho; intros r Hr word.
    apply rule_ok_repls; auto. }
  apply Forall_app in Hw; exact Hw.
Qed.
