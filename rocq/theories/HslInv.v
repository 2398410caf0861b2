(** Invariants of the HSL parser. *)
From Coq Require Import String Sorted.
From Verif Require Import GoBase Utf8 Utf8Facts Unicode Replacer Hsl HslFacts.
Open Scope N_scope.

(** ** Cutting a text between two characters *)

Lemma decode_prefix a b :
  a <> [] -> (snd (decode_rune (a ++ b)) <= length a)%nat -> decode_rune a = decode_rune (a ++ b).
Proof.
  intros Hn. destruct a as [|b0 s1]; [contradiction|]; clear Hn; cbn [app decode_rune].
  destruct (b0 <? 0x80); [reflexivity|].
  destruct ((b0 <? 0xC2) || (0xF4 <? b0)); [reflexivity|].
  destruct s1 as [|b1 s2].
  { cbn [app length]. destruct b as [|b1 s2]; [reflexivity|].
    destruct (b0 <? 0xE0).
    { destruct (is_cont b1); cbn; [lia|reflexivity]. }
    destruct (b0 <? 0xF0).
    { destruct (is_cont b1 && _ && _); [|reflexivity].
      destruct s2 as [|b2 s3]; [reflexivity|]. destruct (is_cont b2); cbn; [lia|reflexivity]. }
    destruct (is_cont b1 && _ && _); [|reflexivity].
    destruct s2 as [|b2 [|b3 s3]]; [reflexivity|reflexivity|].
    destruct (is_cont b2 && is_cont b3); cbn; [lia|reflexivity]. }
  cbn [app].
  destruct (b0 <? 0xE0); [reflexivity|].
  destruct (b0 <? 0xF0).
  { destruct (is_cont b1 && _ && _); [|reflexivity].
    destruct s2 as [|b2 s3]; cbn [app length]; [|reflexivity].
    destruct b as [|b2 s3]; [reflexivity|]. destruct (is_cont b2); cbn; [lia|reflexivity]. }
  destruct (is_cont b1 && _ && _); [|reflexivity].
  destruct s2 as [|b2 [|b3 s3]]; cbn [app length].
  - destruct b as [|b2 [|b3 s3]]; [reflexivity|reflexivity|].
    destruct (is_cont b2 && is_cont b3); cbn; [lia|reflexivity].
  - destruct b as [|b3 s3]; [reflexivity|]. destruct (is_cont b2 && is_cont b3); cbn; [lia|reflexivity].
  - reflexivity.
Qed.

Lemma glyphs_cut s pre post :
  glyphs s = pre ++ post -> exists a b, s = a ++ b /\ glyphs a = pre /\ glyphs b = post.
Proof.
  intros H. exists (firstn (gwidth pre) s), (skipn (gwidth pre) s).
  split; [symmetry; apply firstn_skipn|]. split; [|apply glyphs_split; exact H].
  revert s H. induction pre as [|g pre IH]; intros s H; [reflexivity|].
  assert (Hn : s <> []) by (intros ->; discriminate H).
  assert (Hw := decode_width s Hn).
  rewrite glyphs_step in H by exact Hn. cbn [app] in H. injection H as Hg Hr. subst g.
  rewrite gwidth_cons.
  assert (Hgw : (gwidth (decode_rune s :: pre) <= length s)%nat).
  { rewrite <- (gwidth_glyphs s), glyphs_step by exact Hn. rewrite Hr.
    rewrite !gwidth_cons, gwidth_app. lia. }
  rewrite gwidth_cons in Hgw.
  assert (E : decode_rune (firstn (snd (decode_rune s) + gwidth pre) s) = decode_rune s).
  { pose proof (decode_prefix (firstn (snd (decode_rune s) + gwidth pre) s)
                              (skipn (snd (decode_rune s) + gwidth pre) s)) as D.
    rewrite firstn_skipn in D. apply D.
    - intros E. apply (f_equal (@length _)) in E. rewrite firstn_length in E. cbn [length] in E. lia.
    - rewrite firstn_length. lia. }
  rewrite glyphs_step.
  2:{ intros F. apply (f_equal (@length _)) in F. rewrite firstn_length in F. cbn [length] in F. lia. }
  rewrite E. f_equal.
  rewrite skipn_firstn_comm.
  replace (snd (decode_rune s) + gwidth pre - snd (decode_rune s))%nat with (gwidth pre) by lia.
  apply IH. exact Hr.
Qed.

(** A character below 0x80 is one byte. *)
Lemma decode_ascii b0 s : fst (decode_rune (b0 :: s)) < 0x80 -> decode_rune (b0 :: s) = (b0, 1%nat).
Proof.
  assert (X : forall w : nat, fst (rune_error, w) < 0x80 -> False) by (unfold rune_error; cbn; lia).
  cbn [decode_rune].
  destruct (b0 <? 0x80) eqn:E1; [reflexivity|].
  destruct ((b0 <? 0xC2) || (0xF4 <? b0)) eqn:E2; [intros H; destruct (X _ H)|].
  destruct s as [|b1 s2]; [intros H; destruct (X _ H)|].
  destruct (b0 <? 0xE0) eqn:E3.
  { destruct (is_cont b1) eqn:E4; [|intros H; destruct (X _ H)].
    cbn [fst]; unfold is_cont in *; lia. }
  destruct (b0 <? 0xF0) eqn:E5.
  { destruct (is_cont b1) eqn:E6; cbn [andb]; [|intros H; destruct (X _ H)].
    destruct (b0 =? 0xE0) eqn:E10;
    (destruct (0xA0 <=? b1) eqn:E7; cbn [andb]; try (intros H; destruct (X _ H); fail));
    (destruct (if b0 =? 0xED then b1 <=? 0x9F else true) eqn:E8; [|intros H; destruct (X _ H)]);
    (destruct s2 as [|b2 s3]; [intros H; destruct (X _ H)|]);
    (destruct (is_cont b2) eqn:E9; [|intros H; destruct (X _ H)]);
    cbn [fst]; unfold is_cont in *; lia. }
  destruct (is_cont b1) eqn:E6; cbn [andb]; [|intros H; destruct (X _ H)].
  destruct (b0 =? 0xF0) eqn:E10;
  (destruct (0x90 <=? b1) eqn:E7; cbn [andb]; try (intros H; destruct (X _ H); fail));
  (destruct (if b0 =? 0xF4 then b1 <=? 0x8F else true) eqn:E8; [|intros H; destruct (X _ H)]);
  (destruct s2 as [|b2 [|b3 s3]]; [intros H; destruct (X _ H)|intros H; destruct (X _ H)|]);
  (destruct (is_cont b2) eqn:E9; cbn [andb]; [|intros H; destruct (X _ H)]);
  (destruct (is_cont b3) eqn:E11; [|intros H; destruct (X _ H)]);
  cbn [fst]; unfold is_cont in *; lia.
Qed.

Lemma glyphs_ascii s ch w r :
  glyphs s = (ch, w) :: r -> ch < 0x80 -> exists s', s = ch :: s' /\ glyphs s' = r /\ w = 1%nat.
Proof.
  intros H Hc. destruct s as [|b0 s]; [discriminate|].
  rewrite glyphs_step in H by discriminate.
  pose proof (decode_ascii b0 s) as A. remember (decode_rune (b0 :: s)) as d eqn:Ed. clear Ed.
  injection H as -> G. specialize (A Hc). injection A as -> ->. exists s. auto.
Qed.

(** The glyphs at the front do not change when the text is cut after them. *)
Lemma glyphs_front a b b' pre post :
  glyphs (a ++ b ++ b') = pre ++ post -> gwidth pre = length a -> glyphs (a ++ b) = pre ++ glyphs b.
Proof.
  revert a post. induction pre as [|g pre IH]; intros a post H W.
  - destruct a; [reflexivity|discriminate W].
  - rewrite gwidth_cons in W.
    assert (Hn : a ++ b ++ b' <> []) by (intros X; rewrite X in H; discriminate H).
    pose proof (decode_width _ Hn) as Hw.
    rewrite glyphs_step in H by exact Hn. cbn [app] in H. injection H as Hg Hr. subst g.
    assert (Ha : (snd (decode_rune (a ++ b ++ b')) <= length a)%nat) by lia.
    assert (Hn' : a ++ b <> []).
    { intros X. apply (f_equal (@length _)) in X. rewrite app_length in X. cbn [length] in X. lia. }
    assert (D : decode_rune (a ++ b) = decode_rune (a ++ b ++ b')).
    { rewrite (app_assoc a b b'). apply decode_prefix; [exact Hn'|].
      rewrite <- app_assoc, app_length. lia. }
    rewrite glyphs_step by exact Hn'. rewrite D. cbn [app]. f_equal.
    set (k := snd (decode_rune (a ++ b ++ b'))) in *.
    rewrite skipn_app in Hr |- *. replace (k - length a)%nat with 0%nat in * by lia. cbn [skipn] in Hr |- *.
    apply (IH (skipn k a) post Hr). rewrite skipn_length. lia.
Qed.

(** ** Values and truncation *)

Lemma vsteps_local x y l vs l' vs' c n n' :
  vsteps l vs l' vs' ->
  l = {| lx_rest := c ++ x; lx_line := n |} -> l' = {| lx_rest := x; lx_line := n' |} ->
  same_head x y ->
  vsteps {| lx_rest := c ++ y; lx_line := n |} vs {| lx_rest := y; lx_line := n' |} vs'.
Proof.
  intros V. revert c n. induction V as [l vs|l vs tok l1 l2 vs2 E K V IH]; intros c n El El' Hd; subst.
  - injection El' as El' <-. apply (app_inv_tail x c []) in El'. subst c. constructor.
  - pose proof (scan_spec {| lx_rest := c ++ x; lx_line := n |}) as S. rewrite E in S.
    destruct S as (c1 & [S1 _] & _). destruct (vsteps_step _ _ _ _ V) as (c2 & [S2 _]).
    destruct l1 as [r1 n1]. cbn in S1, S2. subst r1.
    assert (c = c1 ++ c2) by (apply (app_inv_tail x); rewrite <- app_assoc; exact S1). subst c.
    rewrite <- !app_assoc in *. econstructor.
    + eapply scan_local; [exact E|]. left. destruct c2; [exact Hd|]. apply same_head_app. discriminate.
    + exact K.
    + apply IH; auto.
Qed.

Lemma ploop_nil n st : ploop {| lx_rest := []; lx_line := n |} st = Ok (ps_hsl st, []).
Proof. reflexivity. Qed.
Lemma pvalues_nil n vs :
  pvalues {| lx_rest := []; lx_line := n |} vs = Ok (vs, {| lx_rest := []; lx_line := n |}).
Proof. reflexivity. Qed.

Lemma asks_step l st l2 : asks l st l2 -> exists c, step l c l2.
Proof.
  intros [->|(tok & l1 & vs & E & _ & _ & V)]; [eauto using step_refl|].
  pose proof (scan_spec l) as S. rewrite E in S. destruct S as (c & S & _).
  destruct (vsteps_step _ _ _ _ V). eauto using step_trans.
Qed.

(** Up to a point where a token is asked for, parsing only the text before it
    does not hang. *)
Lemma asks_before n R st l st' l2 pre :
  msteps {| lx_rest := R; lx_line := n |} st l st' -> asks l st' l2 ->
  R = pre ++ lx_rest l2 ->
  ploop {| lx_rest := pre; lx_line := n |} st <> Hang.
Proof.
  intros M A ER. destruct (msteps_step _ _ _ _ M) as (c0 & [S0 _]). cbn in S0.
  destruct l as [r n1]. cbn in S0.
  destruct A as [->|(tok & l1 & vs & E & K & N & V)].
  - cbn in ER. pose proof (msteps_local [] r [] _ _ _ _ pre n n1 M) as X.
    cbn [app] in X. rewrite ER in X. rewrite app_nil_r in X.
    specialize (X eq_refl eq_refl (or_introl eq_refl)).
    rewrite (ploop_msteps _ _ _ _ X), ploop_nil. discriminate.
  - pose proof (scan_spec {| lx_rest := r; lx_line := n1 |}) as S. rewrite E in S.
    destruct S as (c1 & [S1 _] & _). destruct (vsteps_step _ _ _ _ V) as (c2 & [S2 _]).
    destruct l1 as [r1 n2], l2 as [r2 n3]. cbn in S1, S2, ER. subst r1 r R.
    assert (pre = c0 ++ c1 ++ c2).
    { apply (app_inv_tail r2). rewrite <- !app_assoc. congruence. }
    subst pre.
    assert (X : msteps {| lx_rest := c0 ++ (c1 ++ c2) ++ []; lx_line := n |} st
                       {| lx_rest := (c1 ++ c2) ++ []; lx_line := n1 |} st').
    { eapply msteps_local; [exact M| | |].
      - rewrite <- !app_assoc. reflexivity.
      - rewrite <- !app_assoc. reflexivity.
      - destruct (c1 ++ c2) eqn:Z; [left; reflexivity|]. apply same_head_app. discriminate. }
    rewrite !app_nil_r in X.
    rewrite (ploop_msteps _ _ _ _ X).
    assert (Y : vsteps {| lx_rest := c2 ++ []; lx_line := n2 |} [] {| lx_rest := []; lx_line := n3 |} vs).
    { eapply vsteps_local; [exact V|reflexivity|reflexivity|left; reflexivity]. }
    rewrite app_nil_r in Y.
    assert (Z : scan {| lx_rest := c1 ++ c2; lx_line := n1 |} = Ok (tok, {| lx_rest := c2; lx_line := n2 |})).
    { assert (Z := scan_local c1 (c2 ++ r2) (c2 ++ []) n1 tok n2 E). rewrite app_nil_r in Z. apply Z.
      left. destruct c2; [left; reflexivity|]. right. split; [discriminate|reflexivity]. }
    assert (P : ppair (is_arrow tok) {| lx_rest := c2; lx_line := n2 |} st' <> Hang).
    { unfold ppair. destruct (ps_name st'); [discriminate|].
      rewrite (pvalues_vsteps _ _ _ _ Y), pvalues_nil. cbn [bind].
      destruct (add_to_outcome st' (is_arrow tok) vs (lx_line {| lx_rest := c2; lx_line := n2 |}))
        as [(st2 & ->)| ->]; [|discriminate]. cbn [bind]. rewrite ploop_nil. discriminate. }
    rewrite ploop_eq, Z. cbn [bind]. destruct tok; try discriminate K; exact P.
Qed.

(** ** Parity of quotes *)

Definition quotes (c : reader) : nat := length (filter (fun g : rune * nat => fst g =? 0x22) c).
Definition simple_text (c : reader) : Prop := Forall (fun g => fst g <> 0x23 /\ fst g <> 0x5C) c.

Lemma quotes_app a b : quotes (a ++ b) = (quotes a + quotes b)%nat.
Proof. unfold quotes. rewrite filter_app, app_length. reflexivity. Qed.
Lemma quotes_none c : Forall (fun g => fst g <> 0x22) c -> quotes c = 0%nat.
Proof.
  unfold quotes. induction 1 as [|[ch w] c H _ IH]; [reflexivity|]. cbn [filter fst] in *.
  apply N.eqb_neq in H. rewrite H. exact IH.
Qed.

Lemma simple_app a b : simple_text (a ++ b) <-> simple_text a /\ simple_text b.
Proof. apply Forall_app. Qed.

Lemma qbody_simple b v : qbody b v -> Forall (fun ch => ch <> 0x5C) b -> Forall (fun ch => ch <> 0x22) b.
Proof. induction 1; intros F; [constructor|constructor; [assumption|]; inversion F; auto|]. inversion F; congruence. Qed.

Lemma step_unique l c c' l' : step l c l' -> step l c' l' -> c = c'.
Proof. intros [A _] [B _]. apply (app_inv_tail (lx_rest l')). congruence. Qed.

Lemma scan_even l tok l' c :
  scan l = Ok (tok, l') -> step l c l' -> simple_text c -> Nat.Even (quotes c).
Proof.
  intros H St Hs. unfold scan in H. destruct (read l) as [ch l1] eqn:E1.
  assert (One : tok <> TEOF -> l' = l1 -> ch <> 0x22 -> Nat.Even (quotes c)).
  { intros _ -> Nq. destruct (read_step _ _ _ E1) as [(_ & _ & ->)|(w & _ & S1)].
    - rewrite (step_unique _ _ _ _ St (step_refl l)). exists 0%nat. reflexivity.
    - rewrite (step_unique _ _ _ _ St S1). exists 0%nat. rewrite quotes_none; [reflexivity|].
      constructor; [exact Nq|constructor]. }
  destruct (ch =? eof) eqn:T1.
  { injection H as <- <-. apply N.eqb_eq in T1. subst ch.
    destruct (read_step _ _ _ E1) as [(_ & _ & ->)|(w & _ & S1)].
    - rewrite (step_unique _ _ _ _ St (step_refl l)). exists 0%nat. reflexivity.
    - rewrite (step_unique _ _ _ _ St S1). exists 0%nat. reflexivity. }
  destruct (ch =? 0x0A) eqn:T2.
  { injection H as <- <-. apply N.eqb_eq in T2. subst ch. apply One; [discriminate|reflexivity|discriminate]. }
  destruct (is_space ch) eqn:T3.
  { destruct (read_while is_sp l) as [s l2] eqn:E2. injection H as <- <-.
    destruct (read_while_spec _ _ _ _ E2) as (c' & S2 & -> & F & T).
    rewrite (step_unique _ _ _ _ St S2). exists 0%nat. rewrite quotes_none; [reflexivity|].
    eapply Forall_impl; [|exact F]. intros [g w] (_ & G) E. cbn in E, G. subst g. discriminate G. }
  destruct (is_initial_letter ch) eqn:T4.
  { destruct (read_while is_lex_letter l) as [s l2] eqn:E2. injection H as <- <-.
    destruct (read_while_spec _ _ _ _ E2) as (c' & S2 & -> & F & T).
    rewrite (step_unique _ _ _ _ St S2). exists 0%nat. rewrite quotes_none; [reflexivity|].
    eapply Forall_impl; [|exact F]. intros [g w] (_ & G) E. cbn in E, G. subst g. vm_compute in G. discriminate G. }
  destruct (ch =? 0x22) eqn:T5.
  { apply N.eqb_eq in T5. subst ch.
    destruct (read_step _ _ _ E1) as [(R1 & Q & _)|(w & R1 & S1)]; [discriminate|].
    pose proof (scan_quoted_spec (lx_rest l1) (lx_line l1) false []) as Q.
    destruct (scan_quoted (lx_rest l1) (lx_line l1) false []) as [[s l2]| | | | |]; try discriminate H.
    cbn [bind] in H. injection H as <- <-.
    destruct Q as (sk & b & v & w' & S2 & (-> & ->) & Q).
    assert (S3 : step l ([(34, w)] ++ b ++ [(34, w')]) l2).
    { eapply step_trans; [exact S1|]. destruct l1. exact S2. }
    rewrite (step_unique _ _ _ _ St S3) in Hs |- *.
    rewrite !quotes_app, (quotes_none b). { exists 1%nat. reflexivity. }
    rewrite !simple_app in Hs. destruct Hs as (_ & Hs & _).
    apply (Forall_map fst (fun ch => ch <> 0x22)), (qbody_simple _ _ Q), Forall_map.
    eapply Forall_impl; [|exact Hs]. intros g (_ & G). exact G. }
  destruct (ch =? 0x23) eqn:T6.
  { exfalso. apply N.eqb_eq in T6. subst ch.
    destruct (read_step _ _ _ E1) as [(R1 & Q & _)|(w & R1 & S1)]; [discriminate|].
    destruct (scan_comment_spec (S (length (lx_rest l))) l ltac:(lia)) as (l2 & c' & E2 & S2 & Nn).
    rewrite E2 in H. cbn [bind] in H. injection H as <- <-.
    rewrite (step_unique _ _ _ _ St S2) in Hs. specialize (Nn _ _ R1).
    destruct c' as [|g c']; [congruence|]. destruct S2 as [S2 _]. rewrite R1 in S2. injection S2 as <- _.
    inversion Hs as [|? ? [G _] _]; subst. cbn in G. congruence. }
  apply N.eqb_neq in T5.
  destruct (ch =? 0x3A); [injection H as <- <-; apply One; congruence|].
  destruct (ch =? 0x2C); [injection H as <- <-; apply One; congruence|].
  destruct (ch =? 0x3D); [injection H as <- <-; apply One; congruence|].
  destruct (ch =? 0x2D) eqn:T8.
  { destruct (read l1) as [ch2 l2] eqn:E2. destruct (ch2 =? 0x3E) eqn:T9; [|discriminate].
    apply N.eqb_eq in T8, T9. subst ch ch2. injection H as <- <-.
    destruct (read_step _ _ _ E1) as [(_ & Q & _)|(w & _ & S1)]; [discriminate|].
    destruct (read_step _ _ _ E2) as [(_ & Q & _)|(w2 & _ & S2)]; [discriminate|].
    rewrite (step_unique _ _ _ _ St (step_trans _ _ _ _ _ S1 S2)). exists 0%nat. reflexivity. }
  injection H as <- <-. apply One; congruence.
Qed.

Lemma vsteps_even l vs l' vs' c :
  vsteps l vs l' vs' -> step l c l' -> simple_text c -> Nat.Even (quotes c).
Proof.
  intros V. revert c. induction V as [l vs|l vs tok l1 l2 vs2 E K V IH]; intros c St Hs.
  - rewrite (step_unique _ _ _ _ St (step_refl l)). exists 0%nat. reflexivity.
  - pose proof (scan_spec l) as S. rewrite E in S. destruct S as (c1 & S1 & _).
    destruct (vsteps_step _ _ _ _ V) as (c2 & S2).
    rewrite (step_unique _ _ _ _ St (step_trans _ _ _ _ _ S1 S2)) in *.
    apply simple_app in Hs. destruct Hs. rewrite quotes_app.
    apply Nat.Even_Even_add; [eapply scan_even; eauto|eauto].
Qed.

Lemma mstep_even l st l' st' c :
  mstep l st l' st' -> step l c l' -> simple_text c -> Nat.Even (quotes c).
Proof.
  intros M St Hs. destruct M as [l st tok l1 E K|l st s l1 E|l st l1 E|l st tok l1 vs l2 st' E K N V A];
    try (eapply scan_even; eauto; fail).
  pose proof (scan_spec l) as S. rewrite E in S. destruct S as (c1 & S1 & _).
  destruct (pvalues_spec _ l1 [] (Nat.lt_succ_diag_r _)) as (l3 & vs3 & V3 & Q). rewrite V in Q.
  destruct Q as (-> & Q). destruct (vsteps_step _ _ _ _ V3) as (c3 & S3).
  assert (X : exists c4 tok4, scan l3 = Ok (tok4, l2) /\ step l3 c4 l2).
  { pose proof (scan_spec l3) as S. destruct Q as [Q|Q]; rewrite Q in S; destruct S as (c4 & S4 & _); eauto. }
  destruct X as (c4 & tok4 & E4 & S4).
  rewrite (step_unique _ _ _ _ St (step_trans _ _ _ _ _ (step_trans _ _ _ _ _ S1 S3) S4)) in *.
  rewrite !simple_app in Hs. destruct Hs as ((H1 & H2) & H3). rewrite !quotes_app.
  repeat apply Nat.Even_Even_add; eauto using scan_even, vsteps_even.
Qed.

Lemma msteps_even l st l' st' c :
  msteps l st l' st' -> step l c l' -> simple_text c -> Nat.Even (quotes c).
Proof.
  intros M. revert c. induction M as [l st|l st l1 st1 l2 st2 M Ms IH]; intros c St Hs.
  - rewrite (step_unique _ _ _ _ St (step_refl l)). exists 0%nat. reflexivity.
  - destruct (mstep_step _ _ _ _ M) as (c1 & _ & S1). destruct (msteps_step _ _ _ _ Ms) as (c2 & S2).
    rewrite (step_unique _ _ _ _ St (step_trans _ _ _ _ _ S1 S2)) in *.
    apply simple_app in Hs. destruct Hs. rewrite quotes_app.
    apply Nat.Even_Even_add; eauto using mstep_even.
Qed.

Lemma asks_even l st l2 c :
  asks l st l2 -> step l c l2 -> simple_text c -> Nat.Even (quotes c).
Proof.
  intros [->|(tok & l1 & vs & E & _ & _ & V)] St Hs.
  - rewrite (step_unique _ _ _ _ St (step_refl l)). exists 0%nat. reflexivity.
  - pose proof (scan_spec l) as S. rewrite E in S. destruct S as (c1 & S1 & _).
    destruct (vsteps_step _ _ _ _ V) as (c2 & S2).
    rewrite (step_unique _ _ _ _ St (step_trans _ _ _ _ _ S1 S2)) in *.
    apply simple_app in Hs. destruct Hs. rewrite quotes_app.
    apply Nat.Even_Even_add; eauto using scan_even, vsteps_even.
Qed.

Lemma unclosed_simple R : unclosed (map fst R) -> simple_text R -> quotes R = 0%nat.
Proof.
  intros U Hs. apply quotes_none.
  assert (G : forall a b, R = a ++ b -> Forall (fun g => fst g <> 34) a ->
                          Forall (fun g : rune * nat => fst g <> 34) b).
  { intros a b. revert a. induction b as [|[ch w] b IH]; intros a E F; [constructor|].
    assert (N : ch <> 34).
    { intros ->. apply (U (map fst a) (map fst b) (map fst a)).
      - rewrite E, map_app. reflexivity.
      - subst R. apply simple_app in Hs. destruct Hs as [Hs _]. clear -Hs F.
        induction a as [|g a IH]; [constructor|]. inversion Hs as [|? ? [_ A] B]; inversion F; subst.
        cbn. constructor; auto. }
    constructor; [exact N|]. apply (IH (a ++ [(ch, w)])); [rewrite <- app_assoc; exact E|].
    apply Forall_app. split; [exact F|]. constructor; [exact N|constructor]. }
  apply (G [] R eq_refl). constructor.
Qed.

(** ** Order, uniqueness, line numbers *)

(** After [k] characters of [R] an operator (a colon) ends, on line [n]. *)
Definition op_ends (R : reader) (k : nat) (n : Z) : Prop :=
  (k <= length R)%nat /\ n = (1 + newlines (firstn k R))%Z /\
  ((exists c w, firstn k R = c ++ [(0x3D, w)]) \/
   (exists c w1 w2, firstn k R = c ++ [(0x2D, w1); (0x3E, w2)])).
Definition colon_ends (R : reader) (k : nat) (n : Z) : Prop :=
  (k <= length R)%nat /\ n = (1 + newlines (firstn k R))%Z /\
  exists c w, firstn k R = c ++ [(0x3A, w)].

Definition pairs_at (R : reader) (k0 n : nat) (pairs : list pair_) : Prop :=
  exists ks, StronglySorted lt ks /\ Forall (fun k => k0 < k <= n)%nat ks /\
             Forall2 (fun p k => op_ends R k (pr_line p)) pairs ks.

Definition sec_inv (R : reader) (n : nat) (sec : section) : Prop :=
  match sec with
  | ListSection pairs line => exists k0, colon_ends R k0 line /\ pairs_at R k0 n pairs /\ pairs <> []
  | DictSection d line => exists k0, colon_ends R k0 line /\ pairs_at R k0 n d /\ d <> [] /\
                          NoDup (map pr_left d)
  end.

Definition st_inv (R : reader) (pre : reader) (st : pstate) : Prop :=
  Forall (fun p => sec_inv R (length pre) (snd p)) (ps_hsl st) /\ NoDup (map fst (ps_hsl st)) /\
  (ps_name st <> [] -> exists k0, (k0 <= length pre)%nat /\ colon_ends R k0 (ps_secline st)).

Lemma pairs_at_mono R k0 n m ps : (n <= m)%nat -> pairs_at R k0 n ps -> pairs_at R k0 m ps.
Proof.
  intros H (ks & A & B & C). exists ks. split; [exact A|]. split; [|exact C].
  eapply Forall_impl; [|exact B]. cbn. lia.
Qed.
Lemma sec_inv_mono R n m sec : (n <= m)%nat -> sec_inv R n sec -> sec_inv R m sec.
Proof.
  intros H. destruct sec; intros (k0 & A & B & C); exists k0; eauto using pairs_at_mono.
Qed.
Lemma st_inv_mono R pre pre' st : (length pre <= length pre')%nat -> st_inv R pre st -> st_inv R pre' st.
Proof.
  intros H (A & B & C). split; [|split; [exact B|]].
  - eapply Forall_impl; [|exact A]. intros p. apply sec_inv_mono, H.
  - intros N. destruct (C N) as (k0 & K & K'). exists k0. split; [lia|exact K'].
Qed.

Lemma pairs_at_snoc R k0 n m ps p k :
  pairs_at R k0 n ps -> (n < k)%nat -> (k <= m)%nat -> (k0 < k)%nat -> op_ends R k (pr_line p) ->
  pairs_at R k0 m (ps ++ [p]).
Proof.
  intros (ks & A & B & C) H1 H2 H3 Hp. exists (ks ++ [k]). split; [|split].
  - clear -A B H1. induction A as [|x ks A IH F]; [repeat constructor|].
    inversion B; subst. cbn. constructor; [auto|]. apply Forall_app. split; [exact F|].
    constructor; [lia|constructor].
  - apply Forall_app. split; [|constructor; [lia|constructor]].
    eapply Forall_impl; [|exact B]. cbn. lia.
  - apply Forall2_app; [exact C|]. constructor; [exact Hp|constructor].
Qed.

Lemma lookup_in {A} (h : list (bytes * A)) k v : lookup h k = Some v -> In (k, v) h.
Proof.
  induction h as [|[k' v'] h IH]; [discriminate|]. cbn. destruct (beqb k' k) eqn:E.
  - intros H. injection H as ->. apply beqb_eq in E. subst. left. reflexivity.
  - intros H. right. auto.
Qed.

Lemma hsl_set_in h name s p : In p (hsl_set h name s) -> p = (name, s) \/ In p h.
Proof.
  induction h as [|[n s0] h IH]; cbn.
  - intros [<-|[]]. auto.
  - destruct (beqb n name) eqn:E.
    + apply beqb_eq in E. subst. intros [<-|H]; auto.
    + intros [<-|H]; auto. destruct (IH H); auto.
Qed.
Lemma hsl_set_keys h name s k : In k (map fst (hsl_set h name s)) -> k = name \/ In k (map fst h).
Proof.
  intros H. apply in_map_iff in H. destruct H as (p & <- & H). destruct (hsl_set_in _ _ _ _ H) as [->|H'].
  - left. reflexivity.
  - right. apply in_map. exact H'.
Qed.
Lemma hsl_set_nodup h name s : NoDup (map fst h) -> NoDup (map fst (hsl_set h name s)).
Proof.
  induction h as [|[n s0] h IH]; cbn; intros H.
  - constructor; [intros []|constructor].
  - inversion H as [|? ? N D]; subst. destruct (beqb n name) eqn:E.
    + cbn. constructor; assumption.
    + cbn. constructor; [|apply IH, D]. intros K. apply hsl_set_keys in K. destruct K as [K|K]; [|auto].
      subst. rewrite beqb_refl in E. discriminate.
Qed.

Lemma dict_get_none d k : dict_get d k = None <-> ~ In k (map pr_left d).
Proof.
  induction d as [|p d IH]; cbn; [tauto|]. destruct (beqb (pr_left p) k) eqn:E.
  - apply beqb_eq in E. split; [discriminate|]. intros H. destruct H. auto.
  - apply beqb_neq in E. rewrite IH. tauto.
Qed.

Lemma nodup_snoc {A} (l : list A) x : NoDup l -> ~ In x l -> NoDup (l ++ [x]).
Proof.
  induction 1 as [|y l H _ IH]; cbn; intros N; [constructor; [intros []|constructor]|].
  constructor; [|apply IH; tauto]. intros K. apply in_app_or in K.
  destruct K as [K|[K|[]]]; [tauto|]. subst. tauto.
Qed.

Lemma at_op R pre l tok l1 c :
  step {| lx_rest := R; lx_line := 1 |} pre l -> scan l = Ok (tok, l1) -> step l c l1 ->
  is_op tok = true -> op_ends R (length (pre ++ c)) (lx_line l1).
Proof.
  intros S E Sc K. destruct (step_trans _ _ _ _ _ S Sc) as [A B]. cbn in A, B.
  assert (F : firstn (length (pre ++ c)) R = pre ++ c).
  { rewrite A. rewrite firstn_app, Nat.sub_diag, firstn_all. cbn. apply app_nil_r. }
  split; [rewrite A, (app_length (pre ++ c)); lia|]. rewrite F. split; [exact B|].
  pose proof (scan_spec l) as Q. rewrite E in Q. destruct Q as (c' & S' & T).
  rewrite (step_unique _ _ _ _ Sc S'). destruct tok; try discriminate K; cbn in T.
  - destruct T as (w & ->). left. eauto.
  - destruct T as (w1 & w2 & ->). right. eauto.
Qed.

Lemma mstep_inv R pre l st l' st' c :
  step {| lx_rest := R; lx_line := 1 |} pre l -> st_inv R pre st ->
  mstep l st l' st' -> step l c l' -> st_inv R (pre ++ c) st'.
Proof.
  intros S I M Sc.
  assert (Mono : st_inv R (pre ++ c) st) by (eapply st_inv_mono; [|exact I]; rewrite app_length; lia).
  destruct M as [l st tok l1 E K|l st s l1 E|l st l1 E|l st tok l1 vs l2 st' E K N V A].
  - exact Mono.
  - exact Mono.
  - destruct Mono as (M1 & M2 & M3). split; [exact M1|]. split; [exact M2|]. intros _.
    exists (length (pre ++ c)). split; [lia|].
    destruct (step_trans _ _ _ _ _ S Sc) as [A B]. cbn in A, B.
    assert (F : firstn (length (pre ++ c)) R = pre ++ c).
    { rewrite A. rewrite firstn_app, Nat.sub_diag, firstn_all. cbn. apply app_nil_r. }
    split; [rewrite A, (app_length (pre ++ c)); lia|]. rewrite F. split; [exact B|].
    pose proof (scan_spec l) as Q. unfold scan in E. destruct (read l) as [ch l3] eqn:E1.
    assert (X : ch = 0x3A /\ l3 = l1).
    { clear -E. destruct (ch =? eof); [discriminate|]. destruct (ch =? 10); [discriminate|].
      destruct (is_space ch); [destruct (read_while _ _); discriminate|].
      destruct (is_initial_letter ch); [destruct (read_while _ _); discriminate|].
      destruct (ch =? 34); [destruct (scan_quoted _ _ _ _) as [[? ?]| | | | |]; discriminate|].
      destruct (ch =? 35); [destruct (scan_comment _ _); discriminate|].
      destruct (ch =? 58) eqn:T; [apply N.eqb_eq in T; injection E as ->; auto|].
      destruct (ch =? 44); [discriminate|]. destruct (ch =? 61); [discriminate|].
      destruct (ch =? 45); [destruct (read l3); destruct (_ =? 62); discriminate|]. discriminate. }
    destruct X as [-> ->]. destruct (read_step _ _ _ E1) as [(_ & X & _)|(w & _ & S1)]; [discriminate|].
    rewrite (step_unique _ _ _ _ Sc S1). eauto.
  - pose proof (scan_spec l) as Q. rewrite E in Q. destruct Q as (c1 & S1 & _).
    destruct (pvalues_step _ _ _ _ V) as (c2 & S2).
    assert (Ec : c = c1 ++ c2) by eauto using step_unique, step_trans. subst c.
    assert (Op := at_op _ _ _ _ _ _ S E S1 K).
    assert (c1 <> []).
    { pose proof (scan_spec l) as Q. rewrite E in Q. destruct Q as (c' & S' & T).
      rewrite (step_unique _ _ _ _ S1 S'). eapply token_text_pos; [exact T|]. intros ->. discriminate K. }
    assert (L1 : (length pre < length (pre ++ c1))%nat).
    { rewrite app_length. destruct c1; [congruence|]. cbn. lia. }
    assert (L2 : (length (pre ++ c1) <= length (pre ++ c1 ++ c2))%nat) by (rewrite !app_length; lia).
    destruct I as (I1 & I2 & I3), Mono as (M1 & M2 & M3).
    unfold add_to in A.
    set (sec := match lookup (ps_hsl st) (ps_name st) with Some s => s | None => _ end) in A.
    destruct (add_pair sec _) as [sec'|] eqn:Ea; [|discriminate]. injection A as <-.
    split; cbn [ps_hsl ps_name ps_secline]; [|split; [apply hsl_set_nodup, I2|exact M3]].
    apply Forall_forall. intros p Hp. apply hsl_set_in in Hp. destruct Hp as [->|Hp];
      [|rewrite Forall_forall in M1; apply M1, Hp]. cbn [snd].
    set (p := {| pr_left := ps_last st; pr_right := vs; pr_line := lx_line l1 |}) in *.
    assert (Z : (lookup (ps_hsl st) (ps_name st) = Some sec /\ sec_inv R (length pre) sec) \/
                (lookup (ps_hsl st) (ps_name st) = None /\
                 sec = if is_arrow tok then ListSection [] (ps_secline st) else DictSection [] (ps_secline st))).
    { subst sec. destruct (lookup (ps_hsl st) (ps_name st)) as [s|] eqn:El; [left|right; auto].
      split; [reflexivity|]. rewrite Forall_forall in I1. apply (I1 _ (lookup_in _ _ _ El)). }
    destruct Z as [(_ & Z)|(_ & Z)].
    + destruct sec as [pairs line|d line]; cbn in Ea.
      * injection Ea as <-. destruct Z as (k0 & Z1 & Z2 & Z3). exists k0. split; [exact Z1|].
        split; [|intros W; apply app_eq_nil in W; destruct W; discriminate].
        eapply (pairs_at_snoc _ _ (length pre)); eauto.
        destruct Z2 as (ks & _ & B & C). destruct ks; [inversion C; subst; congruence|].
        inversion B; subst. lia.
      * destruct (dict_get d (ps_last st)) eqn:Ed; [discriminate|]. injection Ea as <-.
        destruct Z as (k0 & Z1 & Z2 & Z3 & Z4). exists k0. split; [exact Z1|].
        split; [|split; [intros W; apply app_eq_nil in W; destruct W; discriminate|]].
        -- eapply (pairs_at_snoc _ _ (length pre)); eauto.
           destruct Z2 as (ks & _ & B & C). destruct ks; [inversion C; subst; congruence|].
           inversion B; subst. lia.
        -- rewrite map_app. apply nodup_snoc; [exact Z4|]. apply dict_get_none, Ed.
    + destruct (I3 N) as (k0 & K0 & K1).
      assert (W : pairs_at R k0 (length (pre ++ c1 ++ c2)) [p]).
      { exists [length (pre ++ c1)]. split; [repeat constructor|]. split.
        - constructor; [lia|constructor].
        - constructor; [exact Op|constructor]. }
      subst sec. rewrite Z in Ea. destruct (is_arrow tok); cbn in Ea; injection Ea as <-; exists k0.
      * split; [exact K1|]. split; [exact W|discriminate].
      * split; [exact K1|]. split; [exact W|]. split; [discriminate|]. constructor; [intros []|constructor].
Qed.

Lemma msteps_inv R pre l st l' st' c :
  step {| lx_rest := R; lx_line := 1 |} pre l -> st_inv R pre st ->
  msteps l st l' st' -> step l c l' -> st_inv R (pre ++ c) st'.
Proof.
  intros S I M. revert pre c S I. induction M as [l st|l st l1 st1 l2 st2 M Ms IH]; intros pre c S I St.
  - rewrite (step_unique _ _ _ _ St (step_refl l)), app_nil_r. exact I.
  - destruct (mstep_step _ _ _ _ M) as (c1 & _ & S1). destruct (msteps_step _ _ _ _ Ms) as (c2 & S2).
    rewrite (step_unique _ _ _ _ St (step_trans _ _ _ _ _ S1 S2)), app_assoc.
    apply IH; eauto using step_trans, mstep_inv.
Qed.

Lemma st_inv0 R : st_inv R [] pstate0.
Proof. split; [constructor|]. split; [constructor|]. intros N. destruct N. reflexivity. Qed.

(** A document that parses: the final state satisfies the invariant, and the
    text is read to its end or up to a NUL. *)
Lemma parse_ok_inv src h rest :
  parse_hsl_src src = Ok (h, rest) ->
  Forall (fun p => sec_inv (glyphs src) (length (glyphs src)) (snd p)) h /\ NoDup (map fst h) /\
  (rest = [] \/ exists c w, glyphs src = c ++ (0, w) :: rest).
Proof.
  rewrite parse_hsl_ploop. intros H.
  destruct (ploop_run {| lx_rest := glyphs src; lx_line := 1 |} pstate0) as (l & st & M & E).
  rewrite H in E. inversion E as [l1 E1 Q| | | | |]; subst.
  destruct (msteps_step _ _ _ _ M) as (c & S).
  pose proof (msteps_inv _ [] _ _ _ _ c (step_refl _) (st_inv0 (glyphs src)) M S) as (I1 & I2 & _).
  pose proof (scan_spec l) as T. rewrite E1 in T. destruct T as (c1 & S1 & T).
  split; [|split; [exact I2|]].
  - eapply Forall_impl; [|exact I1]. intros p. apply sec_inv_mono.
    destruct S as [S _]. cbn in S. cbn [app]. rewrite S, app_length. lia.
  - destruct T as [(-> & T)|(w & ->)].
    + left. destruct S1 as [S1 _]. rewrite T in S1. cbn in S1. congruence.
    + right. exists c, w. destruct S as [S _], S1 as [S1 _]. cbn in S, S1. rewrite S, S1. reflexivity.
Qed.

(** Lists only: no dictionary appears without an equals sign. *)
Definition lists_only (h : hsl) : Prop :=
  Forall (fun p => match snd p with ListSection _ _ => True | DictSection _ _ => False end) h.

Lemma msteps_lists l st l' st' c :
  msteps l st l' st' -> step l c l' -> Forall (fun g => fst g <> 0x3D) c ->
  lists_only (ps_hsl st) -> lists_only (ps_hsl st').
Proof.
  intros M. revert c. induction M as [l st|l st l1 st1 l2 st2 M Ms IH]; intros c St F H; [exact H|].
  destruct (mstep_step _ _ _ _ M) as (c1 & _ & S1). destruct (msteps_step _ _ _ _ Ms) as (c2 & S2).
  rewrite (step_unique _ _ _ _ St (step_trans _ _ _ _ _ S1 S2)) in F.
  apply Forall_app in F. destruct F as [F1 F2].
  apply (IH _ S2 F2). clear IH Ms S2 F2.
  destruct M as [l st tok l1 E K|l st s l1 E|l st l1 E|l st tok l1 vs l3 st' E K N V A]; try exact H.
  pose proof (scan_spec l) as Q. rewrite E in Q. destruct Q as (c0 & S0 & T).
  destruct (pvalues_step _ _ _ _ V) as (c3 & S3).
  rewrite (step_unique _ _ _ _ S1 (step_trans _ _ _ _ _ S0 S3)) in F1. apply Forall_app in F1.
  destruct F1 as [F1 _].
  destruct tok; try discriminate K.
  - destruct T as (w & ->). inversion F1; subst. cbn in *. congruence.
  - unfold add_to in A. cbn [is_arrow] in A.
    destruct (lookup (ps_hsl st) (ps_name st)) as [s|] eqn:El.
    + assert (Hs : match s with ListSection _ _ => True | DictSection _ _ => False end).
      { unfold lists_only in H. rewrite Forall_forall in H. apply (H _ (lookup_in _ _ _ El)). }
      destruct s; [|contradiction]. cbn in A. injection A as <-. cbn.
      apply Forall_forall. intros p Hp. apply hsl_set_in in Hp. destruct Hp as [->|Hp]; [exact I|].
      unfold lists_only in H. rewrite Forall_forall in H. apply (H _ Hp).
    + cbn in A. injection A as <-. cbn.
      apply Forall_forall. intros p Hp. apply hsl_set_in in Hp. destruct Hp as [->|Hp]; [exact I|].
      unfold lists_only in H. rewrite Forall_forall in H. apply (H _ Hp).
Qed.
