(** Where capturing groups end up, and what they captured. *)
From Verif Require Import GoBase Utf8 Utf8Facts Regex RegexSpec RegexFacts.
Open Scope nat_scope.

(** The groups of an expression with their contents. *)
Fixpoint recaps (r : re) : list (nat * re) :=
  match r with
  | RCap i r => (i, r) :: recaps r
  | RStar _ r | RPlus _ r | RQuest _ r | RRepeat _ _ _ r => recaps r
  | RCat l | RAlt l => flat_map recaps l
  | _ => []
  end.
Fixpoint xcaps (x : rx) : list (nat * rx) :=
  match x with
  | XCap i x => (i, x) :: xcaps x
  | XCat a b | XAlt a b => xcaps a ++ xcaps b
  | XStar _ x => xcaps x
  | _ => []
  end.

Lemma xcaps_quest g x : incl (xcaps (xquest g x)) (xcaps x).
Proof. unfold xquest; destruct g; cbn [xcaps]; intros y; rewrite in_app_iff; cbn; tauto. Qed.
Lemma xcaps_star g x : incl (xcaps (xstar g x)) (xcaps x).
Proof.
  unfold xstar; destruct (nullable x); cbn [xcaps]; [|intros y; tauto].
  intros y Hy; apply xcaps_quest in Hy; cbn [xplus xcaps] in Hy; rewrite in_app_iff in Hy; tauto.
Qed.
Lemma xcaps_pow n x t : incl (xcaps (xpow n x t)) (xcaps x ++ xcaps t).
Proof.
  induction n as [|n IH]; cbn [xpow xcaps]; intros y; rewrite ?in_app_iff; [tauto|].
  intros [H|H]; [tauto|]; apply IH in H; rewrite in_app_iff in H; tauto.
Qed.
Lemma xcaps_upto g m x : incl (xcaps (xupto g m x)) (xcaps x).
Proof.
  induction m as [|m IH]; cbn [xupto]; [intros y []|].
  destruct m as [|m]; [apply xcaps_quest|].
  intros y Hy; apply xcaps_quest in Hy; cbn [xcaps] in Hy; rewrite in_app_iff in Hy.
  destruct Hy as [Hy|Hy]; [exact Hy|apply IH; exact Hy].
Qed.

Lemma xcaps_simplify r i x :
  In (i, x) (xcaps (simplify r)) -> exists r', In (i, r') (recaps r) /\ x = simplify r'.
Proof.
  induction r as [| |rs|ranges| | | | |j r IH|g r IH|g r IH|g r IH|g mn mx r IH|l IH|l IH] using re_ind';
    cbn [simplify xcaps recaps]; intros H; try contradiction.
  - exfalso; induction rs as [|ch rs IHrs]; [contradiction|]; destruct rs as [|ch' rs]; [contradiction|].
    cbn [xcaps app] in H; apply IHrs; exact H.
  - destruct H as [H|H].
    + injection H as <- <-; exists r; split; [left; reflexivity|reflexivity].
    + destruct (IH H) as (r' & Hin & E); exists r'; split; [right; exact Hin|exact E].
  - apply IH; apply xcaps_star in H; exact H.
  - cbn [xplus xcaps] in H; rewrite in_app_iff in H; apply IH; tauto.
  - apply IH; apply xcaps_quest in H; exact H.
  - apply IH; destruct mx as [m|].
    + apply xcaps_pow in H; rewrite in_app_iff in H; destruct H as [H|H]; [exact H|].
      apply xcaps_upto in H; exact H.
    + destruct mn as [|n]; [apply xcaps_star in H; exact H|].
      apply xcaps_pow in H; rewrite in_app_iff in H; destruct H as [H|H]; [exact H|].
      cbn [xplus xcaps] in H; rewrite in_app_iff in H; tauto.
  - induction IH as [|r l Hr Hl IHl]; [contradiction|]; cbn [flat_map].
    assert (In (i, x) (xcaps (simplify r)) \/ In (i, x) (xcaps (simplify (RCat l)))) as [H'|H'].
    { cbn [simplify]; destruct l as [|r' l]; [left; exact H|].
      cbn [xcaps] in H; rewrite in_app_iff in H; exact H. }
    + destruct (Hr H') as (r' & Hin & E); exists r'; rewrite in_app_iff; tauto.
    + destruct (IHl H') as (r' & Hin & E); exists r'; rewrite in_app_iff; tauto.
  - induction IH as [|r l Hr Hl IHl]; [contradiction|]; cbn [flat_map].
    assert (In (i, x) (xcaps (simplify r)) \/ In (i, x) (xcaps (simplify (RAlt l)))) as [H'|H'].
    { cbn [simplify]; destruct l as [|r' l]; [left; exact H|].
      cbn [xcaps] in H; rewrite in_app_iff in H; exact H. }
    + destruct (Hr H') as (r' & Hin & E); exists r'; rewrite in_app_iff; tauto.
    + destruct (IHl H') as (r' & Hin & E); exists r'; rewrite in_app_iff; tauto.
Qed.

(** A capture recorded while [x] went from [u ++ s'] at [p] to [s']. *)
Definition cap_ok (X : list (nat * rx)) (s : text) (p : nat) (s' : text) (e : nat * (nat * nat)) : Prop :=
  let '(i, (a, b)) := e in
  exists x u v w c c',
    In (i, x) X /\ s = u ++ v ++ w ++ s' /\ a = p + gwidth u /\ b = a + gwidth v /\
    runs x (v ++ w ++ s') a c (w ++ s') b c'.

Lemma cap_ok_incl X Y s p s' e : incl X Y -> cap_ok X s p s' e -> cap_ok Y s p s' e.
Proof.
  intros Hi; destruct e as [i [a b]]; intros (x & u & v & w & c & c' & Hin & H).
  exists x, u, v, w, c, c'; split; [apply Hi; exact Hin|exact H].
Qed.
Lemma cap_ok_before X s p u s' s2 e :
  s = u ++ s' -> cap_ok X s' (p + gwidth u) s2 e -> cap_ok X s p s2 e.
Proof.
  intros ->; destruct e as [i [a b]]; intros (x & u' & v & w & c & c' & Hin & -> & -> & -> & Hr).
  exists x, (u ++ u'), v, w, c, c'; split; [exact Hin|]; rewrite gwidth_app, <- app_assoc.
  repeat split; [lia|exact Hr].
Qed.
Lemma cap_ok_after X s p u s' s2 e :
  s' = u ++ s2 -> cap_ok X s p s' e -> cap_ok X s p s2 e.
Proof.
  intros ->; destruct e as [i [a b]]; intros (x & u' & v & w & c & c' & Hin & -> & -> & -> & Hr).
  exists x, u', v, (w ++ u), c, c'; rewrite <- app_assoc; repeat split; assumption.
Qed.

Lemma runs_caps x s p c s' p' c' :
  runs x s p c s' p' c' -> exists new, c' = new ++ c /\ Forall (cap_ok (xcaps x) s p s') new.
Proof.
  induction 1 as
    [s p c|ranges ch w s p c H|s c|p c|i r s p c s' p' c' H IH
    |a b s p c s1 p1 c1 s2 p2 c2 H1 IH1 H2 IH2|a b s p c s' p' c' H IH|a b s p c s' p' c' H IH
    |g r s p c|g r s p c s1 p1 c1 s2 p2 c2 H1 IH1 Hlt H2 IH2];
    try (exists []; split; [reflexivity|constructor]).
  - destruct IH as (new & -> & Hn); exists ((i, (p, p')) :: new); split; [reflexivity|constructor].
    + destruct (runs_consumes _ _ _ _ _ _ _ H) as (u & -> & ->).
      exists r, [], u, [], c, (new ++ c); rewrite gwidth_nil; cbn [xcaps app].
      repeat split; [left; reflexivity|lia|exact H].
    + eapply Forall_impl; [|exact Hn]; intros e; apply cap_ok_incl; intros y Hy; right; exact Hy.
  - destruct IH1 as (n1 & -> & Hn1), IH2 as (n2 & -> & Hn2).
    destruct (runs_consumes _ _ _ _ _ _ _ H1) as (u1 & E1 & ->).
    destruct (runs_consumes _ _ _ _ _ _ _ H2) as (u2 & E2 & ->).
    exists (n2 ++ n1); split; [apply app_assoc|]; apply Forall_app; split.
    + eapply Forall_impl; [|exact Hn2]; intros e He; eapply cap_ok_before; [exact E1|].
      eapply cap_ok_incl; [|exact He]; cbn [xcaps]; apply incl_appr, incl_refl.
    + eapply Forall_impl; [|exact Hn1]; intros e He; eapply cap_ok_after; [exact E2|].
      eapply cap_ok_incl; [|exact He]; cbn [xcaps]; apply incl_appl, incl_refl.
  - destruct IH as (new & -> & Hn); exists new; split; [reflexivity|].
    eapply Forall_impl; [|exact Hn]; intros e; apply cap_ok_incl; cbn [xcaps]; apply incl_appl, incl_refl.
  - destruct IH as (new & -> & Hn); exists new; split; [reflexivity|].
    eapply Forall_impl; [|exact Hn]; intros e; apply cap_ok_incl; cbn [xcaps]; apply incl_appr, incl_refl.
  - destruct IH1 as (n1 & -> & Hn1), IH2 as (n2 & -> & Hn2).
    destruct (runs_consumes _ _ _ _ _ _ _ H1) as (u1 & E1 & ->).
    destruct (runs_consumes _ _ _ _ _ _ _ H2) as (u2 & E2 & ->).
    exists (n2 ++ n1); split; [apply app_assoc|]; apply Forall_app; split.
    + eapply Forall_impl; [|exact Hn2]; intros e He; eapply cap_ok_before; [exact E1|exact He].
    + eapply Forall_impl; [|exact Hn1]; intros e He; eapply cap_ok_after; [exact E2|exact He].
Qed.

(** ** Progress *)
Lemma runs_nullable x s p c s' p' c' :
  runs x s p c s' p' c' -> nullable x = false -> exists u, u <> [] /\ s = u ++ s'.
Proof.
  induction 1 as
    [s p c|ranges ch w s p c H|s c|p c|i r s p c s' p' c' H IH
    |a b s p c s1 p1 c1 s2 p2 c2 H1 IH1 H2 IH2|a b s p c s' p' c' H IH|a b s p c s' p' c' H IH
    |g r s p c|g r s p c s1 p1 c1 s2 p2 c2 H1 IH1 Hlt H2 IH2]; cbn [nullable]; intros Hn; try discriminate.
  - exists [(ch, w)]; split; [discriminate|reflexivity].
  - apply IH; exact Hn.
  - apply andb_false_iff in Hn; destruct Hn as [Hn|Hn].
    + destruct (IH1 Hn) as (u & Hu & ->); destruct (runs_consumes _ _ _ _ _ _ _ H2) as (u2 & -> & _).
      exists (u ++ u2); split; [destruct u; [contradiction|discriminate]|apply app_assoc].
    + destruct (IH2 Hn) as (u & Hu & ->); destruct (runs_consumes _ _ _ _ _ _ _ H1) as (u1 & -> & _).
      exists (u1 ++ u); split; [destruct u1; [exact Hu|discriminate]|apply app_assoc].
  - apply orb_false_iff in Hn; apply IH; tauto.
  - apply orb_false_iff in Hn; apply IH; tauto.
Qed.

(** ** Sequences and alternatives *)
Inductive runs_seq : list re -> text -> nat -> caps -> text -> nat -> caps -> Prop :=
| seq_nil s p c : runs_seq [] s p c s p c
| seq_cons r l s p c s1 p1 c1 s2 p2 c2 :
    runs (simplify r) s p c s1 p1 c1 -> runs_seq l s1 p1 c1 s2 p2 c2 ->
    runs_seq (r :: l) s p c s2 p2 c2.

Lemma simplify_cat_cons r r' l :
  simplify (RCat (r :: r' :: l)) = XCat (simplify r) (simplify (RCat (r' :: l))).
Proof. reflexivity. Qed.
Lemma simplify_alt_cons r r' l :
  simplify (RAlt (r :: r' :: l)) = XAlt (simplify r) (simplify (RAlt (r' :: l))).
Proof. reflexivity. Qed.

Lemma runs_cat l s p c s' p' c' :
  runs (simplify (RCat l)) s p c s' p' c' <-> runs_seq l s p c s' p' c'.
Proof.
  revert s p c; induction l as [|r l IH]; intros s p c.
  - split; intros H; inversion H; subst; constructor.
  - destruct l as [|r' l].
    + split; intros H.
      * econstructor; [exact H|constructor].
      * inversion H as [|r0 l0 s0 p0 c0 s1 p1 c1 s2 p2 c2 H1 H2]; subst; inversion H2; subst; exact H1.
    + rewrite simplify_cat_cons; split; intros H.
      * inversion H as [| | | | |a' b' s0 p0 c0 s1 p1 c1 s2 p2 c2 H1 H2| | | |]; subst.
        econstructor; [exact H1|apply IH; exact H2].
      * inversion H as [|r0 l0 s0 p0 c0 s1 p1 c1 s2 p2 c2 H1 H2]; subst.
        econstructor; [exact H1|apply IH; exact H2].
Qed.
Lemma runs_alt l s p c s' p' c' :
  runs (simplify (RAlt l)) s p c s' p' c' <-> exists r, In r l /\ runs (simplify r) s p c s' p' c'.
Proof.
  induction l as [|r l IH].
  - split; [intros H; inversion H|intros (r & [] & _)].
  - destruct l as [|r' l].
    + split; [intros H; exists r; split; [left; reflexivity|exact H]|].
      intros (r0 & [<-|[]] & H); exact H.
    + rewrite simplify_alt_cons; split; intros H.
      * inversion H as [| | | | | |a' b' s0 p0 c0 s1 p1 c1 H1|a' b' s0 p0 c0 s1 p1 c1 H1| |]; subst.
        -- exists r; split; [left; reflexivity|exact H1].
        -- apply IH in H1; destruct H1 as (r0 & Hin & H1); exists r0; split; [right; exact Hin|exact H1].
      * destruct H as (r0 & [<-|Hin] & H1); [apply X_altl; exact H1|].
        apply X_altr; apply IH; exists r0; split; assumption.
Qed.

Lemma runs_seq_app l1 l2 s p c s' p' c' :
  runs_seq (l1 ++ l2) s p c s' p' c' <->
  exists s1 p1 c1, runs_seq l1 s p c s1 p1 c1 /\ runs_seq l2 s1 p1 c1 s' p' c'.
Proof.
  revert s p c; induction l1 as [|r l1 IH]; intros s p c; cbn [app].
  - split; [intros H; exists s, p, c; split; [constructor|exact H]|].
    intros (s1 & p1 & c1 & H1 & H2); inversion H1; subst; exact H2.
  - split.
    + intros H; inversion H as [|r0 l0 s0 p0 c0 s1 p1 c1 s2 p2 c2 H1 H2]; subst.
      apply IH in H2; destruct H2 as (s3 & p3 & c3 & H2 & H3).
      exists s3, p3, c3; split; [econstructor; eassumption|exact H3].
    + intros (s3 & p3 & c3 & H & H3); inversion H as [|r0 l0 s0 p0 c0 s1 p1 c1 s2 p2 c2 H1 H2]; subst.
      econstructor; [exact H1|apply IH; exists s3, p3, c3; split; assumption].
Qed.

(** The characters between two boundaries of a string. *)
Lemma decode_firstn s n :
  s <> [] -> snd (decode_rune s) <= n -> decode_rune (firstn n s) = decode_rune s.
Proof.
  intros Hn; destruct s as [|b0 s]; [contradiction|]; clear Hn.
  destruct n as [|n]; [pose proof (decode_width (b0 :: s) ltac:(discriminate)); intros; lia|].
  cbn [firstn decode_rune].
  destruct (b0 <? 0x80)%N; [(intros; reflexivity)|].
  destruct ((b0 <? 0xC2)%N || (0xF4 <? b0)%N); [(intros; reflexivity)|].
  destruct s as [|b1 s]; [destruct n; (intros; reflexivity)|].
  destruct n as [|n].
  - cbn [firstn]; destruct (b0 <? 0xE0)%N.
    + destruct (is_cont b1); cbn [snd]; [intros; lia|(intros; reflexivity)].
    + destruct (b0 <? 0xF0)%N.
      * destruct (is_cont b1 && _ && _); [|(intros; reflexivity)].
        destruct s as [|b2 s]; [(intros; reflexivity)|]; destruct (is_cont b2); cbn [snd]; [intros; lia|(intros; reflexivity)].
      * destruct (is_cont b1 && _ && _); [|(intros; reflexivity)].
        destruct s as [|b2 [|b3 s]]; try (intros; reflexivity).
        destruct (is_cont b2 && is_cont b3); cbn [snd]; [intros; lia|(intros; reflexivity)].
  - cbn [firstn]; destruct (b0 <? 0xE0)%N; [(intros; reflexivity)|].
    destruct (b0 <? 0xF0)%N.
    + destruct (is_cont b1 && _ && _); [|(intros; reflexivity)].
      destruct s as [|b2 s]; [destruct n; (intros; reflexivity)|]; destruct n as [|n]; [|(intros; reflexivity)].
      cbn [firstn]; destruct (is_cont b2); cbn [snd]; [intros; lia|(intros; reflexivity)].
    + destruct (is_cont b1 && _ && _); [|(intros; reflexivity)].
      destruct s as [|b2 s]; [destruct n; (intros; reflexivity)|]; destruct n as [|n].
      * cbn [firstn]; destruct s as [|b3 s]; [(intros; reflexivity)|].
        destruct (is_cont b2 && is_cont b3); cbn [snd]; [intros; lia|(intros; reflexivity)].
      * cbn [firstn]; destruct s as [|b3 s]; [destruct n; (intros; reflexivity)|]; destruct n as [|n]; [|(intros; reflexivity)].
        cbn [firstn]; destruct (is_cont b2 && is_cont b3); cbn [snd]; [intros; lia|(intros; reflexivity)].
Qed.

Lemma glyphs_firstn s u v : glyphs s = u ++ v -> glyphs (firstn (gwidth u) s) = u.
Proof.
  revert s; induction u as [|g u IH]; intros s H.
  - rewrite gwidth_nil; reflexivity.
  - assert (s <> []) as Hn by (intros ->; discriminate).
    assert (Hw := decode_width s Hn).
    rewrite glyphs_step in H by exact Hn; injection H as Hg H.
    rewrite gwidth_cons, <- Hg.
    assert (firstn (snd (decode_rune s) + gwidth u) s <> []) as Hf.
    { destruct s as [|b s]; [contradiction|].
      destruct (snd (decode_rune (b :: s))); [lia|discriminate]. }
    rewrite glyphs_step by exact Hf; rewrite decode_firstn by (auto; lia).
    f_equal; rewrite skipn_firstn_comm.
    replace (snd (decode_rune s) + gwidth u - snd (decode_rune s)) with (gwidth u) by lia.
    apply IH; exact H.
Qed.
Lemma glyphs_sub s u v w :
  glyphs s = u ++ v ++ w -> glyphs (sub s (gwidth u) (gwidth u + gwidth v)) = v.
Proof.
  intros H; unfold sub; replace (gwidth u + gwidth v - gwidth u) with (gwidth v) by lia.
  apply glyphs_split in H; apply glyphs_firstn with (v := w); exact H.
Qed.
