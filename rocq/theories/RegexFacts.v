(** The matcher of Regex.v against the meaning of expressions in RegexSpec.v. *)
From Verif Require Import GoBase Utf8 Utf8Facts Regex RegexSpec.
Open Scope nat_scope.

Section Re_ind.
  Variable P : re -> Prop.
  Hypothesis Hnomatch : P RNoMatch.
  Hypothesis Hempty : P REmpty.
  Hypothesis Hlit : forall rs, P (RLit rs).
  Hypothesis Hclass : forall ranges, P (RClass ranges).
  Hypothesis Hanynl : P RAnyNotNL.
  Hypothesis Hany : P RAny.
  Hypothesis Hbegin : P RBegin.
  Hypothesis Hend : P REnd.
  Hypothesis Hcap : forall i r, P r -> P (RCap i r).
  Hypothesis Hstar : forall g r, P r -> P (RStar g r).
  Hypothesis Hplus : forall g r, P r -> P (RPlus g r).
  Hypothesis Hquest : forall g r, P r -> P (RQuest g r).
  Hypothesis Hrepeat : forall g mn mx r, P r -> P (RRepeat g mn mx r).
  Hypothesis Hcat : forall l, Forall P l -> P (RCat l).
  Hypothesis Halt : forall l, Forall P l -> P (RAlt l).
  Fixpoint re_ind' (r : re) : P r :=
    let all := fix all (l : list re) : Forall P l :=
      match l with [] => Forall_nil P | x :: l' => Forall_cons x (re_ind' x) (all l') end in
    match r with
    | RNoMatch => Hnomatch
    | REmpty => Hempty
    | RLit rs => Hlit rs
    | RClass ranges => Hclass ranges
    | RAnyNotNL => Hanynl
    | RAny => Hany
    | RBegin => Hbegin
    | REnd => Hend
    | RCap i r => Hcap i r (re_ind' r)
    | RStar g r => Hstar g r (re_ind' r)
    | RPlus g r => Hplus g r (re_ind' r)
    | RQuest g r => Hquest g r (re_ind' r)
    | RRepeat g mn mx r => Hrepeat g mn mx r (re_ind' r)
    | RCat l => Hcat l (all l)
    | RAlt l => Halt l (all l)
    end.
End Re_ind.

(** ** One way to match, with its captures *)
Inductive runs : rx -> text -> nat -> caps -> text -> nat -> caps -> Prop :=
| X_eps s p c : runs XEps s p c s p c
| X_set ranges ch w s p c : in_set ranges ch = true -> runs (XSet ranges) ((ch, w) :: s) p c s (p + w) c
| X_begin s c : runs XBegin s 0 c s 0 c
| X_end p c : runs XEnd [] p c [] p c
| X_cap i r s p c s' p' c' : runs r s p c s' p' c' -> runs (XCap i r) s p c s' p' ((i, (p, p')) :: c')
| X_cat a b s p c s1 p1 c1 s2 p2 c2 :
    runs a s p c s1 p1 c1 -> runs b s1 p1 c1 s2 p2 c2 -> runs (XCat a b) s p c s2 p2 c2
| X_altl a b s p c s' p' c' : runs a s p c s' p' c' -> runs (XAlt a b) s p c s' p' c'
| X_altr a b s p c s' p' c' : runs b s p c s' p' c' -> runs (XAlt a b) s p c s' p' c'
| X_star_none g r s p c : runs (XStar g r) s p c s p c
| X_star_more g r s p c s1 p1 c1 s2 p2 c2 :
    runs r s p c s1 p1 c1 -> p < p1 -> runs (XStar g r) s1 p1 c1 s2 p2 c2 ->
    runs (XStar g r) s p c s2 p2 c2.

Lemma runs_consumes r s p c s' p' c' :
  runs r s p c s' p' c' -> exists u, s = u ++ s' /\ p' = p + gwidth u.
Proof.
  induction 1 as
    [s p c|ranges ch w s p c H|s c|p c|i r s p c s' p' c' H IH
    |a b s p c s1 p1 c1 s2 p2 c2 H1 IH1 H2 IH2|a b s p c s' p' c' H IH|a b s p c s' p' c' H IH
    |g r s p c|g r s p c s1 p1 c1 s2 p2 c2 H1 IH1 Hlt H2 IH2];
    try (exists []; split; [reflexivity|rewrite gwidth_nil; lia]); try exact IH.
  - exists [(ch, w)]; split; [reflexivity|rewrite gwidth_cons, gwidth_nil; cbn [snd]; lia].
  - destruct IH1 as (u1 & -> & ->), IH2 as (u2 & -> & ->); exists (u1 ++ u2).
    split; [apply app_assoc|rewrite gwidth_app; lia].
  - destruct IH1 as (u1 & -> & ->), IH2 as (u2 & -> & ->); exists (u1 ++ u2).
    split; [apply app_assoc|rewrite gwidth_app; lia].
Qed.

(** The loop of [mt] for a repetition, and its unfolding. *)
Section Loop.
  Context {A : Type} (g : bool) (r : rx) (k : text -> nat -> caps -> option A).
  Fixpoint mt_loop (n : text) (s : text) (p : nat) (c : caps) : option A :=
    match n with
    | [] => k s p c
    | _ :: n' =>
      if g then
        match mt r s p c (fun s' p' c' => if p' <=? p then None else mt_loop n' s' p' c') with
        | Some x => Some x
        | None => k s p c
        end
      else
        match k s p c with
        | Some x => Some x
        | None => mt r s p c (fun s' p' c' => if p' <=? p then None else mt_loop n' s' p' c')
        end
    end.
End Loop.
Lemma mt_star {A} g r s p c (k : text -> nat -> caps -> option A) :
  mt (XStar g r) s p c k = mt_loop g r k s s p c.
Proof. reflexivity. Qed.

Lemma mt_sound {A} r : forall s p c (k : text -> nat -> caps -> option A) x,
  mt r s p c k = Some x -> exists s' p' c', runs r s p c s' p' c' /\ k s' p' c' = Some x.
Proof.
  induction r as [| |ranges| | |i r IH|a IHa b IHb|a IHa b IHb|g r IH]; intros s p c k x H.
  - discriminate.
  - exists s, p, c; split; [constructor|exact H].
  - cbn [mt] in H; destruct s as [|[ch w] s]; [discriminate|].
    destruct (in_set ranges ch) eqn:E; [|discriminate].
    do 3 eexists; split; [constructor; exact E|exact H].
  - cbn [mt] in H; destruct p; [|discriminate]; do 3 eexists; split; [constructor|exact H].
  - cbn [mt] in H; destruct s; [|discriminate]; do 3 eexists; split; [constructor|exact H].
  - cbn [mt] in H; apply IH in H; destruct H as (s' & p' & c' & Hr & Hk).
    do 3 eexists; split; [constructor; exact Hr|exact Hk].
  - cbn [mt] in H; apply IHa in H; destruct H as (s1 & p1 & c1 & H1 & H).
    apply IHb in H; destruct H as (s2 & p2 & c2 & H2 & Hk).
    do 3 eexists; split; [econstructor; eassumption|exact Hk].
  - cbn [mt] in H; destruct (mt a s p c k) eqn:E.
    + injection H as ->; apply IHa in E; destruct E as (s' & p' & c' & Hr & Hk).
      do 3 eexists; split; [apply X_altl; exact Hr|exact Hk].
    + apply IHb in H; destruct H as (s' & p' & c' & Hr & Hk).
      do 3 eexists; split; [apply X_altr; exact Hr|exact Hk].
  - rewrite mt_star in H; revert H; generalize s at 1; intros n; revert s p c x.
    induction n as [|g0 n IHn]; intros s p c x H; cbn [mt_loop] in H.
    + exists s, p, c; split; [constructor|exact H].
    + assert (forall x, mt r s p c (fun s' p' c' =>
               if p' <=? p then None else mt_loop g r k n s' p' c') = Some x ->
               exists s' p' c', runs (XStar g r) s p c s' p' c' /\ k s' p' c' = Some x) as Hm.
      { intros y Hy; apply IH in Hy; destruct Hy as (s1 & p1 & c1 & H1 & Hy).
        destruct (p1 <=? p) eqn:E; [discriminate|]; apply Nat.leb_gt in E.
        apply IHn in Hy; destruct Hy as (s2 & p2 & c2 & H2 & Hk).
        do 3 eexists; split; [eapply X_star_more; eassumption|exact Hk]. }
      destruct g.
      * destruct (mt r s p c _) eqn:E.
        -- injection H as ->; apply Hm; reflexivity.
        -- exists s, p, c; split; [constructor|exact H].
      * destruct (k s p c) eqn:E.
        -- injection H as ->; exists s, p, c; split; [constructor|exact E].
        -- apply Hm; exact H.
Qed.

Lemma mt_complete {A} r : forall s p c s' p' c',
  runs r s p c s' p' c' ->
  forall (k : text -> nat -> caps -> option A), k s' p' c' <> None -> mt r s p c k <> None.
Proof.
  induction r as [| |ranges| | |i r IH|a IHa b IHb|a IHa b IHb|g r IH];
    intros s p c s' p' c' H k Hk.
  - inversion H.
  - inversion H; subst; exact Hk.
  - inversion H as [|ranges' ch w s0 p0 c0 Hin| | | | | | | |]; subst; cbn [mt]; rewrite Hin; exact Hk.
  - inversion H; subst; exact Hk.
  - inversion H; subst; exact Hk.
  - inversion H as [| | | |i' r' s0 p0 c0 s1 p1 c1 Hr| | | | |]; subst; cbn [mt]; eapply IH; eassumption.
  - inversion H as [| | | | |a' b' s0 p0 c0 s1 p1 c1 s2 p2 c2 H1 H2| | | |]; subst; cbn [mt].
    eapply IHa; [exact H1|]; eapply IHb; eassumption.
  - cbn [mt]; destruct (mt a s p c k) eqn:E; [discriminate|].
    inversion H as [| | | | | |a' b' s0 p0 c0 s1 p1 c1 H1|a' b' s0 p0 c0 s1 p1 c1 H1| |]; subst.
    + exfalso; revert E; eapply IHa; eassumption.
    + eapply IHb; eassumption.
  - rewrite mt_star; assert (length s <= length s) as Hn by lia; revert Hn.
    generalize s at 2 3; intros n.
    remember (XStar g r) as X eqn:EX; revert n.
    induction H as
      [s p c|ranges ch w s p c H|s c|p c|i r0 s p c s' p' c' H IH'
      |a b s p c s1 p1 c1 s2 p2 c2 H1 IH1 H2 IH2|a b s p c s' p' c' H IH'|a b s p c s' p' c' H IH'
      |g0 r0 s p c|g0 r0 s p c s1 p1 c1 s2 p2 c2 H1 IH1 Hlt H2 IH2];
      try discriminate; injection EX as -> ->; intros n Hn.
    + destruct n as [|g0 n]; cbn [mt_loop]; [exact Hk|].
      destruct g; [destruct (mt r s p c _); [discriminate|exact Hk]|].
      destruct (k s p c); [discriminate|contradiction].
    + destruct (runs_consumes _ _ _ _ _ _ _ H1) as (u & -> & ->).
      destruct n as [|g0 n].
      { destruct u; [rewrite gwidth_nil in Hlt; lia|cbn in Hn; lia]. }
      cbn [mt_loop].
      assert (mt r (u ++ s1) p c (fun s' p' c' =>
               if p' <=? p then None else mt_loop g r k n s' p' c') <> None) as Hm.
      { eapply IH; [exact H1|].
        assert (p + gwidth u <=? p = false) as -> by (apply Nat.leb_gt; lia).
        apply IH2; [reflexivity|exact Hk|].
        destruct u as [|g1 u]; [rewrite gwidth_nil in Hlt; lia|].
        cbn [length app] in Hn; rewrite app_length in Hn; lia. }
      destruct g; [destruct (mt r _ p c _); [discriminate|contradiction]|].
      destruct (k _ p c); [discriminate|exact Hm].
Qed.

(** ** Search *)
Lemma search_sound r : forall s p a b c,
  search r s p = Some (a, b, c) ->
  exists u v s', s = u ++ v ++ s' /\ a = p + gwidth u /\ b = a + gwidth v /\
    runs r (v ++ s') a [] s' b c.
Proof.
  intros s; induction s as [|[ch w] s IH]; intros p a b c H; cbn [search] in H.
  - destruct (mt r [] p [] _) as [[p' c']|] eqn:E; [|discriminate]; injection H as <- <- <-.
    apply mt_sound in E; destruct E as (s' & p1 & c1 & Hr & Hk); injection Hk as -> ->.
    destruct (runs_consumes _ _ _ _ _ _ _ Hr) as (u & Es & Ep).
    exists [], u, s'; cbn [app]; rewrite <- Es; rewrite gwidth_nil.
    repeat split; [lia|lia|exact Hr].
  - destruct (mt r ((ch, w) :: s) p [] _) as [[p' c']|] eqn:E.
    + injection H as <- <- <-.
      apply mt_sound in E; destruct E as (s' & p1 & c1 & Hr & Hk); injection Hk as -> ->.
      destruct (runs_consumes _ _ _ _ _ _ _ Hr) as (u & Es & Ep).
      exists [], u, s'; cbn [app]; rewrite <- Es; rewrite gwidth_nil.
      repeat split; [lia|lia|exact Hr].
    + apply IH in H; destruct H as (u & v & s' & -> & -> & -> & Hr).
      exists ((ch, w) :: u), v, s'; cbn [app]; rewrite gwidth_cons; cbn [snd].
      repeat split; [lia|].
      replace (p + (w + gwidth u)) with (p + w + gwidth u) by lia; exact Hr.
Qed.

(** Nothing matches before the reported start. *)
Lemma search_leftmost r : forall s p u v s' b c,
  s = u ++ v ++ s' -> runs r (v ++ s') (p + gwidth u) [] s' b c ->
  exists a b' c', search r s p = Some (a, b', c') /\ a <= p + gwidth u.
Proof.
  intros s; induction s as [|[ch w] s IH]; intros p u v s' b c Es Hr; cbn [search].
  - destruct u; [|discriminate]; cbn [app] in Es; rewrite <- Es in Hr.
    rewrite gwidth_nil in *; rewrite Nat.add_0_r in *.
    destruct (mt r [] p [] _) as [[p' c']|] eqn:E.
    + do 3 eexists; split; [reflexivity|lia].
    + exfalso; revert E; eapply mt_complete; [exact Hr|discriminate].
  - destruct (mt r ((ch, w) :: s) p [] _) as [[p' c']|] eqn:E.
    + do 3 eexists; split; [reflexivity|lia].
    + destruct u as [|g u].
      * cbn [app] in Es; rewrite <- Es in Hr; rewrite gwidth_nil, Nat.add_0_r in Hr.
        exfalso; revert E; eapply mt_complete; [exact Hr|discriminate].
      * cbn [app] in Es; injection Es as <- Es.
        rewrite gwidth_cons in *; cbn [snd] in *; rewrite Nat.add_assoc in Hr.
        destruct (IH _ _ _ _ _ _ Es Hr) as (a & b' & c' & Hs & Hle).
        exists a, b', c'; split; [exact Hs|lia].
Qed.

(** ** Meaning of the simplified expression *)

(** [p] is the beginning of the text exactly when nothing precedes. *)
Definition at_start (pre : list rune) (p : nat) : Prop := pre = [] <-> p = 0.
Definition runes_of (u : text) : list rune := map fst u.
Definition wide (s : text) : Prop := Forall (fun g => 1 <= snd g) s.

Lemma at_start_app pre p (u : text) :
  at_start pre p -> wide u -> at_start (pre ++ runes_of u) (p + gwidth u).
Proof.
  unfold at_start; intros H Hw; destruct Hw as [|[ch w] u Hg Hw].
  - rewrite app_nil_r, gwidth_nil, Nat.add_0_r; exact H.
  - rewrite gwidth_cons; cbn [snd] in *; split; intros E.
    + apply app_eq_nil in E; destruct E as [_ E]; discriminate.
    + lia.
Qed.
Lemma wide_app u v : wide (u ++ v) -> wide u /\ wide v.
Proof. apply Forall_app. Qed.

(** The part of [runs] that does not mention captures. *)
Definition accepts (x : rx) (s : text) (p : nat) (s' : text) (p' : nat) : Prop :=
  forall c, exists c', runs x s p c s' p' c'.

Definition means (x : rx) (M : list rune -> list rune -> list rune -> Prop) : Prop :=
  (forall u s' p c p' c' pre, wide (u ++ s') -> at_start pre p ->
     runs x (u ++ s') p c s' p' c' -> M pre (runes_of u) (runes_of s')) /\
  (forall u s' p pre, wide (u ++ s') -> at_start pre p ->
     M pre (runes_of u) (runes_of s') -> accepts x (u ++ s') p s' (p + gwidth u)).

Lemma app_split_len {A} (u v s : list A) : u ++ s = v ++ s -> u = v.
Proof. apply app_inv_tail. Qed.

Lemma means_ext x (M M' : list rune -> list rune -> list rune -> Prop) :
  means x M -> (forall a b c, M a b c <-> M' a b c) -> means x M'.
Proof.
  intros [Hs Hc] HE; split.
  - intros; apply HE; eapply Hs; eassumption.
  - intros u s' p pre Hw Ha HM; apply (Hc u s' p pre); [exact Hw|exact Ha|apply HE; exact HM].
Qed.

Lemma runs_eps_inv s p c s' p' c' : runs XEps s p c s' p' c' -> s = s' /\ p = p' /\ c = c'.
Proof. intros H; inversion H; auto. Qed.
Lemma runs_set_inv ranges s p c s' p' c' : runs (XSet ranges) s p c s' p' c' ->
  exists ch w, s = (ch, w) :: s' /\ p' = p + w /\ c = c' /\ in_set ranges ch = true.
Proof. intros H; inversion H; subst; eauto 6. Qed.
Lemma runs_begin_inv s p c s' p' c' : runs XBegin s p c s' p' c' -> s = s' /\ p = 0 /\ p' = 0 /\ c = c'.
Proof. intros H; inversion H; auto. Qed.
Lemma runs_end_inv s p c s' p' c' : runs XEnd s p c s' p' c' -> s = [] /\ s' = [] /\ p = p' /\ c = c'.
Proof. intros H; inversion H; auto. Qed.
Lemma app_self_nil {A} (u s : list A) : u ++ s = s -> u = [].
Proof. intros H; apply (app_inv_tail s u []); exact H. Qed.

Lemma means_eps : means XEps (fun _ b _ => b = []).
Proof.
  split.
  - intros u s' p c p' c' pre _ _ H; apply runs_eps_inv in H; destruct H as [H _].
    apply app_self_nil in H; subst u; reflexivity.
  - intros u s' p pre _ _ H c; destruct u; [|discriminate]; rewrite gwidth_nil, Nat.add_0_r.
    exists c; constructor.
Qed.
Lemma means_fail : means XFail (fun _ _ _ => False).
Proof. split; intros; [|contradiction]; match goal with H : runs _ _ _ _ _ _ _ |- _ => inversion H end. Qed.
Lemma means_set ranges :
  means (XSet ranges) (fun _ b _ => exists c, b = [c] /\ in_set ranges c = true).
Proof.
  split.
  - intros u s' p c p' c' pre _ _ H; apply runs_set_inv in H; destruct H as (ch & w & E & _ & _ & Hin).
    assert (u = [(ch, w)]) as -> by (apply (app_split_len u [(ch, w)] s'); exact E).
    exists ch; split; [reflexivity|exact Hin].
  - intros u s' p pre _ _ (ch & E & Hin) c; destruct u as [|[ch' w] [|g u]]; try discriminate.
    injection E as ->; exists c; rewrite gwidth_cons, gwidth_nil; cbn [snd app].
    rewrite Nat.add_0_r; constructor; exact Hin.
Qed.
Lemma means_begin : means XBegin (fun a b _ => a = [] /\ b = []).
Proof.
  split.
  - intros u s' p c p' c' pre _ Ha H; apply runs_begin_inv in H; destruct H as (H & -> & _).
    apply app_self_nil in H; subst u; split; [apply Ha; reflexivity|reflexivity].
  - intros u s' p pre _ Ha [-> E] c; destruct u; [|discriminate].
    assert (p = 0) as -> by (apply Ha; reflexivity); rewrite gwidth_nil; exists c; constructor.
Qed.
Lemma means_end : means XEnd (fun _ b d => b = [] /\ d = []).
Proof.
  split.
  - intros u s' p c p' c' pre _ Ha H; apply runs_end_inv in H; destruct H as (H & -> & _).
    rewrite app_nil_r in H; subst u; split; reflexivity.
  - intros u s' p pre _ Ha [E E'] c; destruct u; [|discriminate]; destruct s'; [|discriminate].
    rewrite gwidth_nil, Nat.add_0_r; exists c; constructor.
Qed.
Lemma means_cap i x M : means x M -> means (XCap i x) M.
Proof.
  intros [Hs Hc]; split.
  - intros u s' p c p' c' pre Hw Ha H; inversion H; subst; eapply Hs; eassumption.
  - intros u s' p pre Hw Ha HM c; destruct (Hc u s' p pre Hw Ha HM c) as (c' & Hr).
    eexists; constructor; exact Hr.
Qed.
Lemma means_alt x y M N :
  means x M -> means y N -> means (XAlt x y) (fun a b d => M a b d \/ N a b d).
Proof.
  intros [Hs Hc] [Hs' Hc']; split.
  - intros u s' p c p' c' pre Hw Ha H; inversion H; subst.
    + left; eapply Hs; eassumption.
    + right; eapply Hs'; eassumption.
  - intros u s' p pre Hw Ha [HM|HN] c.
    + destruct (Hc u s' p pre Hw Ha HM c) as (c' & Hr); eexists; apply X_altl; exact Hr.
    + destruct (Hc' u s' p pre Hw Ha HN c) as (c' & Hr); eexists; apply X_altr; exact Hr.
Qed.
Definition seq (M N : list rune -> list rune -> list rune -> Prop) :=
  fun a b d => exists b1 b2, b = b1 ++ b2 /\ M a b1 (b2 ++ d) /\ N (a ++ b1) b2 d.
Lemma runes_of_app u v : runes_of (u ++ v) = runes_of u ++ runes_of v.
Proof. apply map_app. Qed.
Lemma runes_of_split u b1 b2 :
  runes_of u = b1 ++ b2 -> exists u1 u2, u = u1 ++ u2 /\ runes_of u1 = b1 /\ runes_of u2 = b2.
Proof.
  unfold runes_of; intros H; exists (firstn (length b1) u), (skipn (length b1) u).
  split; [symmetry; apply firstn_skipn|].
  rewrite <- firstn_map, <- skipn_map, H.
  rewrite firstn_app, firstn_all, Nat.sub_diag, firstn_O, app_nil_r.
  rewrite skipn_app, skipn_all, Nat.sub_diag; split; reflexivity.
Qed.
Lemma means_cat x y M N : means x M -> means y N -> means (XCat x y) (seq M N).
Proof.
  intros [Hs Hc] [Hs' Hc']; split.
  - intros u s' p c p' c' pre Hw Ha H; inversion H as [| | | | |a' b' s0 p0 c0 s1 p1 c1 s2 p2 c2 H1 H2| | | |]; subst.
    destruct (runs_consumes _ _ _ _ _ _ _ H1) as (u1 & E1 & ->).
    destruct (runs_consumes _ _ _ _ _ _ _ H2) as (u2 & -> & ->).
    assert (u = u1 ++ u2) as -> by (apply (app_split_len u (u1 ++ u2) s'); rewrite <- app_assoc; exact E1).
    rewrite <- app_assoc in *.
    exists (runes_of u1), (runes_of u2); split; [apply runes_of_app|]; split.
    + rewrite <- runes_of_app; eapply Hs; eassumption.
    + apply wide_app in Hw; destruct Hw as [Hw1 Hw2]; eapply Hs'; [exact Hw2| |exact H2].
      apply at_start_app; assumption.
  - intros u s' p pre Hw Ha (b1 & b2 & Eu & HM & HN) c.
    destruct (runes_of_split _ _ _ Eu) as (u1 & u2 & -> & <- & <-).
    rewrite <- app_assoc in *; rewrite <- runes_of_app in HM.
    destruct (Hc u1 (u2 ++ s') p pre Hw Ha HM c) as (c1 & H1).
    apply wide_app in Hw; destruct Hw as [Hw1 Hw2].
    destruct (Hc' u2 s' (p + gwidth u1) (pre ++ runes_of u1) Hw2
                (at_start_app _ _ _ Ha Hw1) HN c1) as (c2 & H2).
    exists c2; rewrite gwidth_app, Nat.add_assoc; econstructor; eassumption.
Qed.
Lemma means_quest g x M : means x M -> means (xquest g x) (fun a b d => b = [] \/ M a b d).
Proof.
  intros H; unfold xquest; destruct g.
  - eapply means_ext; [apply means_alt; [exact H|apply means_eps]|]; cbn; tauto.
  - eapply means_ext; [apply means_alt; [apply means_eps|exact H]|]; cbn; tauto.
Qed.

(** Repetition of [M]. *)
Inductive many (M : list rune -> list rune -> list rune -> Prop) : list rune -> list rune -> list rune -> Prop :=
| many_none a d : many M a [] d
| many_more a b1 b2 d : M a b1 (b2 ++ d) -> many M (a ++ b1) b2 d -> many M a (b1 ++ b2) d.

Lemma gwidth_pos (u : text) : wide u -> u <> [] -> 0 < gwidth u.
Proof. destruct 1 as [|[ch w] u H _]; [contradiction|]; rewrite gwidth_cons; cbn [snd] in *; lia. Qed.

Lemma means_star g x M : means x M -> means (XStar g x) (many M).
Proof.
  intros [Hs Hc]; split.
  - intros u s' p c p' c' pre Hw Ha H; remember (XStar g x) as X eqn:EX.
    remember (u ++ s') as s eqn:Es; revert u Es pre Ha Hw.
    induction H as
      [s p c|ranges ch w s p c H|s c|p c|i r0 s p c s' p' c' H IH'
      |a b s p c s1 p1 c1 s2 p2 c2 H1 IH1 H2 IH2|a b s p c s' p' c' H IH'|a b s p c s' p' c' H IH'
      |g0 r0 s p c|g0 r0 s p c s1 p1 c1 s2 p2 c2 H1 IH1 Hlt H2 IH2];
      try discriminate; injection EX as -> ->; intros u Es pre Ha Hw.
    + assert (u = []) as -> by (apply (app_split_len u [] s); symmetry; assumption); constructor.
    + destruct (runs_consumes _ _ _ _ _ _ _ H1) as (u1 & E1 & Ep1); subst p1.
      destruct (runs_consumes _ _ _ _ _ _ _ H2) as (u2 & E2 & Ep2); subst s1 p2; rewrite E1 in Es; subst s.
      assert (u = u1 ++ u2) as ->.
      { apply (app_split_len u (u1 ++ u2) s2); rewrite <- app_assoc; symmetry; exact Es. }
      rewrite runes_of_app; apply many_more.
      * rewrite <- runes_of_app; eapply Hs; eassumption.
      * apply wide_app in Hw; destruct Hw as [Hw1 Hw2].
        eapply IH2; [reflexivity|reflexivity| |exact Hw2]; apply at_start_app; assumption.
  - intros u s' p pre Hw Ha HM; remember (runes_of u) as b eqn:Eb; remember (runes_of s') as d eqn:Ed.
    revert u Eb s' Ed p Hw Ha; induction HM as [a d|a b1 b2 d H1 H2 IH]; intros u Eb s' Ed p Hw Ha c.
    + destruct u; [|discriminate]; rewrite gwidth_nil, Nat.add_0_r; exists c; constructor.
    + symmetry in Eb; destruct (runes_of_split _ _ _ Eb) as (u1 & u2 & -> & <- & <-).
      rewrite <- app_assoc in *; subst d; rewrite <- runes_of_app in H1.
      destruct u1 as [|g1 u1].
      * cbn [app runes_of map] in *; rewrite app_nil_r in IH; eapply IH; try reflexivity; assumption.
      * assert (wide (g1 :: u1) /\ wide (u2 ++ s')) as [Hw1 Hw2] by (apply wide_app; exact Hw).
        destruct (Hc (g1 :: u1) (u2 ++ s') p a Hw Ha H1 c) as (c1 & Hr1).
        destruct (IH u2 eq_refl s' eq_refl (p + gwidth (g1 :: u1)) Hw2
                    (at_start_app _ _ _ Ha Hw1) c1) as (c2 & Hr2).
        exists c2; rewrite gwidth_app, Nat.add_assoc; eapply X_star_more; [exact Hr1| |exact Hr2].
        pose proof (gwidth_pos (g1 :: u1) Hw1 ltac:(discriminate)); lia.
Qed.

Lemma many_seq M a b d : many M a b d <-> b = [] \/ seq M (many M) a b d.
Proof.
  split.
  - destruct 1 as [a d|a b1 b2 d H1 H2]; [left; reflexivity|right].
    exists b1, b2; repeat split; assumption.
  - intros [->|(b1 & b2 & -> & H1 & H2)]; [constructor|apply many_more; assumption].
Qed.

Lemma means_plus g x M : means x M -> means (xplus g x) (seq M (many M)).
Proof. intros H; apply means_cat; [exact H|apply means_star; exact H]. Qed.
Lemma means_xstar g x M : means x M -> means (xstar g x) (many M).
Proof.
  intros H; unfold xstar; destruct (nullable x); [|apply means_star; exact H].
  eapply means_ext; [apply means_quest, means_plus; exact H|].
  intros a b d; cbn; symmetry; apply many_seq.
Qed.

(** [n] times [M], then [N]. *)
Fixpoint times (n : nat) (M N : list rune -> list rune -> list rune -> Prop) :=
  match n with O => N | S n' => seq M (times n' M N) end.
Definition nothing : list rune -> list rune -> list rune -> Prop := fun _ b _ => b = [].
Lemma means_pow n x M tail N : means x M -> means tail N -> means (xpow n x tail) (times n M N).
Proof. intros H H'; induction n as [|n IH]; cbn [xpow times]; [exact H'|]; apply means_cat; assumption. Qed.

Lemma seq_ext (M M' N N' : list rune -> list rune -> list rune -> Prop) :
  (forall a b d, M a b d -> M' a b d) -> (forall a b d, N a b d -> N' a b d) ->
  forall a b d, seq M N a b d -> seq M' N' a b d.
Proof. intros H1 H2 a b d (b1 & b2 & E & HM & HN); exists b1, b2; auto. Qed.
Lemma times_ext n M (N N' : list rune -> list rune -> list rune -> Prop) :
  (forall a b d, N a b d -> N' a b d) -> forall a b d, times n M N a b d -> times n M N' a b d.
Proof.
  intros H; induction n as [|n IH]; cbn [times]; [exact H|].
  apply seq_ext; [auto|exact IH].
Qed.
Lemma times_add n m M N a b d : times n M (times m M N) a b d <-> times (n + m) M N a b d.
Proof.
  revert a b d; induction n as [|n IH]; intros a b d; cbn [times Nat.add]; [tauto|].
  split; apply seq_ext; auto; intros; apply IH; assumption.
Qed.

Lemma means_upto g m x M :
  means x M -> means (xupto g m x) (fun a b d => exists n, n <= m /\ times n M nothing a b d).
Proof.
  intros H; induction m as [|m IH].
  - eapply means_ext; [apply means_eps|]; intros a b d; cbn; split.
    + intros ->; exists 0; split; [lia|reflexivity].
    + intros (n & Hn & Ht); assert (n = 0) as -> by lia; exact Ht.
  - assert (forall m', (m' = m) ->
      means (xquest g (XCat x (xupto g m' x))) (fun a b d => exists n, n <= S m /\ times n M nothing a b d)) as Hq.
    { intros m' ->; eapply means_ext; [apply means_quest, means_cat; [exact H|exact IH]|].
      intros a b d; cbn; split.
      - intros [->|(b1 & b2 & -> & H1 & n & Hn & H2)].
        + exists 0; split; [lia|reflexivity].
        + exists (S n); split; [lia|]; exists b1, b2; auto.
      - intros ([|n] & Hn & Ht); [left; exact Ht|right].
        destruct Ht as (b1 & b2 & -> & H1 & H2); exists b1, b2; split; [reflexivity|]; split; [exact H1|].
        exists n; split; [lia|exact H2]. }
    destruct m as [|m]; [|exact (Hq (S m) eq_refl)].
    cbn [xupto]; eapply means_ext; [apply means_quest; exact H|].
    intros a b d; cbn; split.
    + intros [->|HM]; [exists 0; split; [lia|reflexivity]|].
      exists 1; split; [lia|]; exists b, []; rewrite app_nil_r; repeat split; exact HM.
    + intros ([|[|n]] & Hn & Ht); [left; exact Ht| |lia].
      destruct Ht as (b1 & b2 & -> & H1 & H2); cbn in H2; unfold nothing in H2; subst b2.
      rewrite app_nil_r; right; exact H1.
Qed.

Lemma many_times M a b d : many M a b d <-> exists n, times n M nothing a b d.
Proof.
  split.
  - induction 1 as [a d|a b1 b2 d H1 H2 (n & IH)]; [exists 0; reflexivity|].
    exists (S n), b1, b2; auto.
  - intros (n & H); revert a b d H; induction n as [|n IH]; intros a b d H.
    + cbn in H; unfold nothing in H; subst; constructor.
    + destruct H as (b1 & b2 & -> & H1 & H2); apply many_more; [exact H1|apply IH; exact H2].
Qed.

Lemma rmatch_cat_repeat r n a b d :
  rmatch (RCat (repeat r n)) a b d <-> times n (rmatch r) nothing a b d.
Proof.
  revert a b d; induction n as [|n IH]; intros a b d; cbn [repeat times].
  - split; intros H; [inversion H; reflexivity|unfold nothing in H; subst; constructor].
  - split.
    + intros H; inversion H as [| | | | | | | | | | | | | | |r' l pre b1 b2 post H1 H2 E1|]; subst.
      exists b1, b2; split; [reflexivity|]; split; [exact H1|apply IH; exact H2].
    + intros (b1 & b2 & -> & H1 & H2); constructor; [exact H1|apply IH; exact H2].
Qed.

Lemma rmatch_star g r a b d : rmatch (RStar g r) a b d <-> many (rmatch r) a b d.
Proof.
  split.
  - intros H; remember (RStar g r) as R eqn:ER; revert ER; induction H; intros ER; try discriminate;
      injection ER as -> ->; [constructor|apply many_more; auto].
  - induction 1; [constructor|apply M_star_more; assumption].
Qed.

Lemma means_simplify r : means (simplify r) (rmatch r).
Proof.
  induction r as [| |rs|ranges| | | | |i r IH|g r IH|g r IH|g r IH|g mn mx r IH|l IH|l IH] using re_ind'.
  - eapply means_ext; [apply means_fail|]; split; [contradiction|intros H; inversion H].
  - eapply means_ext; [apply means_eps|]; intros a b d; split; [intros ->; constructor|].
    intros H; inversion H; reflexivity.
  - assert (means (simplify (RLit rs)) (fun _ b _ => b = rs)) as H.
    { cbn [simplify]; induction rs as [|ch rs IH]; [apply means_eps|].
      assert (forall rs', rs' = rs -> means (XCat (XSet [(ch, ch)])
                ((fix go (rs : list rune) : rx :=
                  match rs with
                  | [] => XEps
                  | [c] => XSet [(c, c)]
                  | c :: rs' => XCat (XSet [(c, c)]) (go rs')
                  end) rs')) (fun _ b _ => b = ch :: rs)) as Hc.
      { intros rs' ->; eapply means_ext; [apply means_cat; [apply means_set|exact IH]|].
        intros a b d; split.
        - intros (b1 & b2 & -> & (x & -> & Hx) & ->); cbn in Hx.
          assert (x = ch) as -> by lia; reflexivity.
        - intros ->; exists [ch], rs; repeat split; exists ch; split; [reflexivity|].
          cbn; lia. }
      destruct rs as [|ch' rs]; [|exact (Hc _ eq_refl)].
      eapply means_ext; [apply means_set|]; intros a b d; split.
      - intros (x & -> & Hx); cbn in Hx; assert (x = ch) as -> by lia; reflexivity.
      - intros ->; exists ch; split; [reflexivity|cbn; lia]. }
    eapply means_ext; [exact H|]; intros a b d; split; [intros ->; constructor|].
    intros Hm; inversion Hm; reflexivity.
  - eapply means_ext; [apply means_set|]; intros a b d; split.
    + intros (c & -> & Hc); constructor; exact Hc.
    + intros Hm; inversion Hm; subst; eauto.
  - eapply means_ext; [apply means_set|]; intros a b d; split.
    + intros (c & -> & Hc); cbn in Hc; constructor; lia.
    + intros Hm; inversion Hm; subst; eexists; split; [reflexivity|cbn; lia].
  - eapply means_ext; [apply means_set|]; intros a b d; split.
    + intros (c & -> & Hc); cbn in Hc; constructor; lia.
    + intros Hm; inversion Hm; subst; eexists; split; [reflexivity|cbn; lia].
  - eapply means_ext; [apply means_begin|]; intros a b d; split.
    + intros [-> ->]; constructor.
    + intros Hm; inversion Hm; auto.
  - eapply means_ext; [apply means_end|]; intros a b d; split.
    + intros [-> ->]; constructor.
    + intros Hm; inversion Hm; auto.
  - eapply means_ext; [apply means_cap; exact IH|]; intros a b d; split; [intros; constructor; assumption|].
    intros Hm; inversion Hm; assumption.
  - eapply means_ext; [apply means_xstar; exact IH|]; intros a b d; symmetry; apply rmatch_star.
  - eapply means_ext; [apply means_plus; exact IH|]; intros a b d; split.
    + intros (b1 & b2 & -> & H1 & H2); constructor; [exact H1|apply rmatch_star; exact H2].
    + intros Hm; inversion Hm as [| | | | | | | | | |g' r' pre b1 b2 post H1 H2| | | | | |]; subst.
      exists b1, b2; split; [reflexivity|]; split; [exact H1|apply (rmatch_star g); exact H2].
  - eapply means_ext; [apply means_quest; exact IH|]; intros a b d; split.
    + intros [->|H]; [constructor|apply M_quest_one; exact H].
    + intros Hm; inversion Hm; subst; auto.
  - assert (means (simplify (RRepeat g mn mx r)) (fun a b d => exists n, mn <= n /\
        match mx with Some m => n <= Nat.max mn m | None => True end /\
        times n (rmatch r) nothing a b d)) as H.
    { cbn [simplify]; destruct mx as [m|].
      - eapply means_ext; [apply means_pow; [exact IH|apply means_upto; exact IH]|].
        intros a b d; split.
        + intros H.
          assert (exists n, n <= m - mn /\ times mn (rmatch r) (times n (rmatch r) nothing) a b d)
            as (n & Hn & Ht).
          { clear IH; revert a b d H; generalize (m - mn) as q; intros q; induction mn as [|mn IHn];
              intros a b d H; cbn [times] in *; [exact H|].
            destruct H as (b1 & b2 & -> & H1 & H2); destruct (IHn _ _ _ H2) as (n & Hn & Ht).
            exists n; split; [exact Hn|]; exists b1, b2; auto. }
          exists (mn + n); split; [lia|]; split; [lia|]; apply times_add; exact Ht.
        + intros (n & Hn & Hm & Ht).
          apply times_ext with (N := times (n - mn) (rmatch r) nothing).
          * intros a' b' d' H'; exists (n - mn); split; [lia|exact H'].
          * apply times_add; replace (mn + (n - mn)) with n by lia; exact Ht.
      - destruct mn as [|mn].
        + eapply means_ext; [apply means_xstar; exact IH|]; intros a b d; rewrite many_times; split.
          * intros (n & Hn); exists n; repeat split; [lia|exact Hn].
          * intros (n & _ & _ & Hn); exists n; exact Hn.
        + eapply means_ext; [apply means_pow; [exact IH|apply means_plus; exact IH]|].
          intros a b d; split.
          * intros H.
            assert (exists n, times mn (rmatch r) (times (S n) (rmatch r) nothing) a b d) as (n & Ht).
            { clear IH; revert a b d H; induction mn as [|mn IHn]; intros a b d H; cbn [times] in *.
              - destruct H as (b1 & b2 & -> & H1 & H2); apply many_times in H2.
                destruct H2 as (n & Hn); exists n, b1, b2; auto.
              - destruct H as (b1 & b2 & -> & H1 & H2); destruct (IHn _ _ _ H2) as (n & Ht).
                exists n, b1, b2; auto. }
            exists (mn + S n); split; [lia|]; split; [exact I|]; apply times_add; exact Ht.
          * intros (n & Hn & _ & Ht).
            apply times_ext with (N := times (n - mn) (rmatch r) nothing).
            -- intros a' b' d' H'; destruct (n - mn) as [|q] eqn:Eq; [lia|].
               destruct H' as (b1 & b2 & -> & H1 & H2); exists b1, b2; split; [reflexivity|].
               split; [exact H1|apply many_times; exists q; exact H2].
            -- apply times_add; replace (mn + (n - mn)) with n by lia; exact Ht. }
    eapply means_ext; [exact H|]; intros a b d; split.
    + intros (n & Hn & Hm & Ht); econstructor; [exact Hn|exact Hm|].
      apply rmatch_cat_repeat; exact Ht.
    + intros Hm; inversion Hm as [| | | | | | | | | | | | |g' mn' mx' n r' pre mid post Hn Hx Ht| | |]; subst.
      exists n; split; [exact Hn|]; split; [exact Hx|]; apply rmatch_cat_repeat; exact Ht.
  - assert (forall a b d, rmatch (RCat []) a b d <-> nothing a b d) as Hnil.
    { intros a b d; split; [intros Hm; inversion Hm; reflexivity|].
      unfold nothing; intros ->; constructor. }
    assert (forall r l a b d, rmatch (RCat (r :: l)) a b d <-> seq (rmatch r) (rmatch (RCat l)) a b d) as Hcons.
    { intros r l0 a b d; split.
      - intros Hm; inversion Hm; subst; do 2 eexists; repeat split; eassumption.
      - intros (b1 & b2 & -> & H1 & H2); constructor; assumption. }
    induction IH as [|r l Hr Hl IHl].
    + eapply means_ext; [apply means_eps|]; intros; symmetry; apply Hnil.
    + cbn [simplify] in *; destruct l as [|r' l].
      * eapply means_ext; [exact Hr|]; intros a b d; rewrite Hcons; split.
        -- intros H; exists b, []; rewrite app_nil_r; repeat split; [exact H|constructor].
        -- intros (b1 & b2 & -> & H1 & H2); apply Hnil in H2; unfold nothing in H2; subst b2.
           rewrite app_nil_r; exact H1.
      * eapply means_ext; [apply means_cat; [exact Hr|exact IHl]|]; intros; symmetry; apply Hcons.
  - assert (forall r l a b d, rmatch (RAlt (r :: l)) a b d <-> rmatch r a b d \/ rmatch (RAlt l) a b d) as Hcons.
    { intros r l0 a b d; split.
      - intros Hm; inversion Hm as [| | | | | | | | | | | | | | | |r0 l1 pre mid post Hin H0]; subst.
        destruct Hin as [<-|Hin]; [left; exact H0|right; econstructor; eassumption].
      - intros [H|H]; [econstructor; [left; reflexivity|exact H]|].
        inversion H as [| | | | | | | | | | | | | | | |r0 l1 pre mid post Hin H0]; subst.
        econstructor; [right; exact Hin|exact H0]. }
    assert (forall a b d, ~ rmatch (RAlt []) a b d) as Hnil.
    { intros a b d Hm; inversion Hm; contradiction. }
    induction IH as [|r l Hr Hl IHl].
    + eapply means_ext; [apply means_fail|]; intros a b d; split; [contradiction|apply Hnil].
    + cbn [simplify] in *; destruct l as [|r' l].
      * eapply means_ext; [exact Hr|]; intros a b d; rewrite Hcons.
        specialize (Hnil a b d); tauto.
      * eapply means_ext; [apply means_alt; [exact Hr|exact IHl]|]; intros; symmetry; apply Hcons.
Qed.
