(** RegexpMaxWidth, and the expressions of negative lookaround. *)
From Coq Require Import String.
From Verif Require Import GoBase Utf8 Utf8Facts Replacer Regex RegexSpec RegexFacts CaptureFacts RegexParse
  ParseFacts Hre FindFacts Rule RuleFacts SourceFacts PatternFacts.
Open Scope Z_scope.

(** ** RegexpMaxWidth *)

(** Something is repeated without a limit. *)
Fixpoint unlimited (r : re) : bool :=
  match r with
  | RStar _ _ | RPlus _ _ => true
  | RRepeat _ _ None _ => true
  | RRepeat _ _ (Some _) r => unlimited r
  | RCap _ r | RQuest _ r => unlimited r
  | RCat l | RAlt l => existsb unlimited l
  | _ => false
  end.
(** Nothing unlimited is repeated a limited number of times. *)
Fixpoint tame (r : re) : bool :=
  match r with
  | RCap _ r | RQuest _ r => tame r
  | RRepeat _ mn (Some m) r => (mn <=? m)%nat && negb (unlimited r) && tame r
  | RCat l | RAlt l => forallb tame l
  | _ => true
  end.

Fixpoint sum_widths (l : list re) (total : Z) : Z :=
  match l with
  | [] => total
  | r :: l' => if max_width r =? -1 then -1 else sum_widths l' (total + max_width r)
  end.
Fixpoint max_widths (l : list re) (mx : Z) : Z :=
  match l with
  | [] => mx
  | r :: l' => if max_width r =? -1 then -1 else max_widths l' (if mx <? max_width r then max_width r else mx)
  end.
Lemma max_width_cat l : max_width (RCat l) = sum_widths l 0.
Proof. cbn [max_width]; generalize 0; induction l as [|r l IH]; intros z; [reflexivity|]; cbn; destruct (_ =? _); auto. Qed.
Lemma max_width_alt l : max_width (RAlt l) = max_widths l 0.
Proof. cbn [max_width]; generalize 0; induction l as [|r l IH]; intros z; [reflexivity|]; cbn; destruct (_ =? _); auto. Qed.

(** The width is at least -1, and -1 exactly for what repeats without a limit. *)
Lemma tame_width r : tame r = true ->
  if unlimited r then max_width r = -1 else 0 <= max_width r.
Proof.
  induction r as [| |rs|ranges| | | | |j r IH|g r IH|g r IH|g r IH|g mn mx r IH|l IH|l IH] using re_ind';
    cbn [tame unlimited]; intros Ht; try (cbn; unfold len; lia); try (apply IH; exact Ht).
  - destruct mx as [m|]; [|reflexivity].
    apply andb_true_iff in Ht; destruct Ht as [Ht Htr]; apply andb_true_iff in Ht; destruct Ht as [_ Hu].
    apply negb_true_iff in Hu; specialize (IH Htr); rewrite Hu in *; cbn [max_width]; lia.
  - rewrite max_width_cat.
    assert (forall z, 0 <= z -> if existsb unlimited l then sum_widths l z = -1 else 0 <= sum_widths l z) as H; [|apply H; lia].
    induction IH as [|r l Hr Hl IHl]; intros z Hz; [exact Hz|]; cbn [forallb existsb sum_widths] in *.
    apply andb_true_iff in Ht; destruct Ht as [Ht1 Ht2]; specialize (Hr Ht1).
    destruct (unlimited r); cbn [orb]; [rewrite Hr; reflexivity|].
    destruct (max_width r =? -1) eqn:E; [lia|]; apply IHl; [exact Ht2|lia].
  - rewrite max_width_alt.
    assert (forall z, 0 <= z -> if existsb unlimited l then max_widths l z = -1 else 0 <= max_widths l z) as H; [|apply H; lia].
    induction IH as [|r l Hr Hl IHl]; intros z Hz; [exact Hz|]; cbn [forallb existsb max_widths] in *.
    apply andb_true_iff in Ht; destruct Ht as [Ht1 Ht2]; specialize (Hr Ht1).
    destruct (unlimited r); cbn [orb]; [rewrite Hr; reflexivity|].
    destruct (max_width r =? -1) eqn:E; [lia|]; apply IHl; [exact Ht2|]; destruct (z <? max_width r); lia.
Qed.

Lemma max_widths_ge l z : 0 <= z -> Forall (fun r => 0 <= max_width r) l -> z <= max_widths l z.
Proof.
  intros Hz H; revert z Hz; induction H as [|r l Hr H IH]; intros z Hz; cbn [max_widths]; [lia|].
  destruct (max_width r =? -1) eqn:E; [lia|].
  destruct (z <? max_width r) eqn:E2; [etransitivity; [|apply IH; lia]; lia|apply IH; exact Hz].
Qed.
Lemma max_widths_in l r z : 0 <= z -> Forall (fun r => 0 <= max_width r) l -> In r l -> max_width r <= max_widths l z.
Proof.
  intros Hz H; revert z Hz; induction H as [|r' l Hr H IH]; intros z Hz Hin; [contradiction|]; cbn [max_widths].
  destruct (max_width r' =? -1) eqn:E; [lia|].
  destruct Hin as [->|Hin]; [|apply IH; [destruct (z <? max_width r'); lia|exact Hin]].
  destruct (z <? max_width r) eqn:E2; [apply max_widths_ge; assumption|].
  etransitivity; [|apply max_widths_ge; assumption]; lia.
Qed.

(** No match of a limited expression is longer than its width. *)
Lemma tame_bound r pre mid post : rmatch r pre mid post -> tame r = true -> unlimited r = false ->
  len mid <= max_width r.
Proof.
  assert (forall l pre mid post (P : re -> Prop),
    (forall r, In r l -> forall pre mid post, rmatch r pre mid post -> len mid <= max_width r) ->
    Forall (fun r => 0 <= max_width r) l ->
    rmatch (RCat l) pre mid post -> forall z, len mid + z <= sum_widths l z) as Hcat.
  { clear; intros l; induction l as [|r l IH]; intros pre0 mid0 post0 _ Hb Hw H z.
    - inversion H; subst; unfold len; cbn; lia.
    - inversion H as [| | | | | | | | | | | | | | |r' l' pre' x y post' H1 H2|]; subst; cbn [sum_widths].
      inversion Hw as [|? ? Hr Hl]; subst.
      destruct (max_width r =? -1) eqn:E; [lia|].
      pose proof (Hb r (or_introl eq_refl) _ _ _ H1) as B1.
      pose proof (IH _ _ _ (fun _ => True) (fun r' Hin => Hb r' (or_intror Hin)) Hl H2 (z + max_width r)) as B2.
      unfold len in *; rewrite app_length; lia. }
  revert pre mid post; induction r as [| |rs|ranges| | | | |j r IH|g r IH|g r IH|g r IH|g mn mx r IH|l IH|l IH] using re_ind';
    intros pre mid post H Ht Hu; cbn [tame unlimited] in Ht, Hu; try discriminate;
    try (inversion H; subst; cbn; unfold len; cbn; lia).
  - inversion H; subst; cbn [max_width]; eapply IH; eassumption.
  - pose proof (tame_width r Ht) as Hw; rewrite Hu in Hw; cbn [max_width].
    inversion H; subst; [unfold len; cbn; lia|eapply IH; eassumption].
  - destruct mx as [m|]; [|discriminate]; cbn [max_width].
    apply andb_true_iff in Ht; destruct Ht as [Ht Htr]; apply andb_true_iff in Ht; destruct Ht as [Hle _].
    pose proof (tame_width r Htr) as Hw; rewrite Hu in Hw.
    inversion H as [| | | | | | | | | | | | |g' mn' mx' n r' pre' mid' post' H1 H2 H3| | |]; subst.
    assert (forall z, len mid + z <= sum_widths (repeat r n) z) as B.
    { intros z; eapply (Hcat (repeat r n)); [exact (fun _ => True)| | |exact H3].
      - intros r' Hin; apply repeat_spec in Hin; subst r'; intros; eapply IH; eassumption.
      - apply Forall_forall; intros r' Hin; apply repeat_spec in Hin; subst r'; exact Hw. }
    assert (forall k z, sum_widths (repeat r k) z = z + Z.of_nat k * max_width r) as Es.
    { induction k as [|k IHk]; intros z; cbn [repeat sum_widths]; [lia|].
      destruct (max_width r =? -1) eqn:E; [lia|]; rewrite IHk; lia. }
    specialize (B 0); rewrite Es in B; nia.
  - rewrite max_width_cat; specialize (Hcat l pre mid post (fun _ => True)).
    assert (forall r, In r l -> tame r = true /\ unlimited r = false) as Hall.
    { intros r Hin; rewrite forallb_forall in Ht; split; [apply Ht; exact Hin|].
      destruct (unlimited r) eqn:E; [|reflexivity]; rewrite <- Hu; symmetry; apply existsb_exists; exists r; auto. }
    rewrite Forall_forall in IH.
    rewrite <- (Z.add_0_r (len mid)); apply Hcat; [| |exact H].
    + intros r Hin; intros; eapply IH; [exact Hin|eassumption|apply Hall; exact Hin|apply Hall; exact Hin].
    + apply Forall_forall; intros r Hin; pose proof (tame_width r (proj1 (Hall r Hin))) as Hw.
      rewrite (proj2 (Hall r Hin)) in Hw; exact Hw.
  - rewrite max_width_alt.
    assert (forall r, In r l -> tame r = true /\ unlimited r = false) as Hall.
    { intros r Hin; rewrite forallb_forall in Ht; split; [apply Ht; exact Hin|].
      destruct (unlimited r) eqn:E; [|reflexivity]; rewrite <- Hu; symmetry; apply existsb_exists; exists r; auto. }
    rewrite Forall_forall in IH.
    inversion H as [| | | | | | | | | | | | | | | |r' l' pre' mid' post' Hin H1]; subst.
    etransitivity; [eapply IH; [exact Hin|exact H1|apply Hall; exact Hin|apply Hall; exact Hin]|].
    apply max_widths_in; [lia| |exact Hin].
    apply Forall_forall; intros r Hin'; pose proof (tame_width r (proj1 (Hall r Hin'))) as Hw.
    rewrite (proj2 (Hall r Hin')) in Hw; exact Hw.
Qed.

Lemma uncounted_tame r : uncounted r = true -> tame r = true.
Proof.
  induction r as [| |rs|ranges| | | | |j r IH|g r IH|g r IH|g r IH|g mn mx r IH|l IH|l IH] using re_ind';
    cbn [tame uncounted]; intros H; try reflexivity; try (apply IH; exact H); try discriminate.
  - rewrite forallb_forall in *; intros r Hr; rewrite Forall_forall in IH; apply IH; [exact Hr|apply H; exact Hr].
  - rewrite forallb_forall in *; intros r Hr; rewrite Forall_forall in IH; apply IH; [exact Hr|apply H; exact Hr].
Qed.

(** ** Bytes and characters below 128 *)
Lemma decode_high b s : (0x80 <= b)%N ->
  (0x80 <= fst (decode_rune (b :: s)))%N /\ Forall (fun x => (0x80 <= x)%N) (firstn (snd (decode_rune (b :: s))) (b :: s)).
Proof.
  intros Hb; cbn [decode_rune]; replace (b <? 0x80)%N with false by lia.
  assert (0x80 <= fst (rune_error, 1%nat) /\ Forall (fun x => 0x80 <= x) (firstn (snd (rune_error, 1%nat)) (b :: s)))%N as He.
  { split; [cbn; unfold rune_error; lia|cbn; constructor; [exact Hb|constructor]]. }
  destruct ((b <? 0xC2)%N || (0xF4 <? b)%N) eqn:E1; [exact He|].
  destruct s as [|b1 s]; [exact He|]; unfold is_cont.
  destruct (b <? 0xE0)%N eqn:E2.
  { destruct ((0x80 <=? b1)%N && (b1 <=? 0xBF)%N) eqn:C1; [|exact He]; cbn [fst snd firstn].
    split; [lia|repeat constructor; lia]. }
  destruct (b <? 0xF0)%N eqn:E3.
  { destruct ((0x80 <=? b1)%N && (b1 <=? 0xBF)%N && _ && _) eqn:C1; [|exact He].
    destruct s as [|b2 s]; [exact He|].
    destruct ((0x80 <=? b2)%N && (b2 <=? 0xBF)%N) eqn:C2; [|exact He]; cbn [fst snd firstn].
    destruct (b =? 0xE0)%N eqn:E4; split; try lia; repeat constructor; lia. }
  destruct ((0x80 <=? b1)%N && (b1 <=? 0xBF)%N && _ && _) eqn:C1; [|exact He].
  destruct s as [|b2 [|b3 s]]; try exact He.
  destruct ((0x80 <=? b2)%N && (b2 <=? 0xBF)%N && _) eqn:C2; [|exact He]; cbn [fst snd firstn].
  destruct (b =? 0xF0)%N eqn:E4; split; try lia; repeat constructor; lia.
Qed.
Lemma ascii_runes c s : (c < 0x80)%N -> (In c s <-> In c (runes s)).
Proof.
  intros Hc; unfold runes; revert s; apply glyphs_ind; [reflexivity|]; intros s Hn IH.
  rewrite glyphs_step by exact Hn; cbn [map In]; rewrite <- IH.
  destruct s as [|b s]; [congruence|]; destruct (b <? 0x80)%N eqn:Eb.
  - cbn [decode_rune]; rewrite Eb; cbn [fst snd skipn In]; reflexivity.
  - destruct (decode_high b s ltac:(lia)) as [H1 H2].
    set (w := snd (decode_rune (b :: s))) in *.
    split; intros H.
    + rewrite <- (firstn_skipn w (b :: s)) in H; apply in_app_or in H; destruct H as [H|H]; [|right; exact H].
      rewrite Forall_forall in H2; specialize (H2 c H); lia.
    + destruct H as [H|H]; [lia|]; rewrite <- (firstn_skipn w (b :: s)); apply in_or_app; right; exact H.
Qed.

(** ** Captured texts *)
Definition as_pattern (e : regexp) : pattern :=
  {| p_expr := []; p_re := e; p_negA := None; p_negB := None; p_negAWidth := 0; p_negBWidth := 0;
     p_letters := []; p_usedVars := [] |}.
Lemma shift_0 m : shift 0 m = m.
Proof.
  unfold shift; rewrite <- (map_id m) at 2; apply map_ext; intros x; rewrite Z.add_0_r; destruct (x =? -1); reflexivity.
Qed.

Lemma captured_text e s k t : prog e = simplify (tree e) -> (1 <= k <= numcap e)%nat ->
  captured s (find_submatch_index e s) (Z.of_nat k) = Ok t ->
  t = [] \/ exists r u v w, In (k, r) (recaps (tree e)) /\ glyphs s = u ++ v ++ w /\
    t = sub s (gwidth u) (gwidth u + gwidth v) /\ rmatch r (map fst u) (map fst v) (map fst w).
Proof.
  intros Hc Hk; rewrite <- (shift_0 (find_submatch_index e s)); intros H.
  change (shift 0 (find_submatch_index e s)) with (raw (as_pattern e) s 0) in H.
  destruct (search (prog e) (glyphs s) 0) as [[[a b] c]|] eqn:Es.
  2:{ unfold captured in H; rewrite (raw_miss (as_pattern e) s 0 Es) in H.
      unfold index in H; replace (0 <=? Z.of_nat k * 2) with true in H by lia.
      destruct (Z.to_nat (Z.of_nat k * 2)); discriminate. }
  destruct (raw_index (as_pattern e) s 0 a b c Es k ltac:(cbn; lia)) as [H1 H2].
  unfold captured in H; replace (Z.of_nat k * 2) with (2 * Z.of_nat k) in H by lia.
  rewrite H1, H2 in H; cbn [bind] in H; injection H as <-.
  destruct k as [|k]; [lia|]; cbn [group_at]; unfold cap_at.
  destruct (cap_lookup c (S k)) as [[x y]|] eqn:El; cbn [fst snd].
  - right; rewrite Hc in Es; destruct (group_text _ _ _ _ _ _ _ _ Es El) as (r & u & v & w & Hin & Eg & -> & -> & Hm).
    exists r, u, v, w; split; [exact Hin|]; split; [exact Eg|]; split; [|exact Hm].
    rewrite !off_by_nat.
    exact (substr_group s 0 u v w ltac:(lia) Eg ltac:(lia)).
  - left; reflexivity.
Qed.

Lemma plus_class_runes g ranges c pre mid post :
  in_set ranges c = false -> rmatch (RPlus g (RClass ranges)) pre mid post -> ~ In c mid.
Proof.
  intros Hc H; assert (forall pre mid post, rmatch (RStar g (RClass ranges)) pre mid post -> ~ In c mid) as Hs.
  { clear H; intros pre' mid' post' H; remember (RStar g (RClass ranges)) as r eqn:E; revert E.
    induction H; intros E; try discriminate; [intros []|].
    injection E as -> ->; intros Hin; apply in_app_or in Hin; destruct Hin as [Hin|Hin]; [|apply IHrmatch2 in Hin; auto].
    inversion H; subst; destruct Hin as [->|[]]; congruence. }
  inversion H as [| | | | | | | | | |g' r' pre' a b post' H1 H2| | | | | |]; subst.
  intros Hin; apply in_app_or in Hin; destruct Hin as [Hin|Hin]; [|eapply Hs; eassumption].
  inversion H1; subst; destruct Hin as [->|[]]; congruence.
Qed.

(** What stands between the braces of a lookaround contains no closing brace. *)
Lemma look_text_plain e k s t :
  (e = reLookahead /\ k = 1%nat) \/ (e = reLookbehind /\ k = 2%nat) ->
  captured s (find_submatch_index e s) (Z.of_nat k) = Ok t -> ~ In 0x7D%N t.
Proof.
  intros He H.
  assert (prog e = simplify (tree e) /\ (1 <= k <= numcap e)%nat /\
    forall r, In (k, r) (recaps (tree e)) -> r = RPlus true (RClass [(0, 0x7C); (0x7E, 0x10FFFF)])%N) as (Hc & Hk & Hr).
  { destruct He as [[-> ->]|[-> ->]]; (split; [vm_compute; reflexivity|]; split; [vm_compute; lia|]);
      intros r Hin; vm_compute in Hin; repeat (destruct Hin as [Hin|Hin]; [injection Hin; intros; subst; try discriminate; reflexivity|]); destruct Hin. }
  apply captured_text in H; [|exact Hc|exact Hk]; destruct H as [->|(r & u & v & w & Hin & Eg & -> & Hm)]; [intros []|].
  rewrite (Hr _ Hin) in Hm; apply (plus_class_runes _ _ 0x7D%N) in Hm; [|reflexivity].
  rewrite (ascii_runes 0x7D%N) by lia; unfold runes; rewrite (glyphs_sub _ _ _ _ Eg); exact Hm.
Qed.
Lemma no_capture_brace s : ~ In 0x7D%N s -> ~ In 0x7D%N (no_capture s).
Proof.
  unfold no_capture, replace_byte; intros H Hin; apply in_flat_map in Hin; destruct Hin as (b & Hb & Hin).
  destruct (b =? 0x28)%N; [vm_compute in Hin; intuition discriminate|].
  destruct Hin as [->|[]]; contradiction.
Qed.

(** The expression tested by a negative lookaround has no counted repetition. *)
Lemma dissolve_uncounted f look hasEdge x neg width ok :
  (forall s, ~ In 0x7D%N s -> ~ In 0x7D%N (f s)) -> ~ In 0x7D%N look ->
  dissolve_lookaround f look hasEdge = Ok (x, neg, width, ok) ->
  (neg = [] /\ width = 0) \/ (ok = true /\ exists r n, parse_re neg = Ok (r, n) /\ uncounted r = true /\ width = max_width r).
Proof.
  intros Hf Hl; unfold dissolve_lookaround; destruct look as [|c rest].
  { intros H; injection H as _ <- <- _; left; auto. }
  destruct (c =? 0x7E)%N.
  2:{ destruct hasEdge; intros H; injection H as _ <- <- _; left; auto. }
  destruct hasEdge; [intros H; injection H as _ <- <- _; left; auto|].
  assert (~ In 0x7D%N (f rest)) as Hr by (apply Hf; intros Hin; apply Hl; right; exact Hin).
  destruct (parse_re (f rest)) as [[r n]|e| | | |] eqn:Ep; try discriminate.
  - intros H; injection H as _ <- <- <-; right; split; [reflexivity|]; exists r, n; split; [exact Ep|]; split; [|reflexivity].
    rewrite parse_re_from in Ep; destruct (valid_utf8 (f rest)); [|discriminate].
    eapply parse_from_unc; [|exact Ep]; apply Forall_forall; intros y Hy ->; apply Hr, ascii_runes; [lia|exact Hy].
  - intros H; injection H as _ <- <- _; left; auto.
Qed.

(** A tested expression has the width that is recorded for it. *)
Definition measured (e : option regexp) (width : Z) : Prop :=
  match e with
  | None => width = 0
  | Some e => uncounted (tree e) = true /\ width = max_width (tree e) /\ prog e = simplify (tree e)
  end.

Lemma expand_lookahead_neg expr pos neg width : expand_lookahead expr = Ok (pos, neg, width) ->
  forall e, compile_opt neg = Ok e -> measured e width.
Proof.
  unfold expand_lookahead.
  destruct (index _ 0) as [start| | | | |]; cbn [bind]; try discriminate.
  destruct (slice expr 0 start) as [other| | | | |]; cbn [bind]; try discriminate.
  destruct (captured expr _ 2) as [edge| | | | |]; cbn [bind]; try discriminate.
  destruct (captured expr _ 1) as [look| | | | |] eqn:El; cbn [bind]; try discriminate.
  apply (look_text_plain reLookahead 1) in El; [|left; auto].
  destruct (dissolve_lookaround _ _ _) as [[[[x neg'] width'] ok]| | | | |] eqn:Ed; cbn [bind]; try discriminate.
  apply dissolve_uncounted in Ed; [| |apply no_capture_brace; exact El].
  2:{ intros s Hs Hin; repeat (apply in_app_or in Hin; destruct Hin as [Hin|Hin]); try contradiction; vm_compute in Hin; intuition discriminate. }
  intros H e He.
  assert (neg = [] /\ width = 0 \/ (exists r n, parse_re neg = Ok (r, n) /\ uncounted r = true /\ width = max_width r)) as Hc.
  { destruct ok; injection H as _ <- <-; [|left; auto]; destruct Ed as [Ed|[_ Ed]]; [left|right]; exact Ed. }
  clear -Hc He; destruct Hc as [[-> ->]|(r & n & Hp & Hu & ->)]; unfold compile_opt in He.
  - injection He as <-; reflexivity.
  - destruct neg as [|b neg]; [injection He as <-; unfold measured; vm_compute in Hp; injection Hp as <- _; reflexivity|].
    unfold compile_re in He; rewrite Hp in He; cbn [bind] in He; injection He as <-; repeat split; exact Hu.
Qed.
Lemma expand_lookbehind_neg expr pos neg width : expand_lookbehind expr = Ok (pos, neg, width) ->
  forall e, compile_opt neg = Ok e -> measured e width.
Proof.
  unfold expand_lookbehind.
  destruct (index _ 1) as [start| | | | |]; cbn [bind]; try discriminate.
  destruct (slice expr start _) as [other| | | | |]; cbn [bind]; try discriminate.
  destruct (captured expr _ 1) as [edge| | | | |]; cbn [bind]; try discriminate.
  destruct (captured expr _ 2) as [look| | | | |] eqn:El; cbn [bind]; try discriminate.
  apply (look_text_plain reLookbehind 2) in El; [|right; auto].
  destruct (dissolve_lookaround _ _ _) as [[[[x neg'] width'] ok]| | | | |] eqn:Ed; cbn [bind]; try discriminate.
  apply dissolve_uncounted in Ed; [| |apply no_capture_brace; exact El].
  2:{ intros s Hs Hin; repeat (apply in_app_or in Hin; destruct Hin as [Hin|Hin]); try contradiction; vm_compute in Hin; intuition discriminate. }
  intros H e He.
  assert (neg = [] /\ width = 0 \/ (exists r n, parse_re neg = Ok (r, n) /\ uncounted r = true /\ width = max_width r)) as Hc.
  { destruct ok; injection H as _ <- <-; [|left; auto]; destruct Ed as [Ed|[_ Ed]]; [left|right]; exact Ed. }
  clear -Hc He; destruct Hc as [[-> ->]|(r & n & Hp & Hu & ->)]; unfold compile_opt in He.
  - injection He as <-; reflexivity.
  - destruct neg as [|b neg]; [injection He as <-; unfold measured; vm_compute in Hp; injection Hp as <- _; reflexivity|].
    unfold compile_re in He; rewrite Hp in He; cbn [bind] in He; injection He as <-; repeat split; exact Hu.
Qed.

Theorem new_pattern_measured e macros vars p : new_pattern e macros vars = Ok p ->
  measured (p_negA p) (p_negAWidth p) /\ measured (p_negB p) (p_negBWidth p).
Proof.
  unfold new_pattern; destruct e as [|e0 e]; [discriminate|].
  destruct (expand_vars _ _) as [t used]; unfold expand_lookaround.
  destruct (expand_lookahead t) as [[[pos1 negA] wA]| | | | |] eqn:EA; cbn [bind]; try discriminate.
  destruct (expand_lookbehind pos1) as [[[pos2 negB] wB]| | | | |] eqn:EB; cbn [bind]; try discriminate.
  destruct (match_string reZeroWidth pos2); cbn [bind]; [discriminate|].
  destruct (compile_re (expand_edges pos2)) as [x| | | | |]; cbn [bind]; try discriminate.
  destruct (compile_opt negA) as [ea| | | | |] eqn:CA; cbn [bind]; try discriminate.
  destruct (compile_opt negB) as [eb| | | | |] eqn:CB; cbn [bind]; try discriminate.
  intros H; assert (forall (x y : pattern), Ok x = Ok y -> x = y) as Hinj by (intros ? ? H'; injection H'; auto).
  apply Hinj in H; subst p; cbn [p_negA p_negB p_negAWidth p_negBWidth].
  split; [eapply expand_lookahead_neg|eapply expand_lookbehind_neg]; eassumption.
Qed.
