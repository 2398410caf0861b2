(** The rules on a phrase. *)
From Coq Require Import Lia List Bool ZArith.
From Verif Require Import GoBase Utf8 Utf8Facts Regex RegexSpec RegexFacts CaptureFacts Hre FindFacts Subword SubwordFacts
  Rule RuleFacts Procedure MaskFacts ProcChars WordFacts WordScan.
Import ListNotations.
Open Scope Z_scope.

(** ** What a match captured *)
Lemma slice_in {A} (l m : list A) i j x : slice l i j = Ok m -> In x m -> In x l.
Proof.
  unfold slice; destruct (_ && _); [|discriminate]; intros E; injection E as <-; intros H.
  apply firstn_In in H || idtac.
  assert (forall n (k : list A), In x (firstn n k) -> In x k) as F.
  { induction n as [|n IH]; intros [|y k]; cbn; try tauto; intros [->|G]; auto. }
  assert (forall n (k : list A), In x (skipn n k) -> In x k) as S.
  { induction n as [|n IH]; intros [|y k]; cbn; try tauto; auto. }
  apply (S (Z.to_nat i)), (F (Z.to_nat (j - i))); exact H.
Qed.
Lemma matches_bound p word ms : compiled p -> safe_pattern p = true -> find p word (-1) = Ok ms ->
  Forall (Forall (fun x => -1 <= x <= len word)) ms.
Proof.
  intros Hc Hs Hf; destruct (safe_matches _ _ _ Hc Hs Hf) as [Ho Hm].
  apply Forall_forall; intros m Hin; destruct (ordered_ends _ _ _ _ Ho Hin) as (start & stop & core & -> & _ & B1 & B2).
  apply boundary_le in B1, B2.
  rewrite Forall_forall in Hm; destruct (Hm _ Hin) as (off & start' & stop' & core' & Hoff & _ & _ & Hcore & _ & E).
  injection E as <- <- <-.
  constructor; [lia|]; constructor; [lia|]; apply Forall_forall; intros x Hx.
  pose proof (raw_bound p word off Hc Hoff) as Hr; rewrite Forall_forall in Hr; apply Hr; eapply slice_in; [exact Hcore|exact Hx].
Qed.

Lemma index_bound {P : Z -> Prop} m i x : Forall P m -> index m i = Ok x -> P x.
Proof. intros H Hi; apply index_In in Hi; rewrite Forall_forall in H; auto. Qed.
Lemma index_map {A B} (f : A -> B) l i : index (map f l) i = match index l i with Ok x => Ok (f x) | Panic q => Panic q
  | Err e => Err e | Hang => Hang | NoFuel => NoFuel | Unmodelled => Unmodelled end.
Proof. unfold index; destruct (0 <=? i); [|reflexivity]; rewrite nth_error_map; destruct (nth_error l _); reflexivity. Qed.

Lemma captured_first (a b : bytes) m k : Forall (fun x => -1 <= x <= len a) m -> captured (a ++ b) m k = captured a m k.
Proof.
  intros H; unfold captured.
  destruct (index m (k * 2)) as [x| | | | |] eqn:Ex; cbn [bind]; try reflexivity.
  destruct (index m (k * 2 + 1)) as [y| | | | |] eqn:Ey; cbn [bind]; try reflexivity.
  apply (index_bound _ _ _ H) in Ex; apply (index_bound _ _ _ H) in Ey; f_equal; unfold substr.
  destruct ((x <? 0) || (y <? 0)) eqn:E0; [reflexivity|]; apply orb_false_iff in E0.
  rewrite SubwordFacts.len_app; pose proof (len_nonneg b).
  replace (len a <? y) with false by lia; replace (len a + len b <? y) with false by lia.
  destruct (0 <? y - x) eqn:E1.
  - replace (len a <=? x) with false by lia; replace (len a + len b <=? x) with false by lia.
    rewrite skipn_app, firstn_app, skipn_length.
    replace (Z.to_nat (y - x) - (length a - Z.to_nat x))%nat with 0%nat by (unfold len in *; lia).
    cbn [firstn]; apply app_nil_r.
  - destruct (len a + len b <=? x), (len a <=? x); reflexivity.
Qed.
Lemma captured_later (pre b : bytes) m k : Forall (fun x => -1 <= x) m ->
  captured (pre ++ b) (map (off_by (len pre)) m) k = captured b m k.
Proof.
  intros H; unfold captured; rewrite !index_map.
  destruct (index m (k * 2)) as [x| | | | |] eqn:Ex; cbn [bind]; try reflexivity.
  destruct (index m (k * 2 + 1)) as [y| | | | |] eqn:Ey; cbn [bind]; try reflexivity.
  apply (index_bound _ _ _ H) in Ex; apply (index_bound _ _ _ H) in Ey; f_equal; unfold substr, off_by.
  pose proof (len_nonneg pre) as Hn.
  destruct (x =? -1) eqn:E0.
  { replace (x <? 0) with true by lia; reflexivity. }
  destruct (y =? -1) eqn:E1.
  { replace (y <? 0) with true by lia; rewrite !orb_true_r; reflexivity. }
  replace (x + len pre <? 0) with false by lia; replace (y + len pre <? 0) with false by lia.
  replace (x <? 0) with false by lia; replace (y <? 0) with false by lia; cbn [orb].
  rewrite SubwordFacts.len_app; replace (len pre + len b <=? x + len pre) with (len b <=? x) by lia.
  destruct (len b <=? x) eqn:E2; [reflexivity|].
  replace (len pre + len b <? y + len pre) with (len b <? y) by lia.
  replace ((if len b <? y then len pre + len b else y + len pre) - (x + len pre))
    with ((if len b <? y then len b else y) - x) by (destruct (len b <? y); lia).
  rewrite skipn_shift by lia; reflexivity.
Qed.

Lemma interpolate_same parts k p w m w' m' : (forall i, captured w m i = captured w' m' i) ->
  interpolate_parts parts k p w m = interpolate_parts parts k p w' m'.
Proof.
  intros H; revert k; induction parts as [|[s|v used] parts IH]; intros k; cbn [interpolate_parts]; [reflexivity| |].
  - rewrite IH; reflexivity.
  - rewrite H, IH; reflexivity.
Qed.

(** Replacements [d] bytes further on. *)
Definition delay (d : Z) (x : replacement) : replacement :=
  {| rp_start := rp_start x + d; rp_stop := rp_stop x + d; rp_word := rp_word x |}.

Lemma repls_first r (a b : bytes) ms : Forall (Forall (fun x => -1 <= x <= len a)) ms ->
  rule_repls r (a ++ b) ms = rule_repls r a ms.
Proof.
  induction 1 as [|m ms Hm Hms IH]; [reflexivity|]; cbn [rule_repls]; unfold interpolate.
  rewrite (interpolate_same _ 0 _ (a ++ b) m a m) by (intros i; apply captured_first; exact Hm).
  rewrite IH; reflexivity.
Qed.
Lemma repls_later r (pre b : bytes) lo ms repls : ordered b lo ms -> 0 <= lo -> Forall (Forall (fun x => -1 <= x <= len b)) ms ->
  rule_repls r b ms = Ok repls -> rule_repls r (pre ++ b) (later (len pre) ms) = Ok (map (delay (len pre)) repls).
Proof.
  intros Ho; revert repls; induction Ho as [|lo start stop core ms Hlt B1 B2 Ho IH]; intros repls Hlo Hb.
  - cbn; intros E; injection E as <-; reflexivity.
  - inversion Hb as [|? ? Hm Hms]; subst; cbn [later map rule_repls]; rewrite !index_0, !index_1; cbn [bind]; unfold interpolate.
    change (off_by (len pre) start :: off_by (len pre) stop :: map (off_by (len pre)) core)
      with (map (off_by (len pre)) (start :: stop :: core)).
    rewrite (interpolate_same _ 0 _ (pre ++ b) _ b (start :: stop :: core)).
    2:{ intros i; apply captured_later; eapply Forall_impl; [|exact Hm]; cbv beta; lia. }
    destruct (interpolate_parts _ _ _ _ _) as [t|e| | | |]; try discriminate.
    + destruct (rule_repls r b ms) as [tl| | | | |]; cbn [bind]; try discriminate.
      intros E; injection E as <-; fold (later (len pre) ms); rewrite (IH tl ltac:(lia) Hms eq_refl); cbn [bind map].
      rewrite !off_by_real by lia; reflexivity.
    + intros E; fold (later (len pre) ms); apply IH; [lia|exact Hms|exact E].
Qed.
Lemma repls_app r w ms ms' x y : rule_repls r w ms = Ok x -> rule_repls r w ms' = Ok y -> rule_repls r w (ms ++ ms') = Ok (x ++ y).
Proof.
  intros H H'; revert x H; induction ms as [|m ms IH]; intros x; cbn [rule_repls app].
  - intros E; injection E as <-; exact H'.
  - destruct (index m 0); cbn [bind]; try discriminate; destruct (index m 1); cbn [bind]; try discriminate.
    destruct (interpolate _ _ _ _); try discriminate; [|apply IH].
    destruct (rule_repls r w ms) as [tl| | | | |]; cbn [bind]; try discriminate; intros E; injection E as <-.
    rewrite (IH _ eq_refl); reflexivity.
Qed.

(** A rule that looks at one word at a time replaces in a phrase what it replaces in its words. *)
Lemma repls_words r a b : compiled (rule_from r) -> rule_ok r = true -> wordwise_pattern (rule_from r) = true -> unspaced a ->
  exists ra rb, replacements r a = Ok ra /\ replacements r b = Ok rb /\
    replacements r (phrase a b) = Ok (ra ++ map (delay (len a + 1)) rb).
Proof.
  intros Hc Hok Hw Ha.
  assert (safe_pattern (rule_from r) = true) as Hs by (unfold rule_ok in Hok; apply andb_true_iff in Hok; apply Hok).
  destruct (rule_ok_repls r a Hc Hok) as (ra & Ea & _), (rule_ok_repls r b Hc Hok) as (rb & Eb & _).
  exists ra, rb; split; [exact Ea|]; split; [exact Eb|]; unfold replacements in *.
  destruct (find_words _ a b Hc Hs Hw Ha) as (ms & ms2 & Fa & Oa & Fb & Ob & Fp).
  rewrite Fa in Ea; rewrite Fb in Eb; rewrite Fp; cbn [bind] in *.
  pose proof (matches_bound _ _ _ Hc Hs Fa) as Ba; pose proof (matches_bound _ _ _ Hc Hs Fb) as Bb.
  apply repls_app.
  - unfold phrase; rewrite repls_first by exact Ba; exact Ea.
  - rewrite phrase_app; replace (len a + 1) with (len (a ++ [0x20%N])) by (rewrite SubwordFacts.len_app; reflexivity).
    eapply repls_later; [exact Ob|lia|exact Bb|exact Eb].
Qed.

(** ** Rounds of editing *)
Lemma delayed_round rd off d : map (delay d) (repls_of off rd) = repls_of (off + d) rd.
Proof.
  revert off; induction rd as [|[o [w|]] rd IH]; intros off; cbn [repls_of map]; [reflexivity| |].
  - rewrite IH; unfold delay at 1; cbn [rp_start rp_stop rp_word].
    replace (off + len (word_of o) + d) with (off + d + len (word_of o)) by lia; reflexivity.
  - rewrite IH; f_equal; lia.
Qed.
Lemma repls_round_app rd rd' off : repls_of off (rd ++ rd') = repls_of off rd ++ repls_of (off + len (word_of (before rd))) rd'.
Proof.
  revert off; induction rd as [|[o [w|]] rd IH]; intros off; cbn [app repls_of before flat_map fst]; [|fold (before rd)|fold (before rd)].
  - change (len (word_of [])) with 0; rewrite Z.add_0_r; reflexivity.
  - rewrite IH, word_of_app, SubwordFacts.len_app; cbn [app]; do 3 f_equal; lia.
  - rewrite IH, word_of_app, SubwordFacts.len_app; do 2 f_equal; lia.
Qed.

(** The cells of two words with a space between them. *)
Definition joined (ca cb : cells) : cells := ca ++ (sp, 1) :: cb.
Definition joined_round (ra rb : round) : round := ra ++ ([(sp, 1)], None) :: rb.
Lemma joined_before ra rb : before (joined_round ra rb) = joined (before ra) (before rb).
Proof. unfold joined_round, before; rewrite flat_map_app; reflexivity. Qed.
Lemma joined_after n ra rb : after n (joined_round ra rb) = joined (after n ra) (after n rb).
Proof. unfold joined_round, after; rewrite flat_map_app; reflexivity. Qed.
Lemma joined_repls ra rb : repls_of 0 (joined_round ra rb)
  = repls_of 0 ra ++ map (delay (len (word_of (before ra)) + 1)) (repls_of 0 rb).
Proof.
  unfold joined_round; rewrite repls_round_app; cbn [repls_of]; rewrite delayed_round; do 2 f_equal.
Qed.
Lemma joined_word ca cb : word_of (joined ca cb) = phrase (word_of ca) (word_of cb).
Proof. unfold joined; rewrite word_of_app; reflexivity. Qed.
Lemma joined_visible ca cb : visible (ProcChars.mark (joined ca cb)) = phrase (visible (ProcChars.mark ca)) (visible (ProcChars.mark cb)).
Proof. unfold joined; rewrite mark_app, visible_app; reflexivity. Qed.
Lemma visible_len ca : len (visible (ProcChars.mark ca)) = len (word_of ca).
Proof. unfold len; rewrite visible_length, mark_length; reflexivity. Qed.

(** What the rules make of the characters of a word, one rule after the other;
    [see] is what a rule sees of them, [next] the level of what it writes. *)
Inductive worked (see : cells -> bytes) (next : Z) : list rule -> cells -> cells -> Prop :=
| worked_nil c : worked see next [] c c
| worked_cons r rules rd c' : replacements r (see (before rd)) = Ok (repls_of 0 rd) ->
    scalar_cells (after next rd) ->
    (forall x, In x (after next rd) -> In x (before rd) \/ (snd x = next /\ char_of (rule_texts r) (fst x))) ->
    worked see next rules (after next rd) c' -> worked see next (r :: rules) (before rd) c'.

Definition seen_by_transcribe (c : cells) : bytes := visible (ProcChars.mark c).

Lemma worked_joined see next (Q : rune * Z -> Prop) rules :
  (forall ca cb, see (joined ca cb) = phrase (see ca) (see cb)) -> (forall c, len (see c) = len (word_of c)) ->
  (forall c, Forall Q c -> unspaced (see c)) ->
  Forall (fun r => compiled (rule_from r) /\ rule_ok r = true /\ wordwise_pattern (rule_from r) = true /\
                   forall c, char_of (rule_texts r) c -> Q (c, next)) rules ->
  forall ca ca' cb cb', worked see next rules ca ca' -> worked see next rules cb cb' -> Forall Q ca ->
    worked see next rules (joined ca cb) (joined ca' cb') /\ Forall Q ca'.
Proof.
  intros Hj Hl Hu Hr; induction Hr as [|r rules (Hc & Hok & Hw & Ht) Hr IH]; intros ca ca' cb cb' Wa Wb Qa.
  - inversion Wa; inversion Wb; subst; split; [constructor|exact Qa].
  - inversion Wa as [|? ? ra ? Ea Sa Ia Ta]; inversion Wb as [|? ? rb ? Eb Sb Ib Tb]; subst.
    assert (Forall Q (after next ra)) as Qa'.
    { rewrite Forall_forall in *; intros [x l] Hx; destruct (Ia _ Hx) as [H|[H1 H2]]; [auto|].
      cbn [fst snd] in *; subst l; auto. }
    destruct (IH _ _ _ _ Ta Tb Qa') as [IH1 IH2]; split; [|exact IH2].
    rewrite <- joined_before; apply worked_cons.
    + rewrite joined_before, Hj, joined_repls.
      destruct (repls_words r (see (before ra)) (see (before rb)) Hc Hok Hw (Hu _ Qa)) as (xa & xb & E1 & E2 & E3).
      rewrite E3; rewrite Ea in E1; rewrite Eb in E2; injection E1 as <-; injection E2 as <-; rewrite Hl; reflexivity.
    + rewrite joined_after; unfold joined, scalar_cells in *; rewrite map_app; apply Forall_app; split; [exact Sa|].
      constructor; [reflexivity|exact Sb].
    + rewrite joined_before, joined_after; unfold joined; intros x Hx; apply in_app_or in Hx; destruct Hx as [Hx|[<-|Hx]].
      * destruct (Ia _ Hx); [left; apply in_or_app; left; assumption|right; assumption].
      * left; apply in_or_app; right; left; reflexivity.
      * destruct (Ib _ Hx); [left; apply in_or_app; right; right; assumption|right; assumption].
    + rewrite joined_after; exact IH1.
Qed.
