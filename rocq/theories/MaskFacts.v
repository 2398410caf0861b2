(** Transcription masks what it has produced with NUL bytes. *)
From Verif Require Import GoBase Utf8 Utf8Facts Regex RegexFacts CaptureFacts Hre FindFacts Subword SubwordFacts Rule RuleFacts
  Procedure ProcFacts ProcSem ProcLocal.
Open Scope Z_scope.

(** ** Expressions that do not match a character *)
Fixpoint avoids (ch : rune) (x : rx) : bool :=
  match x with
  | XFail | XEps | XBegin | XEnd => true
  | XSet ranges => negb (in_set ranges ch)
  | XCap _ r | XStar _ r => avoids ch r
  | XCat a b | XAlt a b => avoids ch a && avoids ch b
  end.
Lemma avoids_runs ch x s p c s' p' c' :
  runs x s p c s' p' c' -> avoids ch x = true -> exists u, s = u ++ s' /\ p' = (p + gwidth u)%nat /\ ~ In ch (map fst u).
Proof.
  induction 1 as
    [s p c|ranges c0 w s p c H|s c|p c|i r s p c s' p' c' H IH
    |a b s p c s1 p1 c1 s2 p2 c2 H1 IH1 H2 IH2|a b s p c s' p' c' H IH|a b s p c s' p' c' H IH
    |g r s p c|g r s p c s1 p1 c1 s2 p2 c2 H1 IH1 Hlt H2 IH2]; cbn [avoids]; intros Ha;
    try (exists []; rewrite gwidth_nil; split; [reflexivity|split; [lia|intros []]]).
  - exists [(c0, w)]; rewrite gwidth_cons, gwidth_nil; cbn [snd]; split; [reflexivity|split; [lia|]].
    cbn; intros [->|[]]; rewrite H in Ha; discriminate.
  - apply IH; exact Ha.
  - apply andb_true_iff in Ha; destruct Ha as [Ha Hb].
    destruct (IH1 Ha) as (u1 & -> & -> & N1), (IH2 Hb) as (u2 & -> & -> & N2); exists (u1 ++ u2).
    rewrite app_assoc, gwidth_app, map_app; split; [reflexivity|]; split; [lia|].
    intros Hin; apply in_app_or in Hin; tauto.
  - apply andb_true_iff in Ha; apply IH; apply Ha.
  - apply andb_true_iff in Ha; apply IH; apply Ha.
  - destruct (IH1 Ha) as (u1 & -> & -> & N1), (IH2 Ha) as (u2 & -> & -> & N2); exists (u1 ++ u2).
    rewrite app_assoc, gwidth_app, map_app; split; [reflexivity|]; split; [lia|].
    intros Hin; apply in_app_or in Hin; tauto.
Qed.

(** No branch of the pattern matches NUL in the part that it reports. *)
Definition no_nul (p : pattern) : bool :=
  forallb (fun r => avoids 0%N (simplify (RCat (core_items (numcap (p_re p)) r)))) (branches (tree (p_re p))).

(** ** NUL bytes and NUL characters *)
Lemma decode_nul s : In 0%N (firstn (snd (decode_rune s)) s) -> fst (decode_rune s) = 0%N.
Proof.
  unfold decode_rune, is_cont; destruct s as [|b0 s1]; [intros []|].
  destruct (N.ltb_spec b0 0x80); [cbn; intros [E|[]]; exact E|].
  assert (0%N <> b0) as H0 by lia.
  repeat match goal with
  | |- context [if ?b then _ else _] => destruct b eqn:?
  | |- context [match ?l with [] => _ | _ :: _ => _ end] => destruct l
  end; cbn [fst snd firstn]; intros Hin; exfalso; cbn [In] in Hin;
    repeat match goal with H : (_ && _)%bool = true |- _ => apply andb_true_iff in H; destruct H end;
    repeat match goal with H : (_ <=? _)%N = true |- _ => apply N.leb_le in H end;
    repeat (destruct Hin as [Hin|Hin]; [lia|]); exact Hin.
Qed.
Lemma glyphs_nul s : ~ In 0%N (map fst (glyphs s)) -> ~ In 0%N s.
Proof.
  induction s as [|s Hne IH] using glyphs_ind; intros Hn Hin; [contradiction|].
  rewrite glyphs_step in Hn by exact Hne; cbn [map In] in Hn.
  rewrite <- (firstn_skipn (snd (decode_rune s)) s) in Hin; apply in_app_or in Hin; destruct Hin as [Hin|Hin].
  - apply Hn; left; apply decode_nul; exact Hin.
  - revert Hin; apply IH; intros Hin; apply Hn; right; exact Hin.
Qed.

(** Matches of a pattern without NUL have no NUL. *)
Lemma match_no_nul p word m start stop :
  compiled p -> safe_pattern p = true -> no_nul p = true -> match_of p word m ->
  index m 0 = Ok start -> index m 1 = Ok stop ->
  0 <= start /\ start <= stop /\ ~ In 0%N (sub word (Z.to_nat start) (Z.to_nat stop)).
Proof.
  intros Hc Hs Hnn (off & st & sp & core & Ho & Hp & Hlen & _ & _ & ->).
  rewrite index_0, index_1; intros E1 E2; injection E1 as <-; injection E2 as <-.
  destruct (search (prog (p_re p)) (glyphs (skipn (Z.to_nat off) word)) 0) as [[[a b] c]|] eqn:Es.
  2:{ rewrite (raw_miss _ _ _ Es) in Hlen; unfold len in Hlen; cbn in Hlen; lia. }
  destruct (safe_pick p word Hc Hs off a b c ltac:(lia) Es) as (u & v & w & Eg & Hv & Hp' & r & u0 & u1 & w1 & w2 & c1 & c2 & -> & -> & Hin & _ & R & _).
  rewrite Hp' in Hp; injection Hp as <- <-.
  split; [lia|]; split; [lia|].
  unfold no_nul in Hnn; rewrite forallb_forall in Hnn; specialize (Hnn _ Hin).
  apply runs_cat in R; destruct (avoids_runs _ _ _ _ _ _ _ _ R Hnn) as (v' & Ev & _ & Hv').
  apply app_inv_tail in Ev; subst v'.
  apply glyphs_nul.
  assert (sub word (Z.to_nat (off + Z.of_nat (gwidth (u0 ++ u1)))) (Z.to_nat (off + Z.of_nat (gwidth (u0 ++ u1)) + Z.of_nat (gwidth v)))
          = sub (skipn (Z.to_nat off) word) (gwidth (u0 ++ u1)) (gwidth (u0 ++ u1) + gwidth v)) as ->.
  { unfold sub; rewrite skipn_add; f_equal; [lia|f_equal; lia]. }
  rewrite (glyphs_sub _ (u0 ++ u1) v (w1 ++ w2)) by exact Eg; exact Hv'.
Qed.

(** ** Bytes marked as produced or not *)
Definition marked := list (N * bool).
(** What the rules see: NUL for each produced byte. *)
Definition visible (m : marked) : bytes := map (fun x : N * bool => if snd x then 0%N else fst x) m.
Fixpoint edit (m : marked) (off : Z) (repls : list replacement) : marked :=
  match repls with
  | [] => skipn (Z.to_nat off) m
  | x :: t => firstn (Z.to_nat (rp_start x - off)) (skipn (Z.to_nat off) m)
              ++ map (fun b => (b, true)) (rp_word x) ++ edit m (rp_stop x) t
  end.
(** All bytes a replacement takes away are unproduced. *)
Definition fresh (m : marked) (x : replacement) : Prop :=
  0 <= rp_start x /\ rp_start x <= rp_stop x <= len m /\
  forall (i : nat) (b : N), (Z.to_nat (rp_start x) <= i < Z.to_nat (rp_stop x))%nat -> nth_error m i <> Some (b, true).
Inductive transcribes : list rule -> marked -> marked -> Prop :=
| transcribes_nil m : transcribes [] m m
| transcribes_cons r rules m repls m' :
    replacements r (visible m) = Ok repls -> Forall (fresh m) repls ->
    transcribes rules (edit m 0 repls) m' -> transcribes (r :: rules) m m'.

Definition unseen (r : rule) : Prop :=
  compiled (rule_from r) /\ rule_ok r = true /\ no_nul (rule_from r) = true.

Lemma repls_matches r word ms repls :
  rule_repls r word ms = Ok repls ->
  Forall (fun x => exists m, In m ms /\ index m 0 = Ok (rp_start x) /\ index m 1 = Ok (rp_stop x)) repls.
Proof.
  revert repls; induction ms as [|m ms IH]; intros repls; cbn [rule_repls].
  - intros E; injection E as <-; constructor.
  - destruct (index m 0) as [start| | | | |] eqn:E0; cbn [bind]; try discriminate.
    destruct (index m 1) as [stop| | | | |] eqn:E1; cbn [bind]; try discriminate.
    assert (forall repls, rule_repls r word ms = Ok repls ->
       Forall (fun x => exists m0, In m0 (m :: ms) /\ index m0 0 = Ok (rp_start x) /\ index m0 1 = Ok (rp_stop x)) repls) as Hrest.
    { intros rp E; eapply Forall_impl; [|exact (IH _ E)]; cbv beta; intros x (m0 & Hin & H1 & H2); exists m0; auto with datatypes. }
    destruct (interpolate _ _ _ _) as [t|e| | | |]; try discriminate.
    + destruct (rule_repls r word ms) as [tl| | | | |] eqn:Et; cbn [bind]; try discriminate.
      intros E; injection E as <-; constructor; [|apply Hrest; reflexivity].
      exists m; cbn; auto.
    + apply Hrest.
Qed.
Lemma nth_error_sub {A} (l : list A) a b i : (a <= i < b)%nat -> nth_error (firstn (b - a) (skipn a l)) (i - a) = nth_error l i.
Proof.
  revert l b i; induction a as [|a IH]; intros l b i Hi.
  - cbn [skipn]; rewrite !Nat.sub_0_r; revert b i Hi; induction l as [|x l IH]; intros b i Hi.
    + rewrite firstn_nil; reflexivity.
    + destruct b as [|b]; [lia|]; destruct i as [|i]; [reflexivity|]; cbn [firstn nth_error]; apply IH; lia.
  - destruct b as [|b]; [lia|]; destruct i as [|i]; [lia|]; destruct l as [|x l].
    + rewrite skipn_nil, firstn_nil; destruct (S i - S a)%nat; reflexivity.
    + cbn [skipn Nat.sub nth_error]; apply IH; lia.
Qed.
Lemma visible_length m : length (visible m) = length m. Proof. apply map_length. Qed.
Lemma ordered_bounds n off repls : ordered_repls n off repls -> Forall (fun x => rp_stop x <= n) repls.
Proof. revert off; induction repls as [|x t IH]; intros off; cbn; intros H; constructor; [tauto|eapply IH; apply H]. Qed.
Lemma unseen_fresh r m repls :
  unseen r -> replacements r (visible m) = Ok repls -> Forall (fresh m) repls.
Proof.
  intros (Hc & Hok & Hnn) Hr; destruct (rule_ok_repls r (visible m) Hc Hok) as (repls' & E & Ho).
  rewrite Hr in E; injection E as <-; apply ordered_bounds in Ho.
  unfold replacements in Hr; destruct (find _ _ _) as [ms| | | | |] eqn:Ef; cbn [bind] in Hr; try discriminate.
  assert (safe_pattern (rule_from r) = true) as Hs by (unfold rule_ok in Hok; apply andb_true_iff in Hok; apply Hok).
  destruct (safe_matches _ _ _ Hc Hs Ef) as [_ Hm].
  apply repls_matches in Hr; rewrite Forall_forall in *; intros x Hx.
  destruct (Hr x Hx) as (mm & Hin & H0 & H1).
  destruct (match_no_nul _ _ _ _ _ Hc Hs Hnn (Hm _ Hin) H0 H1) as (L0 & L1 & L2).
  specialize (Ho x Hx); unfold len in *; rewrite visible_length in Ho.
  split; [exact L0|]; split; [unfold len; lia|]; intros i b Hi Hn; apply L2.
  apply nth_error_In with (n := (i - Z.to_nat (rp_start x))%nat); unfold sub.
  rewrite nth_error_sub by lia.
  unfold visible; rewrite nth_error_map, Hn; reflexivity.
Qed.

(** ** The two replacers *)
Lemma string_edit rep repls :
  rep_wf rep -> ordered_repls (len (rr_word rep)) 0 repls ->
  exists rep', replacer_string (replace_by rep repls) = Ok (rep', rr_word rep') /\ rep_wf rep' /\
    rr_next rep' = rr_next rep /\
    combine (rr_word rep') (rr_levels rep') = apply_repls (combine (rr_word rep) (rr_levels rep)) (rr_next rep) 0 repls.
Proof.
  intros [Hl Hr] Ho; unfold replacer_string.
  destruct (commit_ok (replace_by rep repls)) as (r' & -> & H1 & H2 & H3 & H4).
  - exact Hl.
  - unfold replace_by; cbn [rr_repls rr_word]; rewrite Hr; exact Ho.
  - cbn [bind]; exists r'; split; [reflexivity|]; split; [split; assumption|]; split; [exact H2|].
    rewrite H4; unfold replace_by; cbn [rr_repls rr_word rr_levels rr_next]; rewrite Hr; reflexivity.
Qed.
Definition shows (lvl : Z) (m : marked) : list (N * Z) := map (fun x : N * bool => (fst x, if snd x then 2 else lvl)) m.
Lemma apply_edit lvl m off repls :
  apply_repls (shows lvl m) 2 off repls = shows lvl (edit m off repls).
Proof.
  unfold shows; revert off; induction repls as [|x t IH]; intros off; cbn [apply_repls edit].
  - rewrite skipn_map; reflexivity.
  - rewrite IH, !map_app, skipn_map, firstn_map, map_map; reflexivity.
Qed.
Lemma apply_mask (d : list (N * Z)) m off repls :
  map fst d = visible m -> map fst (apply_repls d 0 off (map mask repls)) = visible (edit m off repls).
Proof.
  intros E; unfold visible in *; revert off; induction repls as [|x t IH]; intros off; cbn [apply_repls edit map].
  - rewrite <- !skipn_map, E; reflexivity.
  - rewrite !map_app, IH, <- !firstn_map, <- !skipn_map, E; cbn [mask rp_start rp_stop rp_word]; f_equal; f_equal.
    unfold tag; rewrite !map_map; cbn [fst snd]; generalize (rp_word x) as w; clear.
    induction w as [|b w IH]; [reflexivity|]; cbn [length repeat map]; f_equal; exact IH.
Qed.
Lemma mask_ordered n off repls : ordered_repls n off repls -> ordered_repls n off (map mask repls).
Proof. revert off; induction repls as [|x t IH]; intros off; cbn; [auto|]; intros (A & B & C & D); auto. Qed.
Lemma combine_fst {A B} (a : list A) (b : list B) : length b = length a -> map fst (combine a b) = a.
Proof. revert b; induction a as [|x a IH]; intros [|y b] H; try discriminate; cbn; [reflexivity|f_equal; apply IH; cbn in H; lia]. Qed.

Lemma transcribe_rules_marked n rules i lvl m rep dum recs rep' recs' :
  Forall unseen rules -> rep_wf rep -> rep_wf dum -> rr_next rep = 2 -> rr_next dum = 0 ->
  combine (rr_word rep) (rr_levels rep) = shows lvl m -> rr_word dum = visible m ->
  transcribe_rules false n rules i (visible m) rep dum recs = Ok (rep', recs') ->
  exists m', transcribes rules m m' /\ rep_wf rep' /\ combine (rr_word rep') (rr_levels rep') = shows lvl m'.
Proof.
  intros Hu; revert m rep dum; induction Hu as [|r rules Hr Hu IH]; intros m rep dum Wr Wd Nr Nd Er Ed; cbn [transcribe_rules].
  - intros E; injection E as <- <-; exists m; split; [constructor|]; auto.
  - destruct (replacements r (visible m)) as [repls| | | | |] eqn:Erp; cbn [bind]; try discriminate.
    pose proof (unseen_fresh r m repls Hr Erp) as Hfresh.
    assert (ordered_repls (len (visible m)) 0 repls) as Ho.
    { destruct Hr as (Hc & Hok & _); destruct (rule_ok_repls r (visible m) Hc Hok) as (rp & E & Ho); congruence. }
    assert (len (rr_word rep) = len (visible m)) as El.
    { unfold len; f_equal; rewrite <- (combine_len (rr_word rep) (rr_levels rep)) by apply Wr; rewrite Er.
      unfold shows; rewrite map_length, visible_length; reflexivity. }
    destruct (string_edit dum (map mask repls) Wd) as (dum1 & -> & Wd1 & Nd1 & Ed1).
    { rewrite Ed; apply mask_ordered; exact Ho. }
    cbn [bind].
    destruct (string_edit rep repls Wr) as (rep1 & -> & Wr1 & Nr1 & Er1); [rewrite El; exact Ho|].
    cbn [bind record_subword negb].
    rewrite Er, Nr, apply_edit in Er1.
    assert (rr_word dum1 = visible (edit m 0 repls)) as Ed1'.
    { rewrite <- (combine_fst (rr_word dum1) (rr_levels dum1)) by apply Wd1; rewrite Ed1, Nd; apply apply_mask.
      rewrite combine_fst by apply Wd; exact Ed. }
    rewrite Ed1'; intros E.
    destruct (IH (edit m 0 repls) rep1 dum1 Wr1 Wd1 ltac:(congruence) ltac:(congruence) Er1 Ed1' E) as (m' & Ht & W & Em).
    exists m'; split; [econstructor; eassumption|auto].
Qed.
Lemma transcribe_piece_marked rules sw out :
  Forall unseen rules -> sw_level sw <> 0 -> transcribe_piece rules sw = Ok out ->
  exists m, transcribes rules (map (fun b => (b, false)) (sw_word sw)) m /\
    concat (map sw_word out) = encode (runes (map fst m)).
Proof.
  intros Hu Hl; unfold transcribe_piece; apply Z.eqb_neq in Hl; rewrite Hl.
  set (m0 := map (fun b => (b, false)) (sw_word sw)).
  assert (visible m0 = sw_word sw) as Ev by (unfold visible, m0; rewrite map_map; cbn [fst snd]; apply map_id).
  destruct (transcribe_rules _ _ _ _ _ _ _ _) as [[rep rc]| | | | |] eqn:E; cbn [bind]; try discriminate.
  rewrite <- Ev in E at 1.
  assert (combine (rr_word (new_replacer (sw_word sw) (sw_level sw) 2)) (rr_levels (new_replacer (sw_word sw) (sw_level sw) 2))
          = shows (sw_level sw) m0) as E0.
  { cbn [new_replacer rr_word rr_levels]; rewrite combine_repeat; unfold shows, m0, tag; rewrite map_map; reflexivity. }
  destruct (transcribe_rules_marked _ _ _ (sw_level sw) m0 _ (new_replacer (sw_word sw) 0 0) _ _ _ Hu
              (new_replacer_wf _ _ _) (new_replacer_wf _ _ _) eq_refl eq_refl E0 (eq_sym Ev) E) as (m & Ht & W & Em).
  destruct (replacer_subwords rep) as [[rep1 sws]| | | | |] eqn:Es; cbn [bind]; try discriminate.
  intros E2; injection E2 as <-; destruct (subwords_text _ _ _ W Es) as [Htxt _].
  exists m; split; [exact Ht|]; rewrite Htxt.
  rewrite <- (combine_fst (rr_word rep) (rr_levels rep)) by apply W; rewrite Em; unfold shows; rewrite map_map; reflexivity.
Qed.
