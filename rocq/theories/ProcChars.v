(** Where the characters of the result come from. *)
From Verif Require Import GoBase Utf8 Utf8Facts Unicode Replacer ReplacerFacts Regex Hre FindFacts Subword SubwordFacts Rule
  RuleFacts Scripts Spec Jamo JamoFacts Procedure ProcFacts ProcSem LocalizeFacts ProcLocal MaskFacts.
Open Scope Z_scope.

(** ** The texts a rule can write *)
Definition part_texts (p : rpart) : list bytes := match p with Plain s => [s] | ToVar _ to => to end.
Definition rule_texts (r : rule) : list bytes := flat_map part_texts (r_parts (rule_to r)).
Definition char_of (texts : list bytes) (c : rune) : Prop := exists t, In t texts /\ In c (runes t).

(** A rule whose pattern and texts behave. *)
Definition good_rule (r : rule) : Prop :=
  compiled (rule_from r) /\ rule_ok r = true /\ Forall utf8_text (rule_texts r).

Lemma char_of_app a b c : char_of a c \/ char_of b c -> char_of (a ++ b) c.
Proof. intros [(t & H1 & H2)|(t & H1 & H2)]; exists t; split; auto using in_or_app. Qed.

Lemma index_In {A} (l : list A) i x : index l i = Ok x -> In x l.
Proof.
  unfold index; destruct (0 <=? i); [|discriminate]; destruct (nth_error l _) as [y|] eqn:E; [|discriminate].
  intros H; injection H as <-; eapply nth_error_In; exact E.
Qed.

Lemma interpolate_parts_texts parts k p word m text :
  Forall utf8_text (flat_map part_texts parts) -> interpolate_parts parts k p word m = Ok text ->
  utf8_text text /\ forall c, In c (runes text) -> char_of (flat_map part_texts parts) c.
Proof.
  revert k text; induction parts as [|[s|s to] parts IH]; intros k text Hu; cbn [interpolate_parts flat_map part_texts].
  - intros E; injection E as <-; split; [apply utf8_text_nil|intros c []].
  - cbn [flat_map part_texts] in Hu; apply Forall_app in Hu; destruct Hu as [Hs Hu].
    destruct (interpolate_parts parts k p word m) as [t| | | | |] eqn:Et; cbn [bind]; try discriminate.
    intros E; injection E as <-; destruct (IH _ _ Hu Et) as [Ht Hc]; inversion Hs; subst.
    split; [apply utf8_text_app; assumption|].
    intros c; rewrite runes_app_text by assumption; intros Hin; apply in_app_or in Hin; apply char_of_app.
    destruct Hin as [Hin|Hin]; [left; exists s; split; [left; reflexivity|exact Hin]|right; apply Hc; exact Hin].
  - cbn [flat_map part_texts] in Hu; apply Forall_app in Hu; destruct Hu as [Hs Hu].
    destruct (_ <? _); [discriminate|].
    destruct (index (p_usedVars p) k) as [from| | | | |]; cbn [bind]; try discriminate.
    destruct (captured word m _) as [val| | | | |]; cbn [bind]; try discriminate.
    destruct (go_mod _ _) as [i| | | | |]; cbn [bind]; try discriminate.
    destruct (index to i) as [v| | | | |] eqn:Ev; cbn [bind]; try discriminate.
    apply index_In in Ev.
    destruct (interpolate_parts parts _ p word m) as [t| | | | |] eqn:Et; cbn [bind]; try discriminate.
    intros E; injection E as <-; destruct (IH _ _ Hu Et) as [Ht Hc].
    assert (utf8_text v) as Hv by (rewrite Forall_forall in Hs; apply Hs; exact Ev).
    split; [apply utf8_text_app; assumption|].
    intros c; rewrite runes_app_text by assumption; intros Hin; apply in_app_or in Hin; apply char_of_app.
    destruct Hin as [Hin|Hin]; [left; exists v; split; assumption|right; apply Hc; exact Hin].
Qed.

(** ** Replacements at character boundaries *)
Definition cell_boundary (c : cells) (i : Z) : Prop := exists c1 c2, c = c1 ++ c2 /\ i = len (word_of c1).

Lemma len_word_cons x c : len (word_of (x :: c)) = Z.of_nat (length (encode_rune (fst x))) + len (word_of c).
Proof.
  change (x :: c) with ([x] ++ c); rewrite word_of_app, len_app; f_equal; unfold len, word_of, encode; cbn.
  rewrite app_nil_r; reflexivity.
Qed.
Lemma prefix_shorter (a b a' b' : cells) :
  a ++ b = a' ++ b' -> len (word_of a) <= len (word_of a') -> exists e, a' = a ++ e.
Proof.
  revert a'; induction a as [|x a IH]; intros a' E Hl; [exists a'; reflexivity|].
  destruct a' as [|y a'].
  - exfalso; rewrite len_word_cons in Hl; change (len (word_of [])) with 0 in Hl.
    pose proof (encode_rune_length (fst x)); pose proof (len_nonneg (word_of a)); lia.
  - injection E as -> E; rewrite !len_word_cons in Hl.
    destruct (IH _ E ltac:(lia)) as (e & ->); exists e; reflexivity.
Qed.

(** The replaced segments of the round are what the replacements of [c] take and write. *)
Definition written_by (c : cells) (repls : list replacement) (rd : round) : Prop :=
  Forall (fun seg : cells * option (list rune) => match snd seg with
          | None => True
          | Some w => scalars w /\ exists x c1 c2, In x repls /\ rp_word x = encode w /\
              c = c1 ++ fst seg ++ c2 /\ rp_start x = len (word_of c1) /\ rp_stop x = len (word_of (c1 ++ fst seg))
          end) rd.
Lemma written_more c x repls rd : written_by c repls rd -> written_by c (x :: repls) rd.
Proof.
  intros H; eapply Forall_impl; [|exact H]; intros [o [w|]]; cbn [snd]; [|auto].
  intros (Hs & y & c1 & c2 & Hy & E); split; [exact Hs|]; exists y, c1, c2; split; [right; exact Hy|exact E].
Qed.

Lemma cut_round c repls pre suf :
  c = pre ++ suf -> ordered_repls (len (word_of c)) (len (word_of pre)) repls ->
  Forall (fun x => cell_boundary c (rp_start x) /\ cell_boundary c (rp_stop x) /\ utf8_text (rp_word x)) repls ->
  exists rd, before rd = suf /\ repls_of (len (word_of pre)) rd = repls /\ written_by c repls rd.
Proof.
  intros Ec Ho Hb; revert pre suf Ec Ho; induction Hb as [|x repls (Hs & Ht & Hw) Hb IH]; intros pre suf Ec Ho.
  - exists [(suf, None)]; cbn; rewrite app_nil_r; repeat split; repeat constructor.
  - destruct Ho as (O1 & O2 & O3 & O4).
    destruct Hs as (a1 & a2 & Ea & Es), Ht as (b1 & b2 & Eb & Et).
    destruct (prefix_shorter pre suf a1 a2 ltac:(congruence) ltac:(lia)) as (k & ->).
    destruct (prefix_shorter (pre ++ k) a2 b1 b2 ltac:(congruence) ltac:(lia)) as (o & ->).
    destruct (IH ((pre ++ k) ++ o) b2 Eb) as (rd & E1 & E2 & E3); [rewrite <- Et; exact O4|].
    destruct Hw as (w & Hw & Ew).
    exists ((k, None) :: (o, Some w) :: rd); split; [|split].
    + cbn [before flat_map fst]; fold (before rd); rewrite E1.
      rewrite Ec in Eb; rewrite <- !app_assoc in Eb; apply app_inv_head in Eb; auto.
    + cbn [repls_of]; rewrite <- len_app, <- word_of_app, <- len_app, <- word_of_app, E2.
      f_equal; destruct x as [xs xt xw]; cbn [rp_start rp_stop rp_word] in *; subst; reflexivity.
    + constructor; [exact I|]; constructor.
      * cbn [snd fst]; split; [exact Hw|]; exists x, (pre ++ k), b2; split; [left; reflexivity|].
        split; [exact Ew|]; split; [rewrite Eb, <- !app_assoc; reflexivity|]; split; [exact Es|exact Et].
      * apply written_more; exact E3.
Qed.

Lemma map_app_inv {A B} (f : A -> B) l u v : map f l = u ++ v -> exists a b, l = a ++ b /\ map f a = u /\ map f b = v.
Proof.
  revert u; induction l as [|x l IH]; intros u E.
  - destruct u; [|discriminate]; exists [], []; repeat split; exact E.
  - destruct u as [|y u]; cbn [map app] in E.
    + exists [], (x :: l); repeat split; exact E.
    + injection E as <- E; destruct (IH _ E) as (a & b & -> & <- & <-); exists (x :: a), b; repeat split.
Qed.
Lemma gwidth_cells c : gwidth (map (fun x : rune * Z => (fst x, length (encode_rune (fst x)))) c) = length (word_of c).
Proof.
  induction c as [|x c IH]; [reflexivity|]; cbn [map]; rewrite gwidth_cons, IH; cbn [snd].
  change (x :: c) with ([x] ++ c); rewrite word_of_app, app_length; f_equal; unfold word_of, encode; cbn.
  rewrite app_nil_r; reflexivity.
Qed.
Lemma boundary_cells c i : scalar_cells c -> boundary (word_of c) i -> cell_boundary c i.
Proof.
  intros Hc (u & v & E & ->); rewrite glyphs_word_of in E by exact Hc.
  apply map_app_inv in E; destruct E as (a & b & -> & <- & _); exists a, b; split; [reflexivity|].
  rewrite gwidth_cells; reflexivity.
Qed.

(** The replacements of a good rule: in order, at boundaries, with its texts. *)
Lemma ordered_ends word lo ms m :
  ordered word lo ms -> In m ms ->
  exists start stop core, m = start :: stop :: core /\ start < stop /\ boundary word start /\ boundary word stop.
Proof.
  induction 1 as [|lo start stop core ms H1 H2 H3 H IH]; intros Hin; [destruct Hin|].
  destruct Hin as [<-|Hin]; [exists start, stop, core; repeat split; try assumption; lia|auto].
Qed.
Lemma repls_texts r word ms repls :
  Forall utf8_text (rule_texts r) -> rule_repls r word ms = Ok repls ->
  Forall (fun x => utf8_text (rp_word x) /\ forall c, In c (runes (rp_word x)) -> char_of (rule_texts r) c) repls.
Proof.
  intros Hu; revert repls; induction ms as [|m ms IH]; intros repls; cbn [rule_repls].
  - intros E; injection E as <-; constructor.
  - destruct (index m 0); cbn [bind]; try discriminate.
    destruct (index m 1); cbn [bind]; try discriminate.
    destruct (interpolate _ _ _ _) as [t|e| | | |] eqn:Ei; try discriminate; [|apply IH].
    destruct (rule_repls r word ms) as [tl| | | | |]; cbn [bind]; try discriminate.
    intros E; injection E as <-; constructor; [|apply IH; reflexivity].
    exact (interpolate_parts_texts _ _ _ _ _ _ Hu Ei).
Qed.
Lemma good_repls r word repls :
  good_rule r -> replacements r word = Ok repls ->
  ordered_repls (len word) 0 repls /\
  Forall (fun x => rp_start x < rp_stop x /\ boundary word (rp_start x) /\ boundary word (rp_stop x) /\
                   utf8_text (rp_word x) /\ forall c, In c (runes (rp_word x)) -> char_of (rule_texts r) c) repls.
Proof.
  intros (Hc & Hok & Hu) Hr; destruct (rule_ok_repls r word Hc Hok) as (repls' & E & Ho).
  rewrite Hr in E; injection E as <-; split; [exact Ho|].
  unfold replacements in Hr; destruct (find _ _ _) as [ms| | | | |] eqn:Ef; cbn [bind] in Hr; try discriminate.
  assert (safe_pattern (rule_from r) = true) as Hs by (unfold rule_ok in Hok; apply andb_true_iff in Hok; apply Hok).
  destruct (safe_matches _ _ _ Hc Hs Ef) as [Hord _].
  pose proof (repls_texts _ _ _ _ Hu Hr) as Ht; apply repls_matches in Hr.
  rewrite Forall_forall in *; intros x Hx; destruct (Hr x Hx) as (m & Hin & H0 & H1).
  destruct (ordered_ends _ _ _ _ Hord Hin) as (start & stop & core & -> & Hlt & B1 & B2).
  rewrite index_0 in H0; rewrite index_1 in H1; injection H0 as <-; injection H1 as <-.
  split; [exact Hlt|]; split; [exact B1|]; split; [exact B2|]; exact (Ht x Hx).
Qed.

Lemma written_after c0 next repls rd texts :
  written_by c0 repls rd -> scalar_cells (before rd) ->
  Forall (fun x => forall c, In c (runes (rp_word x)) -> char_of texts c) repls ->
  scalar_cells (after next rd) /\
  forall x, In x (after next rd) -> In x (before rd) \/ (snd x = next /\ char_of texts (fst x)).
Proof.
  intros Hw Hs Ht; split.
  - apply after_scalar; [exact Hs|]; eapply Forall_impl; [|exact Hw]; intros [o [w|]]; cbn [snd]; tauto.
  - clear Hs; induction Hw as [|[o w] rd Hseg Hw IH]; intros x; cbn [after before flat_map fst snd]; [intros []|].
    intros Hin; apply in_app_or in Hin; destruct Hin as [Hin|Hin].
    + destruct w as [w|]; [|left; apply in_or_app; left; exact Hin].
      cbn [snd] in Hseg; destruct Hseg as (Hsc & y & c1 & c2 & Hy & Ey & _).
      apply in_map_iff in Hin; destruct Hin as (ch & <- & Hin); right; split; [reflexivity|]; cbn [fst].
      rewrite Forall_forall in Ht; apply (Ht y Hy); rewrite Ey, runes_encode by exact Hsc; exact Hin.
    + destruct (IH x Hin) as [H|H]; [left; apply in_or_app; right; exact H|right; exact H].
Qed.

Lemma const_scalar (l : Z) rs : scalars rs -> scalar_cells (map (fun c => (c, l)) rs).
Proof. intros Hs; unfold scalar_cells; rewrite map_map; cbn [fst]; rewrite map_id; exact Hs. Qed.

(** ** Rewriting *)
Lemma string_round next rd c :
  before rd = c ->
  replacer_string (replace_by (mk_replacer c next []) (repls_of 0 rd))
  = Ok (mk_replacer (after next rd) next [], word_of (after next rd)).
Proof.
  intros <-; unfold replacer_string.
  change (replace_by (mk_replacer (before rd) next []) (repls_of 0 rd)) with (mk_replacer (before rd) next (repls_of 0 rd)).
  rewrite commit_round; reflexivity.
Qed.

Lemma rewrite_rules_cells n rules i c recs rep' recs' :
  Forall good_rule rules -> scalar_cells c ->
  rewrite_rules false n rules i (word_of c) (mk_replacer c 1 []) recs = Ok (rep', recs') ->
  exists c', rep' = mk_replacer c' 1 [] /\ scalar_cells c' /\
    forall x, In x c' -> In x c \/ (snd x = 1 /\ char_of (flat_map rule_texts rules) (fst x)).
Proof.
  intros Hg; revert c; induction Hg as [|r rules Hr Hg IH]; intros c Hc; cbn [rewrite_rules].
  - intros E; injection E as <- _; exists c; auto.
  - destruct (replacements r (word_of c)) as [repls| | | | |] eqn:Er; cbn [bind]; try discriminate.
    destruct (good_repls _ _ _ Hr Er) as [Ho Hf].
    destruct (cut_round c repls [] c eq_refl Ho) as (rd & E1 & E2 & E3).
    { eapply Forall_impl; [|exact Hf]; cbv beta; intros x (_ & B1 & B2 & Hu & _).
      split; [apply boundary_cells; assumption|]; split; [apply boundary_cells; assumption|exact Hu]. }
    change (len (word_of [])) with 0 in E2; rewrite <- E2, (string_round 1 rd c E1); cbn [bind record_subword negb].
    destruct (written_after _ 1 repls rd (rule_texts r) E3) as [Hs Hin].
    { rewrite E1; exact Hc. }
    { eapply Forall_impl; [|exact Hf]; cbv beta; tauto. }
    intros E; destruct (IH _ Hs E) as (c' & -> & Hs' & Hin').
    exists c'; split; [reflexivity|]; split; [exact Hs'|].
    intros x Hx; destruct (Hin' x Hx) as [H|[H1 H2]].
    + destruct (Hin x H) as [H0|[H1 H2]]; [left; rewrite <- E1; exact H0|right; split; [exact H1|]].
      cbn [flat_map]; apply char_of_app; left; exact H2.
    + right; split; [exact H1|]; cbn [flat_map]; apply char_of_app; right; exact H2.
Qed.

(** Subwords whose characters satisfy a predicate on character and level. *)
Definition holds (Q : rune -> Z -> Prop) (sw : subword) : Prop :=
  utf8_text (sw_word sw) /\ forall c, In c (runes (sw_word sw)) -> Q c (sw_level sw).

Lemma subwords_hold next c r sws (Q : rune -> Z -> Prop) :
  scalar_cells c -> (forall x, In x c -> Q (fst x) (snd x)) ->
  replacer_subwords (mk_replacer c next []) = Ok (r, sws) -> Forall (holds Q) sws.
Proof.
  intros Hc Hq E; destruct (replacer_subwords_ok c next Hc) as (sws' & E' & Ec & _ & _ & Hu).
  rewrite E in E'; injection E' as _ ->; apply Forall_forall; intros sw Hsw; split.
  - rewrite Forall_forall in Hu; apply Hu; exact Hsw.
  - intros ch Hch; apply (Hq (ch, sw_level sw)); rewrite <- Ec; unfold cells_of; apply in_flat_map.
    exists sw; split; [exact Hsw|]; apply in_map_iff; exists ch; auto.
Qed.
Lemma rewrite_piece_holds rules sw out (Q : rune -> Z -> Prop) :
  Forall good_rule rules -> holds Q sw -> (forall c, char_of (flat_map rule_texts rules) c -> Q c 1) ->
  rewrite_piece rules sw = Ok out -> Forall (holds Q) out.
Proof.
  intros Hg [Hu Hq] H1; unfold rewrite_piece; destruct Hu as (rs & Hs & Ew); rewrite Ew, new_replacer_cells.
  rewrite <- (word_of_const (sw_level sw) rs).
  destruct (rewrite_rules _ _ _ _ _ _ _) as [[rep rc]| | | | |] eqn:E; cbn [bind]; try discriminate.
  destruct (rewrite_rules_cells _ _ _ _ _ _ _ Hg (const_scalar _ _ Hs) E) as (c' & -> & Hs' & Hin).
  destruct (replacer_subwords _) as [[rep1 sws]| | | | |] eqn:Es; cbn [bind]; try discriminate.
  intros E2; injection E2 as <-; eapply subwords_hold; [exact Hs'| |exact Es].
  intros x Hx; destruct (Hin x Hx) as [H|[-> H]]; [|apply H1; exact H].
  apply in_map_iff in H; destruct H as (ch & <- & Hch); cbn [fst snd]; apply Hq.
  rewrite Ew, runes_encode by exact Hs; exact Hch.
Qed.

(** ** Transcribing *)

(** The bytes of the cells, marked when they are on level 2. *)
Definition mark (c : cells) : marked :=
  flat_map (fun x : rune * Z => map (fun b => (b, snd x =? 2)) (encode_rune (fst x))) c.
Lemma mark_app a b : mark (a ++ b) = mark a ++ mark b. Proof. apply flat_map_app. Qed.
Lemma mark_length c : length (mark c) = length (word_of c).
Proof.
  induction c as [|x c IH]; [reflexivity|]; change (x :: c) with ([x] ++ c).
  rewrite mark_app, word_of_app, !app_length, IH; f_equal; unfold mark, word_of, encode; cbn.
  rewrite !app_nil_r, map_length; reflexivity.
Qed.
Lemma mark_const w : mark (map (fun c => (c, 2)) w) = map (fun b => (b, true)) (encode w).
Proof.
  induction w as [|r w IH]; [reflexivity|]; unfold encode in *; cbn [map mark flat_map fst snd].
  fold (mark (map (fun c => (c, 2)) w)); rewrite IH, map_app; reflexivity.
Qed.
Lemma visible_app a b : visible (a ++ b) = visible a ++ visible b. Proof. apply map_app. Qed.

Lemma edit_round rd pre kept :
  edit (mark (pre ++ kept ++ before rd)) (len (word_of pre)) (repls_of (len (word_of (pre ++ kept))) rd)
  = mark (kept ++ after 2 rd).
Proof.
  assert (forall a b, skipn (Z.to_nat (len (word_of a))) (mark (a ++ b)) = mark b) as Hskip.
  { intros a b; unfold len; rewrite Nat2Z.id, mark_app, <- mark_length, skipn_app, skipn_all, Nat.sub_diag; reflexivity. }
  revert pre kept; induction rd as [|[o w] rd IH]; intros pre kept.
  - cbn [repls_of edit before after flat_map]; apply Hskip.
  - destruct w as [w|]; cbn [repls_of before after flat_map fst snd].
    + cbn [edit rp_start rp_stop rp_word]; rewrite Hskip.
      assert (Z.to_nat (len (word_of (pre ++ kept)) - len (word_of pre)) = length (mark kept)) as ->.
      { rewrite word_of_app, len_app, mark_length; unfold len; lia. }
      rewrite mark_app at 1; rewrite firstn_app, Nat.sub_diag, firstn_all, firstn_O, app_nil_r.
      rewrite <- len_app, <- word_of_app.
      replace (pre ++ kept ++ o ++ flat_map fst rd) with (((pre ++ kept) ++ o) ++ [] ++ before rd) by (cbn [app]; rewrite <- !app_assoc; reflexivity).
      replace (repls_of (len (word_of ((pre ++ kept) ++ o))) rd) with (repls_of (len (word_of (((pre ++ kept) ++ o) ++ []))) rd) by (rewrite app_nil_r; reflexivity).
      rewrite IH; cbn [app]; rewrite !mark_app, mark_const; reflexivity.
    + rewrite <- len_app, <- word_of_app; fold (before rd); fold (after 2 rd).
      replace (pre ++ kept ++ o ++ before rd) with (pre ++ (kept ++ o) ++ before rd) by (rewrite <- !app_assoc; reflexivity).
      replace ((pre ++ kept) ++ o) with (pre ++ kept ++ o) by (rewrite <- !app_assoc; reflexivity).
      rewrite IH, <- app_assoc; reflexivity.
Qed.

(** A boundary of what the rules see is one of the word, or inside of a character
    written before, with a NUL on each side. *)
Lemma nth_error_repeat' {A} (x : A) n i : (i < n)%nat -> nth_error (repeat x n) i = Some x.
Proof. intros H; revert i H; induction n as [|n IH]; intros [|i] H; cbn; try lia; [reflexivity|apply IH; lia]. Qed.
Lemma visible_marked (b : bytes) : visible (map (fun x => (x, true)) b) = repeat 0%N (length b).
Proof. unfold visible; rewrite map_map; cbn; induction b; cbn; congruence. Qed.
Lemma visible_kept (b : bytes) : visible (map (fun x => (x, false)) b) = b.
Proof. unfold visible; rewrite map_map; cbn; apply map_id. Qed.
Lemma glyphs_zeros n s : glyphs (repeat 0%N n ++ s) = repeat (0%N, 1%nat) n ++ glyphs s.
Proof.
  induction n as [|n IH]; [reflexivity|]; cbn [repeat app].
  refine (eq_trans (glyphs_encode_cons 0%N (repeat 0%N n ++ s) eq_refl) _); rewrite IH; reflexivity.
Qed.
Lemma gwidth_ones n : gwidth (repeat (0%N, 1%nat) n) = n.
Proof. induction n as [|n IH]; [reflexivity|]; cbn [repeat]; rewrite gwidth_cons, IH; reflexivity. Qed.
Lemma visible_boundary c u v :
  scalar_cells c -> glyphs (visible (mark c)) = u ++ v ->
  (exists c1 c2, c = c1 ++ c2 /\ gwidth u = length (word_of c1)) \/
  (0 < gwidth u /\ nth_error (visible (mark c)) (gwidth u) = Some 0%N /\
   nth_error (visible (mark c)) (gwidth u - 1) = Some 0%N)%nat.
Proof.
  revert u; induction c as [|[r l] c IH]; intros u Hc E.
  - cbn in E; destruct u; [|discriminate]; left; exists [], []; split; reflexivity.
  - inversion Hc as [|? ? Hr Hc']; subst; cbn [fst] in Hr.
    assert (length (word_of [(r, l)]) = length (encode_rune r)) as Elen.
    { unfold word_of, encode; cbn; rewrite app_nil_r; reflexivity. }
    change ((r, l) :: c) with ([(r, l)] ++ c) in E |- *; rewrite mark_app, visible_app in E |- *.
    assert (mark [(r, l)] = map (fun b => (b, l =? 2)) (encode_rune r)) as Em by (unfold mark; cbn; apply app_nil_r).
    rewrite Em in E |- *; destruct (l =? 2).
    + rewrite visible_marked in E |- *; rewrite glyphs_zeros in E; set (n := length (encode_rune r)) in *.
      destruct (le_lt_dec n (length u)) as [Hn|Hn].
      * assert (exists u', u = repeat (0%N, 1%nat) n ++ u' /\ glyphs (visible (mark c)) = u' ++ v) as (u' & -> & E').
        { exists (skipn n u); pose proof (f_equal (firstn n) E) as F.
          rewrite firstn_app, repeat_length, Nat.sub_diag, firstn_O, app_nil_r, firstn_all2 in F by (rewrite repeat_length; lia).
          rewrite firstn_app in F; replace (n - length u)%nat with 0%nat in F by lia; rewrite firstn_O, app_nil_r in F.
          pose proof (f_equal (skipn n) E) as G.
          rewrite skipn_app, repeat_length, Nat.sub_diag, skipn_O, skipn_all2 in G by (rewrite repeat_length; lia).
          rewrite skipn_app in G; replace (n - length u)%nat with 0%nat in G by lia; rewrite skipn_O in G.
          split; [rewrite F; symmetry; apply firstn_skipn|exact G]. }
        rewrite gwidth_app, gwidth_ones; destruct (IH _ Hc' E') as [(c1 & c2 & -> & Ew)|(P & N1 & N2)].
        -- left; exists ((r, l) :: c1), c2; split; [reflexivity|].
           change ((r, l) :: c1) with ([(r, l)] ++ c1); rewrite word_of_app, app_length, Elen; fold n; lia.
        -- right; split; [lia|].
           rewrite !nth_error_app2; rewrite repeat_length; try lia.
           replace (n + gwidth u' - n)%nat with (gwidth u') by lia.
           replace (n + gwidth u' - 1 - n)%nat with (gwidth u' - 1)%nat by lia; auto.
      * assert (u = repeat (0%N, 1%nat) (length u)) as Eu.
        { pose proof (f_equal (firstn (length u)) E) as F.
          rewrite firstn_app, repeat_length in F; replace (length u - n)%nat with 0%nat in F by lia.
          rewrite firstn_O, app_nil_r, firstn_app, Nat.sub_diag, firstn_all, firstn_O, app_nil_r in F.
          rewrite <- F at 1; replace n with (length u + (n - length u))%nat by lia.
          rewrite repeat_app, firstn_app, repeat_length, Nat.sub_diag, firstn_O, app_nil_r.
          apply firstn_all2; rewrite repeat_length; lia. }
        assert (gwidth u = length u) as Ew by (rewrite Eu at 1; apply gwidth_ones).
        rewrite Ew; destruct (length u) as [|k] eqn:Ek.
        -- left; exists [], ((r, l) :: c); split; reflexivity.
        -- right; split; [lia|]; rewrite !nth_error_app1 by (rewrite repeat_length; lia).
           split; apply nth_error_repeat'; lia.
    + rewrite visible_kept in E |- *; rewrite (glyphs_encode_cons r _ Hr) in E.
      destruct u as [|g u].
      * left; exists [], ((r, l) :: c); split; reflexivity.
      * cbn [app] in E; injection E as <- E; rewrite gwidth_cons; cbn [snd].
        destruct (IH _ Hc' E) as [(c1 & c2 & -> & Ew)|(P & N1 & N2)].
        -- left; exists ((r, l) :: c1), c2; split; [reflexivity|].
           change ((r, l) :: c1) with ([(r, l)] ++ c1); rewrite word_of_app, app_length, Elen; lia.
        -- right; split; [lia|].
           rewrite !nth_error_app2; try lia.
           replace (length (encode_rune r) + gwidth u - length (encode_rune r))%nat with (gwidth u) by lia.
           replace (length (encode_rune r) + gwidth u - 1 - length (encode_rune r))%nat with (gwidth u - 1)%nat by lia; auto.
Qed.

(** ** Jamo in their places *)

(** ASCII characters, syllables, vowels and consonants that a syllable can begin with;
    after a hyphen, consonants that it can end with. *)
Definition place1 (t : bool) (r : rune) : option bool :=
  if N.eqb r 0x2D then Some true
  else if (r <? 128)%N || is_syllable r || in_rg 0x314F 0x3163 r || nmem r (if t then tl compat_tails else compat_leads)
       then Some false else None.
Fixpoint place (t : bool) (rs : list rune) : option bool :=
  match rs with
  | [] => Some t
  | r :: rs' => match place1 t r with Some t' => place t' rs' | None => None end
  end.
(** A text with all of its Jamo in place, without a hyphen left at the end. *)
Definition closed (rs : list rune) : Prop := place false rs = Some false.

Lemma place_app t a b : place t (a ++ b) = match place t a with Some t' => place t' b | None => None end.
Proof.
  revert t; induction a as [|r a IH]; intros t; cbn [app place]; [reflexivity|].
  destruct (place1 t r); [apply IH|reflexivity].
Qed.
Lemma closed_app a b : closed a -> closed b -> closed (a ++ b).
Proof. unfold closed; intros Ha Hb; rewrite place_app, Ha; exact Hb. Qed.

(** The parts of a replacement, for every choice of values. *)
Definition same_place (o : option bool) (b : bool) : bool := match o with Some c => Bool.eqb b c | None => false end.
Definition part_place (t : bool) (p : rpart) : option bool :=
  match part_texts p with
  | [] => None
  | x :: rest =>
    match place t (runes x) with
    | Some b => if forallb (fun y => same_place (place t (runes y)) b) rest then Some b else None
    | None => None
    end
  end.
Fixpoint parts_placed (t : bool) (ps : list rpart) : bool :=
  match ps with
  | [] => negb t
  | p :: ps' => match part_place t p with Some b => parts_placed b ps' | None => false end
  end.
Definition closed_rule (r : rule) : bool := parts_placed false (r_parts (rule_to r)).

Lemma part_place_text t p b x : part_place t p = Some b -> In x (part_texts p) -> place t (runes x) = Some b.
Proof.
  unfold part_place; destruct (part_texts p) as [|y rest]; [discriminate|].
  destruct (place t (runes y)) as [b'|] eqn:Ey; [|discriminate].
  destruct (forallb _ rest) eqn:Ef; [|discriminate]; intros E; injection E as ->.
  intros [<-|Hin]; [exact Ey|]; rewrite forallb_forall in Ef; specialize (Ef x Hin); unfold same_place in Ef.
  destruct (place t (runes x)) as [c|]; [|discriminate]; apply Bool.eqb_prop in Ef; congruence.
Qed.
Lemma interpolate_placed parts t k p word m text :
  Forall utf8_text (flat_map part_texts parts) -> parts_placed t parts = true ->
  interpolate_parts parts k p word m = Ok text -> place t (runes text) = Some false.
Proof.
  revert t k text; induction parts as [|[s|s to] parts IH]; intros t k text Hu; cbn [interpolate_parts parts_placed].
  - destruct t; [discriminate|]; intros _ E; injection E as <-; reflexivity.
  - cbn [flat_map part_texts] in Hu; apply Forall_app in Hu; destruct Hu as [Hs Hu].
    destruct (part_place t (Plain s)) as [b|] eqn:Ep; [|discriminate]; intros Hp.
    destruct (interpolate_parts parts k p word m) as [x| | | | |] eqn:Et; cbn [bind]; try discriminate.
    intros E; injection E as <-; inversion Hs; subst; rewrite runes_app_text, place_app by assumption.
    rewrite (part_place_text _ _ _ s Ep (or_introl eq_refl)); eapply IH; eassumption.
  - cbn [flat_map part_texts] in Hu; apply Forall_app in Hu; destruct Hu as [Hs Hu].
    destruct (part_place t (ToVar s to)) as [b|] eqn:Ep; [|discriminate]; intros Hp.
    destruct (_ <? _); [discriminate|].
    destruct (index (p_usedVars p) k) as [from| | | | |]; cbn [bind]; try discriminate.
    destruct (captured word m _) as [val| | | | |]; cbn [bind]; try discriminate.
    destruct (go_mod _ _) as [i| | | | |]; cbn [bind]; try discriminate.
    destruct (index to i) as [v| | | | |] eqn:Ev; cbn [bind]; try discriminate.
    apply index_In in Ev.
    destruct (interpolate_parts parts _ p word m) as [x| | | | |] eqn:Et; cbn [bind]; try discriminate.
    intros E; injection E as <-.
    assert (utf8_text v) as Hv by (rewrite Forall_forall in Hs; apply Hs; exact Ev).
    rewrite runes_app_text, place_app by assumption.
    rewrite (part_place_text _ _ _ v Ep Ev); eapply IH; eassumption.
Qed.
Lemma repls_closed r word repls :
  Forall utf8_text (rule_texts r) -> closed_rule r = true -> replacements r word = Ok repls ->
  Forall (fun x => closed (runes (rp_word x))) repls.
Proof.
  unfold replacements; destruct (find _ _ _) as [ms| | | | |]; cbn [bind]; try discriminate.
  intros Hu Hcl; revert repls; induction ms as [|m ms IH]; intros repls; cbn [rule_repls].
  - intros E; injection E as <-; constructor.
  - destruct (index m 0); cbn [bind]; try discriminate.
    destruct (index m 1); cbn [bind]; try discriminate.
    destruct (interpolate _ _ _ _) as [t|e| | | |] eqn:Ei; try discriminate; [|apply IH].
    destruct (rule_repls r word ms) as [tl| | | | |]; cbn [bind]; try discriminate.
    intros E; injection E as <-; constructor; [|apply IH; reflexivity].
    eapply interpolate_placed; [exact Hu|exact Hcl|exact Ei].
Qed.

(** The same for a word in progress: between the texts written, on level 2, there is no
    hyphen left. *)
Fixpoint cplace (t : bool) (c : cells) : option bool :=
  match c with
  | [] => Some t
  | (r, l) :: c' =>
    if l =? 2 then match place1 t r with Some t' => cplace t' c' | None => None end
    else if t then None else cplace false c'
  end.
Lemma cplace_app t a b : cplace t (a ++ b) = match cplace t a with Some t' => cplace t' b | None => None end.
Proof.
  revert t; induction a as [|[r l] a IH]; intros t; cbn [app cplace]; [reflexivity|].
  destruct (l =? 2); [destruct (place1 t r); [apply IH|reflexivity]|destruct t; [reflexivity|apply IH]].
Qed.
Lemma cplace_written t w : cplace t (map (fun c => (c, 2)) w) = place t w.
Proof.
  revert t; induction w as [|r w IH]; intros t; cbn [map cplace place]; [reflexivity|].
  change (2 =? 2) with true; cbn iota; destruct (place1 t r); [apply IH|reflexivity].
Qed.
Lemma cplace_unwritten o : Forall (fun x : rune * Z => snd x <> 2) o -> cplace false o = Some false.
Proof.
  induction 1 as [|[r l] o Hx Ho IH]; [reflexivity|]; cbn [cplace snd] in *.
  apply Z.eqb_neq in Hx; rewrite Hx; exact IH.
Qed.
Lemma after_placed rd t e :
  Forall (fun seg : cells * option (list rune) => match snd seg with
          | None => True
          | Some w => closed w /\ fst seg <> [] /\ Forall (fun x => snd x <> 2) (fst seg)
          end) rd ->
  cplace t (before rd) = Some e -> cplace t (after 2 rd) = Some e.
Proof.
  intros Hf; revert t; induction Hf as [|[o w] rd Hseg Hf IH]; intros t; [auto|].
  cbn [before after flat_map fst snd] in *; fold (before rd); fold (after 2 rd).
  rewrite !cplace_app; destruct w as [w|].
  - destruct Hseg as (Hw & Hne & Hl); destruct o as [|[r l] o]; [contradiction|].
    rewrite cplace_written; destruct t.
    + inversion Hl as [|? ? Hl0 Hl1]; subst; cbn [cplace snd] in *; apply Z.eqb_neq in Hl0; rewrite Hl0; discriminate.
    + rewrite cplace_unwritten by exact Hl; unfold closed in Hw; rewrite Hw; apply IH.
  - destruct (cplace t o) as [t'|]; [apply IH|discriminate].
Qed.

(** A rule that never matches what has been written already. *)
Definition good_transcribe (r : rule) : Prop := good_rule r /\ no_nul (rule_from r) = true.

Lemma transcribe_rules_cells n rules i c dum recs rep' recs' :
  Forall good_transcribe rules -> scalar_cells c -> rep_wf dum -> rr_next dum = 0 -> rr_word dum = visible (mark c) ->
  transcribe_rules false n rules i (visible (mark c)) (mk_replacer c 2 []) dum recs = Ok (rep', recs') ->
  exists c', rep' = mk_replacer c' 2 [] /\ scalar_cells c' /\
    (forall x, In x c' -> In x c \/ (snd x = 2 /\ char_of (flat_map rule_texts rules) (fst x))) /\
    (forallb closed_rule rules = true -> cplace false c = Some false -> cplace false c' = Some false).
Proof.
  intros Hg; revert c dum; induction Hg as [|r rules [Hr Hnn] Hg IH]; intros c dum Hc Wd Nd Ed; cbn [transcribe_rules].
  - intros E; injection E as <- _; exists c; auto 6.
  - destruct (replacements r (visible (mark c))) as [repls| | | | |] eqn:Er; cbn [bind]; try discriminate.
    destruct (good_repls _ _ _ Hr Er) as [Ho Hf].
    assert (Forall (fun x => (cell_boundary c (rp_start x) /\ cell_boundary c (rp_stop x) /\ utf8_text (rp_word x)) /\
      rp_start x < rp_stop x /\
      forall j, (Z.to_nat (rp_start x) <= j < Z.to_nat (rp_stop x))%nat -> nth_error (visible (mark c)) j <> Some 0%N) repls) as Hbn.
    { pose proof Er as Er'; unfold replacements in Er'.
      destruct (find _ _ _) as [ms| | | | |] eqn:Ef; cbn [bind] in Er'; try discriminate.
      destruct Hr as (Hcomp & Hok & Hu).
      assert (safe_pattern (rule_from r) = true) as Hs by (unfold rule_ok in Hok; apply andb_true_iff in Hok; apply Hok).
      destruct (safe_matches _ _ _ Hcomp Hs Ef) as [_ Hm]; apply repls_matches in Er'.
      rewrite Forall_forall in *; intros x Hx; destruct (Hf x Hx) as (Hlt & B1 & B2 & Hux & _).
      destruct (Er' x Hx) as (m & Hin & H0 & H1).
      destruct (match_no_nul _ _ _ _ _ Hcomp Hs Hnn (Hm _ Hin) H0 H1) as (L0 & L1 & L2).
      assert (forall j, (Z.to_nat (rp_start x) <= j < Z.to_nat (rp_stop x))%nat -> nth_error (visible (mark c)) j <> Some 0%N) as Hnul.
      { intros j Hj Hn; apply L2; unfold sub.
        apply nth_error_In with (n := (j - Z.to_nat (rp_start x))%nat); rewrite nth_error_sub by lia; exact Hn. }
      destruct B1 as (u1 & v1 & G1 & E1), B2 as (u2 & v2 & G2 & E2).
      split; [|split; [exact Hlt|exact Hnul]]; split; [|split; [|exact Hux]].
      - destruct (visible_boundary _ _ _ Hc G1) as [(c1 & c2 & -> & Ew)|(P & N1 & N2)].
        + exists c1, c2; split; [reflexivity|]; rewrite E1, Ew; reflexivity.
        + exfalso; apply (Hnul (gwidth u1)); [lia|exact N1].
      - destruct (visible_boundary _ _ _ Hc G2) as [(c1 & c2 & -> & Ew)|(P & N1 & N2)].
        + exists c1, c2; split; [reflexivity|]; rewrite E2, Ew; reflexivity.
        + exfalso; apply (Hnul (gwidth u2 - 1)%nat); [lia|exact N2]. }
    assert (Forall (fun x => cell_boundary c (rp_start x) /\ cell_boundary c (rp_stop x) /\ utf8_text (rp_word x)) repls) as Hb
      by (eapply Forall_impl; [|exact Hbn]; cbv beta; tauto).
    assert (len (visible (mark c)) = len (word_of c)) as El by (unfold len; rewrite visible_length, mark_length; reflexivity).
    destruct (cut_round c repls [] c eq_refl) as (rd & E1 & E2 & E3); [rewrite <- El; exact Ho|exact Hb|].
    change (len (word_of [])) with 0 in E2.
    destruct (string_edit dum (map mask repls) Wd) as (dum1 & -> & Wd1 & Nd1 & Ed1).
    { rewrite Ed; apply mask_ordered; exact Ho. }
    cbn [bind]; rewrite <- E2 at 1; rewrite (string_round 2 rd c E1); cbn [bind record_subword negb].
    assert (rr_word dum1 = visible (mark (after 2 rd))) as Ed1'.
    { rewrite <- (combine_fst (rr_word dum1) (rr_levels dum1)) by apply Wd1; rewrite Ed1, Nd.
      rewrite (apply_mask _ (mark c)) by (rewrite combine_fst by apply Wd; exact Ed).
      pose proof (edit_round rd [] []) as Er2; cbn [app] in Er2; change (len (word_of [])) with 0 in Er2.
      rewrite E1, E2 in Er2; rewrite Er2; reflexivity. }
    destruct (written_after _ 2 repls rd (rule_texts r) E3) as [Hs Hin].
    { rewrite E1; exact Hc. }
    { eapply Forall_impl; [|exact Hf]; cbv beta; tauto. }
    rewrite Ed1'; intros E; destruct (IH _ _ Hs Wd1 ltac:(congruence) Ed1' E) as (c' & -> & Hs' & Hin' & Hcl').
    exists c'; split; [reflexivity|]; split; [exact Hs'|]; split.
    + intros x Hx; destruct (Hin' x Hx) as [H|[H1 H2]].
      * destruct (Hin x H) as [H0|[H1 H2]]; [left; rewrite <- E1; exact H0|right; split; [exact H1|]].
        cbn [flat_map]; apply char_of_app; left; exact H2.
      * right; split; [exact H1|]; cbn [flat_map]; apply char_of_app; right; exact H2.
    + cbn [forallb]; intros Hcl Hpl; apply andb_true_iff in Hcl; destruct Hcl as [Hcl1 Hcl2]; apply Hcl'; [exact Hcl2|].
      apply after_placed; [|rewrite E1; exact Hpl].
      pose proof (repls_closed _ _ _ (proj2 (proj2 Hr)) Hcl1 Er) as Hclosed.
      eapply Forall_impl; [|exact E3]; intros [o [w|]]; cbn [snd fst]; [|auto].
      intros (Hw & x & c1 & c2 & Hx & Ex & Ec & Es & Et).
      rewrite Forall_forall in Hclosed, Hbn; destruct (Hbn x Hx) as (_ & Hlt & Hnul).
      split; [specialize (Hclosed x Hx); rewrite Ex, runes_encode in Hclosed by exact Hw; exact Hclosed|].
      rewrite word_of_app, len_app in Et; split.
      * intros ->; change (len (word_of [])) with 0 in Et; lia.
      * apply Forall_forall; intros [r0 l0] Ho1 Hl0; cbn [snd] in Hl0; subst l0.
        apply in_split in Ho1; destruct Ho1 as (o1 & o2 & ->).
        apply (Hnul (length (word_of (c1 ++ o1)))).
        { rewrite Es, Et; rewrite !word_of_app in *; unfold len; rewrite !app_length.
          change ((r0, 2) :: o2) with ([(r0, 2)] ++ o2); rewrite word_of_app, app_length.
          assert (0 < length (word_of [(r0, 2%Z)]))%nat by (unfold word_of, encode; cbn; rewrite app_nil_r; apply encode_rune_length).
          lia. }
        rewrite Ec; replace (c1 ++ (o1 ++ (r0, 2) :: o2) ++ c2) with ((c1 ++ o1) ++ [(r0, 2)] ++ o2 ++ c2)
          by (rewrite <- !app_assoc; reflexivity).
        rewrite mark_app, visible_app, nth_error_app2; rewrite visible_length, mark_length; [|lia].
        rewrite Nat.sub_diag, mark_app, visible_app.
        unfold mark at 1; cbn [flat_map fst snd]; rewrite app_nil_r; change (2 =? 2) with true.
        rewrite visible_marked; pose proof (encode_rune_length r0); destruct (length (encode_rune r0)); [lia|reflexivity].
Qed.

Lemma mark_unwritten l rs : l <> 2 -> mark (map (fun c => (c, l)) rs) = map (fun b => (b, false)) (encode rs).
Proof.
  intros Hl; apply Z.eqb_neq in Hl; induction rs as [|r rs IH]; [reflexivity|].
  unfold encode in *; cbn [map mark flat_map fst snd]; fold (mark (map (fun c => (c, l)) rs)).
  rewrite IH, Hl, map_app; reflexivity.
Qed.
Lemma transcribe_piece_holds rules sw out (Q : rune -> Z -> Prop) :
  Forall good_transcribe rules -> sw_level sw <> 2 -> holds Q sw ->
  (forall c, char_of (flat_map rule_texts rules) c -> Q c 2) ->
  transcribe_piece rules sw = Ok out -> Forall (holds Q) out.
Proof.
  intros Hg Hl Hsw H1; unfold transcribe_piece; destruct (sw_level sw =? 0).
  { intros E; injection E as <-; repeat constructor; apply Hsw. }
  destruct Hsw as [Hu Hq]; destruct Hu as (rs & Hs & Ew); rewrite Ew, new_replacer_cells.
  assert (encode rs = visible (mark (map (fun c => (c, sw_level sw)) rs))) as Ev.
  { rewrite mark_unwritten by exact Hl; symmetry; apply visible_kept. }
  destruct (transcribe_rules _ _ _ _ _ _ _ _) as [[rep rc]| | | | |] eqn:E; cbn [bind]; try discriminate.
  rewrite Ev in E at 1.
  destruct (transcribe_rules_cells _ _ _ _ _ _ _ _ Hg (const_scalar _ _ Hs)
              (new_replacer_wf _ _ _) eq_refl Ev E) as (c' & -> & Hs' & Hin & _).
  destruct (replacer_subwords _) as [[rep1 sws]| | | | |] eqn:Es; cbn [bind]; try discriminate.
  intros E2; injection E2 as <-; eapply subwords_hold; [exact Hs'| |exact Es].
  intros x Hx; destruct (Hin x Hx) as [H|[-> H]]; [|apply H1; exact H].
  apply in_map_iff in H; destruct H as (ch & <- & Hch); cbn [fst snd]; apply Hq.
  rewrite Ew, runes_encode by exact Hs; exact Hch.
Qed.

Lemma subwords_closed t sws :
  cplace t (cells_of sws) = Some false -> levels_alternate sws -> Forall (fun sw => sw_word sw <> []) sws ->
  (match sws with sw :: _ => sw_level sw = 2 -> t = false | [] => True end) ->
  Forall (fun sw => sw_level sw = 2 -> closed (runes (sw_word sw))) sws.
Proof.
  revert t; induction sws as [|sw sws IH]; intros t Hp Ha Hne Ht; [constructor|].
  cbn [cells_of flat_map] in Hp; fold (cells_of sws) in Hp; rewrite cplace_app in Hp.
  inversion Hne as [|? ? Hne1 Hne2]; subst.
  destruct (cplace t _) as [t'|] eqn:E; [|discriminate].
  assert (levels_alternate sws) as Ha' by (destruct sws; [exact I|apply Ha]).
  assert (sw_level sw = 2 -> t' = false) as Ht'.
  { intros El; destruct sws as [|sw2 sws]; [cbn in Hp; congruence|].
    destruct Ha as [Hd _]; rewrite El in Hd; inversion Hne2 as [|? ? Hn2 _]; subst.
    cbn [cells_of flat_map] in Hp; rewrite cplace_app in Hp.
    destruct (runes (sw_word sw2)) as [|r rs] eqn:Er; [exfalso; exact (Hn2 (runes_nil_inv _ Er))|].
    cbn [map cplace] in Hp; replace (sw_level sw2 =? 2) with false in Hp by lia.
    destruct t'; [discriminate|reflexivity]. }
  constructor.
  - intros El; specialize (Ht' El); rewrite (Ht El), El, cplace_written in E; unfold closed; congruence.
  - apply (IH t'); try assumption; destruct sws as [|sw2 sws]; [exact I|].
    intros El2; destruct (Z.eq_dec (sw_level sw) 2) as [El|El]; [apply Ht'; exact El|].
    destruct (runes (sw_word sw)) as [|r rs] eqn:Er; [exfalso; exact (Hne1 (runes_nil_inv _ Er))|].
    clear - E El; apply Z.eqb_neq in El; cbn [map cplace] in E; rewrite El in E.
    destruct t; [discriminate|]; revert E; generalize rs; clear - El; intros rs.
    induction rs as [|r rs IH]; cbn [map cplace]; [congruence|rewrite El; exact IH].
Qed.
Lemma transcribe_piece_closed rules sw out :
  Forall good_transcribe rules -> forallb closed_rule rules = true -> sw_level sw <> 2 -> utf8_text (sw_word sw) ->
  transcribe_piece rules sw = Ok out -> Forall (fun x => sw_level x = 2 -> closed (runes (sw_word x))) out.
Proof.
  intros Hg Hcl Hl Hu; unfold transcribe_piece; destruct (sw_level sw =? 0).
  { intros E; injection E as <-; repeat constructor; intros; contradiction. }
  destruct Hu as (rs & Hs & Ew); rewrite Ew, new_replacer_cells.
  assert (encode rs = visible (mark (map (fun c => (c, sw_level sw)) rs))) as Ev.
  { rewrite mark_unwritten by exact Hl; symmetry; apply visible_kept. }
  destruct (transcribe_rules _ _ _ _ _ _ _ _) as [[rep rc]| | | | |] eqn:E; cbn [bind]; try discriminate.
  rewrite Ev in E at 1.
  destruct (transcribe_rules_cells _ _ _ _ _ _ _ _ Hg (const_scalar _ _ Hs)
              (new_replacer_wf _ _ _) eq_refl Ev E) as (c' & -> & Hs' & _ & Hp).
  destruct (replacer_subwords_ok c' 2 Hs') as (sws & Es & Ec & Ha & Hne & _); rewrite Es; cbn [bind].
  intros E2; injection E2 as <-; apply (subwords_closed false); [|exact Ha|exact Hne|destruct sws; auto].
  rewrite Ec; apply Hp; [exact Hcl|]; apply cplace_unwritten; apply Forall_forall; intros x Hx.
  apply in_map_iff in Hx; destruct Hx as (ch & <- & _); exact Hl.
Qed.

(** ** Merging *)
Lemma merge_any (R : subword -> Prop) sws buf lvl :
  (forall a b l, R {| sw_word := a; sw_level := l |} -> R {| sw_word := b; sw_level := l |} -> R {| sw_word := a ++ b; sw_level := l |}) ->
  Forall R sws -> real sws -> lvl <> -1 -> R {| sw_word := buf; sw_level := lvl |} ->
  Forall R (merge_loop sws buf lvl).
Proof.
  intros HR Hs; revert buf lvl; induction Hs as [|sw sws Hsw Hs IH]; intros buf lvl Hr Hl Hb; cbn [merge_loop].
  - repeat constructor; apply Hb.
  - inversion Hr as [|? ? Hr1 Hr2]; subst.
    assert (lvl =? -1 = false) as -> by lia; cbn [negb]; rewrite andb_true_r; destruct sw as [w l]; cbn [sw_word sw_level] in *.
    destruct (l =? lvl) eqn:E; cbn [negb].
    + apply Z.eqb_eq in E; subst l; apply IH; [exact Hr2|exact Hr1|]; apply HR; assumption.
    + constructor; [exact Hb|]; apply IH; assumption.
Qed.
Lemma builder_any (R : subword -> Prop) sws :
  (forall a b l, R {| sw_word := a; sw_level := l |} -> R {| sw_word := b; sw_level := l |} -> R {| sw_word := a ++ b; sw_level := l |}) ->
  real sws -> Forall R sws -> Forall R (builder_subwords sws).
Proof.
  intros HR Hr Hs; destruct sws as [|sw sws]; [constructor|]; rewrite builder_cons.
  inversion Hr; inversion Hs; subst; apply merge_any; try assumption; destruct sw; assumption.
Qed.
Lemma builder_holds Q sws : real sws -> Forall (holds Q) sws -> Forall (holds Q) (builder_subwords sws).
Proof.
  apply builder_any; intros a b l [U1 Q1] [U2 Q2]; cbn [sw_word sw_level] in *; split; cbn [sw_word sw_level].
  - apply utf8_text_app; assumption.
  - intros c; rewrite runes_app_text by assumption; intros Hin; apply in_app_or in Hin; destruct Hin; auto.
Qed.
Lemma holds_impl (P Q : rune -> Z -> Prop) sws :
  (forall c l, P c l -> Q c l) -> Forall (holds P) sws -> Forall (holds Q) sws.
Proof. intros H; apply Forall_impl; intros sw [U HP]; split; auto. Qed.

(** ** Composing *)
Section Compose.
  Context (H : hangul_lib).
  (** A character of the input, or one that Join gives. *)
  Definition made (P : rune -> Prop) (c : rune) : Prop := P c \/ exists l m t, c = hl_join H l m t.
  Lemma write_made P b : Forall (made P) (write H b).
  Proof.
    unfold write; destruct (is_lmt0 b); [constructor|]; destruct b as [[l m] t].
    constructor; [right; eexists _, _, _; reflexivity|constructor].
  Qed.
  Lemma compose_made (P : rune -> Prop) rs t sc b : Forall P rs -> Forall (made P) (compose_loop H rs t sc b).
  Proof.
    intros Hp; revert t sc b; induction Hp as [|ch rs Hch Hp IH]; intros t sc b; cbn [compose_loop]; [apply write_made|].
    destruct (N.eqb ch 0x2D); [apply IH|].
    destruct (negb (hl_is_hangul H ch)).
    - apply Forall_app; split; [apply write_made|]; constructor; [left; exact Hch|apply IH].
    - destruct (negb (hl_is_jaeum H ch) && negb (hl_is_moeum H ch)).
      + apply Forall_app; split; [apply write_made|apply IH].
      + destruct (_ <=? _)%nat; [apply Forall_app; split; [apply write_made|]|]; apply IH.
  Qed.
  Lemma compose_chars (P : rune -> Prop) w :
    (forall c, In c (runes w) -> P c) ->
    forall c, In c (runes (compose_hangul H w)) -> P c \/ exists l m t, c = fix_rune (hl_join H l m t).
  Proof.
    intros HP c; unfold compose_hangul; rewrite runes_encode_fix; intros Hin; apply in_map_iff in Hin.
    destruct Hin as (x & <- & Hin).
    assert (Forall (fun r => is_scalar r = true /\ P r) (runes w)) as Hall.
    { apply Forall_forall; intros r Hr; split; [|apply HP; exact Hr].
      pose proof (runes_scalar w) as Hs; unfold scalars in Hs; rewrite Forall_forall in Hs; apply Hs; exact Hr. }
    pose proof (compose_made (fun r => is_scalar r = true /\ P r) (runes w) false 0 lmt0 Hall) as Hm.
    rewrite Forall_forall in Hm; destruct (Hm x Hin) as [[Hsc Hpx]|(l & m & t & ->)]; [|right; exists l, m, t; reflexivity].
    left; unfold fix_rune; rewrite Hsc; exact Hpx.
  Qed.

  Lemma shown_chars (P : rune -> Prop) (Q : rune -> Z -> Prop) sws jb :
    Forall (holds Q) sws -> (forall c l, Q c l -> l <> 1 -> P c) -> P 0x20%N ->
    utf8_text jb -> (forall c, In c (runes jb) -> P c) ->
    utf8_text (shown H sws jb) /\
    forall c, In c (runes (shown H sws jb)) -> P c \/ exists l m t, c = fix_rune (hl_join H l m t).
  Proof.
    intros Hs HQ Hsp; revert jb; induction Hs as [|sw sws [Hu Hq] Hs IH]; intros jb Hj Hjc.
    - rewrite shown_nil; split; [apply encode_utf8_text|apply compose_chars; exact Hjc].
    - rewrite shown_cons; destruct (sw_level sw =? 0) eqn:E0.
      + destruct (IH [] utf8_text_nil ltac:(intros c [])) as [Ut Hc].
        assert (utf8_text (compose_hangul H jb)) as Uc by apply encode_utf8_text.
        split; [repeat apply utf8_text_app; assumption|].
        intros c; rewrite runes_app_text, runes_app_text by assumption; intros Hin.
        apply in_app_or in Hin; destruct Hin as [Hin|Hin]; [revert Hin; apply compose_chars; exact Hjc|].
        apply in_app_or in Hin; destruct Hin as [Hin|Hin]; [left; eapply HQ; [apply Hq; exact Hin|lia]|apply Hc; exact Hin].
      + apply IH.
        * apply utf8_text_app; [exact Hj|]; destruct (sw_level sw =? 1); [|exact Hu].
          destruct (has_space _); [exact (utf8_text_rune 0x20%N)|apply utf8_text_nil].
        * intros c; rewrite runes_app_text by exact Hj; intros Hin; apply in_app_or in Hin.
          destruct Hin as [Hin|Hin]; [apply Hjc; exact Hin|].
          destruct (sw_level sw =? 1) eqn:E1; [|eapply HQ; [apply Hq; exact Hin|lia]].
          destruct (has_space _); [|destruct Hin].
          change (runes [0x20%N]) with [0x20%N] in Hin; destruct Hin as [<-|[]]; exact Hsp.
  Qed.

  (** With every Jamo in its place only syllables are made. *)
  Hypothesis laws : hangul_laws H.
  Hypothesis ascii : forall r, (r < 128)%N -> hl_is_hangul H r = false.
  Definition in_place (P : rune -> Prop) (c : rune) : Prop :=
    is_syllable c = true \/ ((c < 128)%N /\ c <> 0x2D%N /\ P c).
  Lemma compose_placed (P : rune -> Prop) rs t e sc b (L M T : rune -> Prop) :
    (forall r, In r compat_leads -> L r) -> (forall mi, (mi < 21)%N -> M (medial mi)) ->
    (forall r, In r compat_tails -> T r) ->
    (forall r, is_syllable r = true -> let '(l, m, t) := hl_split H r in L l /\ M m /\ T t) ->
    (forall l m t, L l -> M m -> T t -> is_syllable (hl_join H l m t) = true) ->
    Forall P rs -> place t rs = Some e -> good_buf L M T b ->
    Forall (in_place P) (compose_loop H rs t sc b).
  Proof.
    intros HL HM HT HS HJ.
    assert (T 0%N) as T0 by (apply HT; left; reflexivity).
    assert (forall b, good_buf L M T b -> Forall (in_place P) (write H b)) as Hw.
    { intros [[l m] x] (H1 & H2 & H3); unfold write.
      destruct (is_lmt0 (l, m, x)); [constructor|]; constructor; [|constructor]; left.
      apply HJ; [| |exact H3].
      - destruct H1 as [->|H1]; [apply HL; vm_compute; tauto|].
        destruct (N.eqb_spec l 0) as [->|_]; [apply HL; vm_compute; tauto|exact H1].
      - destruct H2 as [->|H2]; [apply (HM 18%N); lia|].
        destruct (N.eqb_spec m 0) as [->|_]; [apply (HM 18%N); lia|exact H2]. }
    intros Hp; revert t sc b; induction Hp as [|ch rs Hch Hp IH]; intros t sc b; cbn [compose_loop place].
    - intros _ Hb; apply Hw; exact Hb.
    - unfold place1; destruct (N.eqb_spec ch 0x2D) as [Ed|Ed].
      { intros Hpl Hb; apply IH; assumption. }
      assert (good_buf L M T lmt0) as Hb0 by (cbn; auto).
      destruct (N.ltb_spec ch 128) as [Ha|Ha]; cbn [orb].
      { rewrite (ascii ch Ha); cbn [negb]; intros Hpl Hb; apply Forall_app; split; [apply Hw; exact Hb|].
        constructor; [right; auto|apply IH; assumption]. }
      pose proof (law_syllable H laws ch) as Hl.
      destruct (is_syllable ch) eqn:Es; cbn [orb].
      { apply andb_true_iff in Hl; destruct Hl as [Hl1 Hl3]; apply andb_true_iff in Hl1; destruct Hl1 as [Hl1 Hl2].
        rewrite Hl1, Hl2, Hl3; cbn [negb andb]; intros Hpl Hb; apply Forall_app; split; [apply Hw; exact Hb|].
        apply IH; [exact Hpl|]; pose proof (HS ch Es) as Hs; destruct (hl_split H ch) as [[l m] x]; cbn; tauto. }
      assert ((exists mi, (mi < 21)%N /\ ch = medial mi) \/ In ch (if t then tl compat_tails else compat_leads) ->
              place false rs = Some e -> good_buf L M T b ->
              Forall (in_place P)
                (if negb (hl_is_hangul H ch) then write H b ++ ch :: compose_loop H rs false sc lmt0
                 else if negb (hl_is_jaeum H ch) && negb (hl_is_moeum H ch)
                 then let b' := hl_split H ch in write H b ++ compose_loop H rs false (if N.eqb (snd b') 0 then 1%nat else 2%nat) b'
                 else let score' := if hl_is_moeum H ch then 1%nat else if t then 2%nat else 0%nat in
                      if (score' <=? sc)%nat then write H b ++ compose_loop H rs false score' (put lmt0 score' ch)
                      else compose_loop H rs false score' (put b score' ch))) as Hj.
      { intros Hin Hpl Hb.
        assert (hl_is_hangul H ch = true /\
          forall b', good_buf L M T b' -> good_buf L M T (put b' (if hl_is_moeum H ch then 1%nat else if t then 2%nat else 0%nat) ch)) as [Hh Hput].
        { destruct Hin as [(mi & Hmi & ->)|Hin].
          - destruct (law_medial H laws mi Hmi) as (-> & _ & ->); split; [reflexivity|].
            intros [[l m] x] (H1 & H2 & H3); cbn [put good_buf]; auto.
          - destruct t.
            + assert (ch <> 0%N) as Hn0 by (intros ->; revert Hin; vm_compute; intuition discriminate).
              assert (In ch compat_tails) as Hin' by (right; exact Hin).
              destruct (law_tail H laws ch Hin' Hn0) as (-> & _ & ->); split; [reflexivity|].
              intros [[l m] x] (H1 & H2 & H3); cbn [put good_buf]; auto.
            + destruct (law_lead H laws ch Hin) as (-> & _ & ->); split; [reflexivity|].
              intros [[l m] x] (H1 & H2 & H3); cbn [put good_buf]; auto. }
        rewrite Hh in Hl |- *; cbn [negb andb] in Hl |- *; rewrite Hl; cbv zeta.
        destruct (_ <=? sc)%nat.
        - apply Forall_app; split; [apply Hw; exact Hb|]; apply IH; auto.
        - apply IH; auto. }
      destruct (in_rg 0x314F 0x3163 ch || nmem ch (if t then tl compat_tails else compat_leads)) eqn:Ej; [|discriminate].
      intros Hpl Hb; apply Hj; try assumption.
      apply orb_true_iff in Ej; destruct Ej as [Ej|Ej].
      + left; exists (ch - 0x314F)%N; unfold in_rg, medial in *; split; lia.
      + right; unfold nmem in Ej; apply existsb_exists in Ej; destruct Ej as (y & Hy & Ey).
        apply N.eqb_eq in Ey; subst y; exact Hy.
  Qed.
  Lemma compose_closed (P : rune -> Prop) w :
    closed (runes w) -> (forall c, In c (runes w) -> P c) ->
    forall c, In c (runes (compose_hangul H w)) -> in_place P c.
  Proof.
    intros Hcl HP c; unfold compose_hangul; rewrite runes_encode_fix; intros Hin; apply in_map_iff in Hin.
    destruct Hin as (x & <- & Hin).
    destruct (law_parts H laws) as (L & M & T & HL & HM & HT & HS & HJ).
    assert (Forall (in_place P) (compose_runes H (runes w))) as Hall.
    { unfold compose_runes; eapply (compose_placed P (runes w) false false 0%nat lmt0 L M T); try assumption.
      - apply Forall_forall; exact HP.
      - cbn; repeat split; auto; apply HT; left; reflexivity. }
    rewrite Forall_forall in Hall; specialize (Hall x Hin).
    assert (is_scalar x = true) as Hsc.
    { destruct Hall as [Hall|[Hall _]]; [unfold is_syllable in Hall|]; unfold is_scalar; lia. }
    unfold fix_rune; rewrite Hsc; exact Hall.
  Qed.
  Lemma shown_closed (P0 P : rune -> Prop) (Q : rune -> Z -> Prop) sws jb :
    Forall (holds Q) sws -> Forall (fun sw => sw_level sw = 2 -> closed (runes (sw_word sw))) sws ->
    Forall (fun sw => sw_level sw = 0 \/ sw_level sw = 1 \/ sw_level sw = 2) sws ->
    (forall c, Q c 0 -> P0 c) -> (forall c, Q c 2 -> P c) -> P 0x20%N ->
    utf8_text jb -> closed (runes jb) -> (forall c, In c (runes jb) -> P c) ->
    utf8_text (shown H sws jb) /\ forall c, In c (runes (shown H sws jb)) -> P0 c \/ in_place P c.
  Proof.
    intros Hs Hcl Hlv H0 H2 Hsp; revert jb; induction Hs as [|sw sws [Hu Hq] Hs IH]; intros jb Hj Hjc Hjp.
    - rewrite shown_nil; split; [apply encode_utf8_text|]; intros c Hin; right; revert Hin; apply compose_closed; assumption.
    - inversion Hcl as [|? ? Hc1 Hc2]; inversion Hlv as [|? ? Hl1 Hl2]; subst; specialize (IH Hc2 Hl2).
      rewrite shown_cons; destruct (sw_level sw =? 0) eqn:E0.
      + destruct (IH [] utf8_text_nil eq_refl ltac:(intros c [])) as [Ut Hc].
        assert (utf8_text (compose_hangul H jb)) as Uc by apply encode_utf8_text.
        split; [repeat apply utf8_text_app; assumption|].
        intros c; rewrite runes_app_text, runes_app_text by assumption; intros Hin.
        apply in_app_or in Hin; destruct Hin as [Hin|Hin]; [right; revert Hin; apply compose_closed; assumption|].
        apply in_app_or in Hin; destruct Hin as [Hin|Hin]; [left|apply Hc; exact Hin].
        apply H0; apply Z.eqb_eq in E0; rewrite <- E0; apply Hq; exact Hin.
      + assert (sw_level sw = 1 \/ sw_level sw = 2) as Hl by lia.
        assert (forall x, x = (if sw_level sw =? 1 then if has_space (sw_word sw) then [0x20%N] else [] else sw_word sw) ->
                utf8_text x /\ closed (runes x) /\ forall c, In c (runes x) -> P c) as Hx.
        { intros x ->; destruct Hl as [El|El]; rewrite El; cbn [Z.eqb Pos.eqb].
          - destruct (has_space _); [|split; [apply utf8_text_nil|split; [reflexivity|intros c []]]].
            split; [exact (utf8_text_rune 0x20%N)|]; split; [reflexivity|].
            change (runes [0x20%N]) with [0x20%N]; intros c [<-|[]]; exact Hsp.
          - split; [exact Hu|]; split; [apply Hc1; exact El|]; intros c Hin; apply H2; rewrite <- El; apply Hq; exact Hin. }
        destruct (Hx _ eq_refl) as (X1 & X2 & X3).
        apply IH; [apply utf8_text_app; assumption|rewrite runes_app_text by exact Hj; apply closed_app; assumption|].
        intros c; rewrite runes_app_text by exact Hj; intros Hin; apply in_app_or in Hin; destruct Hin; auto.
  Qed.
End Compose.

(** ** The whole procedure *)

(** The characters between normalization and localization. *)
Definition inner_char (H : hangul_lib) (s : spec) (word : bytes) (c : rune) : Prop :=
  (In c (runes word) /\ meaningful s c = false) \/ c = 0x20%N \/
  char_of (flat_map rule_texts (s_transcribe s)) c \/ exists l m t, c = fix_rune (hl_join H l m t).

Lemma mapm_all {A B} (f : A -> res (list B)) (P : A -> Prop) (Q : B -> Prop) l outs :
  Forall P l -> (forall x out, P x -> f x = Ok out -> Forall Q out) -> mapm f l = Ok outs -> Forall Q (concat outs).
Proof.
  intros Hl Hf E; apply mapm_forall2 in E; induction E as [|x o l outs Ho E IH]; [constructor|].
  inversion Hl; subst; cbn [concat]; apply Forall_app; split; [eapply Hf; eassumption|apply IH; assumption].
Qed.

(** The subwords that are settled in the end. *)
Definition from_word (s : spec) (rs : list rune) (c : rune) (l : Z) : Prop :=
  l = 1 \/ (l = 0 /\ In c rs /\ meaningful s c = false).
Definition from_rules (s : spec) (rs : list rune) (c : rune) (l : Z) : Prop :=
  from_word s rs c l \/ (l = 2 /\ char_of (flat_map rule_texts (s_transcribe s)) c).
Definition low_level (sw : subword) : Prop := sw_level sw = 0 \/ sw_level sw = 1.

Lemma inner_settled H s rs out :
  Forall good_rule (s_rewrite s) -> Forall good_transcribe (s_transcribe s) -> scalars rs ->
  inner H s (encode rs) = Ok out ->
  exists sws, out = shown H sws [] /\ Forall (holds (from_rules s rs)) sws /\
    Forall (fun sw => sw_level sw = 0 \/ sw_level sw = 1 \/ sw_level sw = 2) sws /\
    (forallb closed_rule (s_transcribe s) = true -> Forall (fun sw => sw_level sw = 2 -> closed (runes (sw_word sw))) sws).
Proof.
  intros Hrw Htr Hs; rewrite inner_pieces.
  destruct (partition_cells s rs Hs) as (sws0 & -> & Ec & _ & Hne & Hu); cbn [bind].
  set (Q := from_word s rs); set (low := fun sw => holds Q sw /\ low_level sw).
  assert (Forall low sws0) as H0.
  { assert (forall x, In x (cells_of sws0) -> Q (fst x) (snd x) /\ (snd x = 0 \/ snd x = 1)) as Hc.
    { intros x; rewrite Ec; intros Hin; apply in_map_iff in Hin; destruct Hin as (c & <- & Hin); cbn [fst snd]; unfold Q, from_word.
      destruct (meaningful s c) eqn:Em; auto. }
    rewrite Forall_forall in *; intros sw Hsw.
    assert (forall c, In c (runes (sw_word sw)) -> Q c (sw_level sw) /\ low_level sw) as Hq.
    { intros c Hin; apply (Hc (c, sw_level sw)); apply in_flat_map; exists sw; split; [exact Hsw|].
      apply in_map_iff; exists c; auto. }
    split; [split; [apply Hu; exact Hsw|intros c Hin; apply Hq; exact Hin]|].
    destruct (runes (sw_word sw)) as [|c rs0] eqn:Er; [|exact (proj2 (Hq c (or_introl eq_refl)))].
    exfalso; exact (Hne sw Hsw (runes_nil_inv _ Er)). }
  destruct (mapm (rewrite_piece (s_rewrite s)) sws0) as [outs| | | | |] eqn:E1; cbn [bind]; try discriminate.
  assert (Forall low (concat outs)) as H1.
  { eapply mapm_all; [exact H0| |exact E1]; intros sw o [Hq Hl] E; unfold low.
    assert (Forall (holds Q) o) as Hho by (eapply rewrite_piece_holds; [exact Hrw|exact Hq| |exact E]; intros; left; reflexivity).
    destruct (rewrite_piece_sequence _ _ _ E) as (_ & _ & _ & Hf); unfold low_level in *.
    rewrite Forall_forall in *; intros x Hx; split; [apply Hho; exact Hx|]; destruct (Hf x Hx) as [->| ->]; auto. }
  assert (Forall low (builder_subwords (concat outs))) as H2.
  { assert (Forall (holds Q) (concat outs)) as Hq by (eapply Forall_impl; [|exact H1]; intros sw [Hq _]; exact Hq).
    assert (Forall low_level (concat outs)) as Hl by (eapply Forall_impl; [|exact H1]; intros sw [_ Hl]; exact Hl).
    assert (real (concat outs)) as Hr by (eapply Forall_impl; [|exact Hl]; unfold low_level; cbv beta; intros sw [-> | ->]; lia).
    apply (builder_levels_in (fun l => l = 0 \/ l = 1)) in Hl; apply builder_holds in Hq; [|exact Hr].
    rewrite Forall_forall in *; intros x Hx; split; [auto|exact (Hl x Hx)]. }
  destruct (mapm (transcribe_piece (s_transcribe s)) _) as [outs2| | | | |] eqn:E2; cbn [bind]; try discriminate.
  assert (Forall (holds (from_rules s rs)) (concat outs2)) as H3.
  { eapply mapm_all; [exact H2| |exact E2]; intros sw o [Hq Hl] E.
    eapply transcribe_piece_holds; [exact Htr| | | |exact E].
    - destruct Hl as [-> | ->]; lia.
    - destruct Hq as [U Hq]; split; [exact U|]; intros c Hc; left; apply Hq; exact Hc.
    - intros c Hc; right; split; [reflexivity|exact Hc]. }
  assert (Forall (fun sw => sw_level sw = 0 \/ sw_level sw = 1 \/ sw_level sw = 2) (concat outs2)) as H4.
  { eapply mapm_all; [exact H2| |exact E2]; intros sw o [_ Hl]; unfold transcribe_piece.
    destruct (sw_level sw =? 0) eqn:E0; [intros E; injection E as <-; repeat constructor; lia|].
    destruct (transcribe_rules _ _ _ _ _ _ _ _) as [[rep rc]| | | | |] eqn:E; cbn [bind]; try discriminate.
    destruct (transcribe_rules_levels _ _ _ _ _ _ _ _ _ (new_replacer_wf _ _ _) E) as (Hw & _ & Hlv).
    destruct (replacer_subwords rep) as [[rep1 sws]| | | | |] eqn:Es; cbn [bind]; try discriminate.
    intros E3; injection E3 as <-; destruct (subwords_text _ _ _ Hw Es) as [_ Hf].
    eapply Forall_impl; [|exact Hf]; cbv beta; intros x Hx; destruct (Hlv _ Hx) as [->|Hx']; cbn [new_replacer rr_next rr_levels] in *; [auto|].
    apply repeat_spec in Hx'; unfold low_level in Hl; lia. }
  assert (real (concat outs2)) as Hr2 by (eapply Forall_impl; [|exact H4]; cbv beta; intros; lia).
  intros E; injection E as <-; rewrite settle_shown by exact Hr2.
  exists (builder_subwords (concat outs2)); split; [reflexivity|]; split; [apply builder_holds; assumption|].
  split; [exact (builder_levels_in (fun l => l = 0 \/ l = 1 \/ l = 2) _ H4)|].
  intros Hcl.
  assert (Forall (fun sw => utf8_text (sw_word sw) /\ (sw_level sw = 2 -> closed (runes (sw_word sw)))) (concat outs2)) as H5.
  { assert (Forall (fun sw => sw_level sw = 2 -> closed (runes (sw_word sw))) (concat outs2)) as Hc.
    { eapply mapm_all; [exact H2| |exact E2]; intros sw o [[U _] Hl] E.
      eapply transcribe_piece_closed; [exact Htr|exact Hcl| |exact U|exact E]; unfold low_level in Hl; lia. }
    rewrite Forall_forall in *; intros x Hx; split; [apply (H3 x Hx)|apply Hc; exact Hx]. }
  eapply (builder_any (fun sw => utf8_text (sw_word sw) /\ (sw_level sw = 2 -> closed (runes (sw_word sw))))) in H5; [|clear|exact Hr2].
  - eapply Forall_impl; [|exact H5]; cbv beta; tauto.
  - cbn [sw_word sw_level]; intros a b l [U1 C1] [U2 C2]; split; [apply utf8_text_app; assumption|].
    intros El; rewrite runes_app_text by exact U1; apply closed_app; auto.
Qed.

Lemma inner_chars H s rs out :
  Forall good_rule (s_rewrite s) -> Forall good_transcribe (s_transcribe s) -> scalars rs ->
  inner H s (encode rs) = Ok out ->
  utf8_text out /\ forall c, In c (runes out) -> inner_char H s (encode rs) c.
Proof.
  intros Hrw Htr Hs E; destruct (inner_settled _ _ _ _ Hrw Htr Hs E) as (sws & -> & Hq & _ & _).
  destruct (shown_chars H (fun c => (In c rs /\ meaningful s c = false) \/ c = 0x20%N \/ char_of (flat_map rule_texts (s_transcribe s)) c)
              (from_rules s rs) sws []) as [U Hc].
  - exact Hq.
  - intros c l [[Hl|(_ & Hin)]|[_ Hin]] Hne1; [contradiction|left; exact Hin|right; right; exact Hin].
  - right; left; reflexivity.
  - apply utf8_text_nil.
  - intros c [].
  - split; [exact U|]; intros c Hin; unfold inner_char; rewrite runes_encode by exact Hs.
    destruct (Hc c Hin) as [[Ha|[Ha|Ha]]|Ha]; auto.
Qed.
Lemma inner_closed H s rs out :
  hangul_laws H -> (forall r, (r < 128)%N -> hl_is_hangul H r = false) ->
  Forall good_rule (s_rewrite s) -> Forall good_transcribe (s_transcribe s) -> forallb closed_rule (s_transcribe s) = true ->
  scalars rs -> inner H s (encode rs) = Ok out ->
  utf8_text out /\ forall c, In c (runes out) ->
    (In c rs /\ meaningful s c = false) \/ is_syllable c = true \/ c = 0x20%N \/
    ((c < 128)%N /\ c <> 0x2D%N /\ char_of (flat_map rule_texts (s_transcribe s)) c).
Proof.
  intros laws ascii Hrw Htr Hcl Hs E; destruct (inner_settled _ _ _ _ Hrw Htr Hs E) as (sws & -> & Hq & Hl & Hc).
  destruct (shown_closed H laws ascii (fun c => In c rs /\ meaningful s c = false)
              (fun c => c = 0x20%N \/ char_of (flat_map rule_texts (s_transcribe s)) c)
              (from_rules s rs) sws []) as [U Hin]; auto.
  - intros c [[Hx|(_ & Hx)]|[Hx _]]; [discriminate|exact Hx|discriminate].
  - intros c [[Hx|(Hx & _)]|[_ Hx]]; [discriminate|discriminate|auto].
  - apply utf8_text_nil.
  - reflexivity.
  - intros c [].
  - split; [exact U|]; intros c Hc'; destruct (Hin c Hc') as [Ha|[Ha|(Ha & Hb & [Hd|Hd])]]; auto 6.
Qed.

(** What normalization leaves, as the rest of the procedure sees it. *)
Definition normalized (s : spec) (word : bytes) : bytes := snd (normalize s None word).

Lemma localized_text_chars sc b (chars : list rune) c :
  In c (localized_text sc b chars) ->
  exists b' y a', In y chars /\ In c (localized sc b' y a').
Proof.
  revert b; induction chars as [|y chars IH]; intros b; cbn [localized_text]; [intros []|].
  intros Hin; apply in_app_or in Hin; destruct Hin as [Hin|Hin].
  - exists b, y, (hd_error chars); split; [left; reflexivity|exact Hin].
  - destruct (IH _ Hin) as (b' & y' & a' & H1 & H2); exists b', y', a'; split; [right; exact H1|exact H2].
Qed.
Lemma localized_char sc b y a c :
  In c (localized sc b y a) ->
  c = y \/ (sc = Hrkt /\ In c [0x20; 0x2E; 0x2C; 0x3A; 0x21; 0x3F; 0x7E; 0x27; 0x22]%N).
Proof.
  unfold localized; destruct (N.eqb y 0x200B); [intros []|]; destruct (negb (is_punct y)); [intros [<-|[]]; auto|].
  assert (forall l m r, (forall x, In x l -> In x [0x20%N]) -> (forall x, In x r -> In x [0x20%N]) ->
          (m = [y] \/ (sc = Hrkt /\ forall x, In x m -> In x [0x2E; 0x2C; 0x3A; 0x21; 0x3F; 0x7E; 0x27; 0x22]%N)) ->
          (sc = Hrkt \/ (l = [] /\ r = [])) ->
          In c ((if gap b then [] else l) ++ m ++ (if gap a then [] else r)) ->
          c = y \/ (sc = Hrkt /\ In c [0x20; 0x2E; 0x2C; 0x3A; 0x21; 0x3F; 0x7E; 0x27; 0x22]%N)) as Hgen.
  { intros l m r Hl Hr Hm Hsc Hin.
    assert (forall g x, In x (if g : bool then [] else l) -> sc = Hrkt /\ In x [0x20%N]) as Hl'.
    { intros [|] x Hx; [destruct Hx|]; split; [|apply Hl; exact Hx].
      destruct Hsc as [Hsc|[-> _]]; [exact Hsc|destruct Hx]. }
    assert (forall g x, In x (if g : bool then [] else r) -> sc = Hrkt /\ In x [0x20%N]) as Hr'.
    { intros [|] x Hx; [destruct Hx|]; split; [|apply Hr; exact Hx].
      destruct Hsc as [Hsc|[_ ->]]; [exact Hsc|destruct Hx]. }
    apply in_app_or in Hin; destruct Hin as [Hin|Hin].
    { apply Hl' in Hin; destruct Hin as [E [<-|[]]]; right; split; [exact E|left; reflexivity]. }
    apply in_app_or in Hin; destruct Hin as [Hin|Hin].
    - destruct Hm as [->|[E Hm]]; [destruct Hin as [<-|[]]; auto|right; split; [exact E|right; apply Hm; exact Hin]].
    - apply Hr' in Hin; destruct Hin as [E [<-|[]]]; right; split; [exact E|left; reflexivity]. }
  unfold punct_parts; destruct sc;
    repeat match goal with |- context [N.eqb ?a ?b] => destruct (N.eqb a b) end;
    apply Hgen; cbn [In]; auto 12 using in_eq; intros; tauto.
Qed.

Lemma forward_inner {W} H s (reg : list (bytes * translit W)) on w word w' tr out :
  spec_numbered s -> forward H s reg on w word = (w', tr, Ok out) ->
  exists mid x, snd (transliterate (l_translit (s_lang s)) reg w None word) = Ok mid /\
    inner H s (normalized s mid) = Ok x /\ out = localize_word (s_script s) x.
Proof.
  intros Hn E; unfold forward in E.
  pose proof (transliterate_trace (l_translit (s_lang s)) reg w (trace_word (new_tracer on) SInput word []) None word) as Ht.
  destruct (transliterate _ _ w (trace_word _ _ _ _) word) as [[w1 tr1] r].
  destruct (transliterate _ _ w None word) as [[w2 tr2] r2].
  destruct r as [mid| | | | |]; try discriminate; cbn [snd fst] in Ht.
  pose proof (after_translit_trace H s tr1 mid Hn) as Ea; rewrite after_translit_inner in Ea.
  destruct (after_translit H s tr1 mid) as [[tr3 o]| | | | |]; try discriminate; injection E as _ _ <-.
  fold (normalized s mid) in Ea.
  destruct (inner H s (normalized s mid)) as [x| | | | |] eqn:Ei; cbn [bind map_res snd] in Ea; try discriminate.
  injection Ea as ->; exists mid, x; split; [cbn [snd]; destruct Ht; congruence|auto].
Qed.
Lemma normalized_chars s mid : exists rs, scalars rs /\ normalized s mid = encode rs.
Proof.
  unfold normalized; cbn [normalize snd]; eexists; split; [|symmetry; apply encode_fix]; apply scalars_fix.
Qed.

(** Every character of the result. *)
Lemma forward_chars {W} H s (reg : list (bytes * translit W)) on w word w' tr out :
  spec_numbered s -> Forall good_rule (s_rewrite s) -> Forall good_transcribe (s_transcribe s) ->
  forward H s reg on w word = (w', tr, Ok out) ->
  exists mid, snd (transliterate (l_translit (s_lang s)) reg w None word) = Ok mid /\
    forall c, In c (runes out) ->
    exists b y a, In c (localized (s_script s) b y a) /\ inner_char H s (normalized s mid) y.
Proof.
  intros Hn Hrw Htr E; destruct (forward_inner _ _ _ _ _ _ _ _ _ Hn E) as (mid & x & Em & Ei & ->).
  exists mid; split; [exact Em|]; destruct (normalized_chars s mid) as (rs & Hs & Er); rewrite Er in Ei |- *.
  destruct (inner_chars H s rs x Hrw Htr Hs Ei) as [_ Hc].
  intros c; rewrite localize_word_runes; intros Hin.
  destruct (localized_text_chars _ _ _ _ Hin) as (b & y & a & Hy & Hl).
  exists b, y, a; split; [exact Hl|]; exact (Hc y Hy).
Qed.

Lemma forward_closed {W} H s (reg : list (bytes * translit W)) on w word w' tr out :
  hangul_laws H -> (forall r, (r < 128)%N -> hl_is_hangul H r = false) -> spec_numbered s ->
  Forall good_rule (s_rewrite s) -> Forall good_transcribe (s_transcribe s) -> forallb closed_rule (s_transcribe s) = true ->
  forward H s reg on w word = (w', tr, Ok out) ->
  exists mid, snd (transliterate (l_translit (s_lang s)) reg w None word) = Ok mid /\
    forall c, In c (runes out) ->
    exists b y a, In c (localized (s_script s) b y a) /\
      ((In y (runes (normalized s mid)) /\ meaningful s y = false) \/ is_syllable y = true \/ y = 0x20%N \/
       ((y < 128)%N /\ y <> 0x2D%N /\ char_of (flat_map rule_texts (s_transcribe s)) y)).
Proof.
  intros laws ascii Hn Hrw Htr Hcl E; destruct (forward_inner _ _ _ _ _ _ _ _ _ Hn E) as (mid & x & Em & Ei & ->).
  exists mid; split; [exact Em|]; destruct (normalized_chars s mid) as (rs & Hs & Er); rewrite Er in Ei |- *.
  destruct (inner_closed H s rs x laws ascii Hrw Htr Hcl Hs Ei) as [_ Hc].
  intros c; rewrite localize_word_runes; intros Hin.
  destruct (localized_text_chars _ _ _ _ Hin) as (b & y & a & Hy & Hl).
  exists b, y, a; split; [exact Hl|]; rewrite runes_encode by exact Hs; exact (Hc y Hy).
Qed.
