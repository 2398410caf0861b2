(** Characters that separate the words of a language, for C85. *)
From Coq Require Import String Lia.
From Verif Require Import GoBase Utf8 Utf8Facts UniTables Unicode Regex RegexFacts Hre FindFacts Replacer ReplacerFacts Subword Rule
  Scripts ScriptFacts Spec LettersFacts Jamo Procedure ProcFacts ProcLocal LocalizeFacts CaseFacts.
Open Scope N_scope.

(** Digits, punctuation but for , ; - ' ~ and some marks beyond ASCII, and letters of scripts that no
    bundled language but Japanese is written in: digits, Hebrew, Arabic,
    Devanagari, Thai, dashes and quotes, the punctuation of Japanese,
    Hiragana, Katakana, Chinese characters, Hangul, fullwidth digits and emoji. *)
Definition elsewhere : list (N * N) :=
  [(0x21, 0x26); (0x28, 0x2B); (0x2E, 0x3A); (0x3C, 0x40); (0x5B, 0x60); (0x7B, 0x7D); (0xA1, 0xA9); (0xAB, 0xB6); (0xBB, 0xBF);
   (0x5D0, 0x5EA); (0x620, 0x64A); (0x904, 0x939); (0xE01, 0xE30); (0x2010, 0x2016); (0x201A, 0x2021); (0x2023, 0x2027);
   (0x3001, 0x3002); (0x3041, 0x3096); (0x30A1, 0x30FA); (0x4E00, 0x9FFF); (0xAC00, 0xD7A3); (0xFF10, 0xFF19); (0x1F300, 0x1F64F)].

(** ** Expressions that do not match such text *)
Definition apart (a b : list (N * N)) : bool :=
  forallb (fun p => forallb (fun q => (snd p <? fst q) || (snd q <? fst p)) b) a.
Fixpoint deaf (q : list (N * N)) (r : rx) : bool :=
  match r with
  | XFail => true
  | XSet ranges => apart ranges q
  | XCap _ r => deaf q r
  | XCat a b => if deaf q a then true else deaf q b
  | XAlt a b => if deaf q a then deaf q b else false
  | _ => false
  end.

(** The check of a spec: neither the rewrite rules nor the section normalize speak about such
    characters, and the texts of the section normalize begin and end with characters of the
    language. *)
Definition edges_kept (s : spec) (v : bytes) : bool :=
  match runes v, rev (runes v) with
  | a :: _, b :: _ => if meaningful s (norm_rune s a) then meaningful s (norm_rune s b) else false
  | _, _ => false
  end.
Definition spec_separates (s : spec) : bool :=
  match s_script s with
  | Hrkt => match l_translit (s_lang s) with [] => false | _ => true end
  | _ =>
    forallb (fun r => deaf elsewhere (prog (p_re (rule_from r)))) (s_rewrite s) &&
    forallb (fun p => single_key p && edges_kept s (snd p) && negb (existsb (in_ranges elsewhere) (runes (fst p)))) (s_normReplacer s) &&
    forallb (fun c => negb (in_ranges elsewhere c)) (s_puncts s)
  end.

(** No rule speaks about the space, and the section normalize does not either. *)
Definition space_set : list (N * N) := [(0x20, 0x20)].
Definition spec_spaces (s : spec) : bool :=
  forallb (fun r => deaf space_set (prog (p_re (rule_from r)))) (s_rewrite s) &&
  forallb (fun r => deaf space_set (prog (p_re (rule_from r)))) (s_transcribe s) &&
  forallb (fun p => negb (nmem 0x20 (runes (fst p)))) (s_normReplacer s).

(** How many commas there must be in a text of characters in [q] and commas that is matched, or 2. *)
Definition comma : N := 0x2C.
Fixpoint noise (q : list (N * N)) (r : rx) : nat :=
  match r with
  | XFail => 2
  | XSet ranges => if apart ranges q then if in_set ranges comma then 1 else 2 else 0
  | XCap _ r => noise q r
  | XCat a b => match noise q a with 0 => noise q b | 1 => match noise q b with 0 => 1 | _ => 2 end | _ => 2 end
  | XAlt a b => match noise q a with 0 => 0 | n => Nat.min n (noise q b) end
  | _ => 0
  end%nat.

(** A comma is no letter of the language, no rewrite rule matches among such characters and one
    comma, and the section normalize does not speak about commas. *)
Definition spec_comma (s : spec) : bool :=
  match s_script s with
  | Hrkt => true
  | _ =>
    forallb (fun r => Nat.eqb (noise elsewhere (prog (p_re (rule_from r)))) 2) (s_rewrite s) &&
    forallb (fun p => negb (nmem comma (runes (fst p)))) (s_normReplacer s) &&
    negb (nmem comma (s_puncts s))
  end.

Lemma apart_in a b c : apart a b = true -> in_set a c = true -> in_set b c = true -> False.
Proof.
  unfold apart, in_set; intros H Ha Hb; apply existsb_exists in Ha, Hb; destruct Ha as (p & Hp & Ea), Hb as (q & Hq & Eb).
  rewrite forallb_forall in H; specialize (H p Hp); rewrite forallb_forall in H; specialize (H q Hq).
  apply andb_true_iff in Ea, Eb; apply orb_true_iff in H; destruct Ea as [E1 E2], Eb as [E3 E4].
  apply N.leb_le in E1, E2, E3, E4; destruct H as [H|H]; apply N.ltb_lt in H; lia.
Qed.
Lemma in_ranges_set tab c : in_ranges tab c = true -> in_set tab c = true.
Proof.
  induction tab as [|[lo hi] tab IH]; cbn [in_ranges]; [discriminate|]; unfold in_set in *; cbn [existsb fst snd].
  destruct (N.ltb_spec c lo) as [|Hlo]; [discriminate|]; destruct (N.leb_spec c hi) as [Hhi|].
  - intros _; apply orb_true_iff; left; apply andb_true_iff; split; [apply N.leb_le; assumption|reflexivity].
  - intros Hr; apply orb_true_iff; right; auto.
Qed.
Fixpoint climbs (tab : list (N * N)) : bool :=
  match tab with [] => true | p :: rest => (fst p <=? snd p) && forallb (fun q => snd p <? fst q) rest && climbs rest end.
Lemma climbs_in tab lo hi c : climbs tab = true -> In (lo, hi) tab -> lo <= c <= hi -> in_ranges tab c = true.
Proof.
  induction tab as [|[a b] tab IH]; [contradiction|]; cbn [climbs in_ranges fst snd]; intros H Hin Hc; unfold rune in *.
  apply andb_true_iff in H; destruct H as [H H2]; apply andb_true_iff in H; destruct H as [H0 H1]; apply N.leb_le in H0.
  destruct Hin as [E|Hin].
  - injection E as -> ->; destruct (N.ltb_spec c lo); [lia|]; destruct (N.leb_spec c hi); [reflexivity|lia].
  - rewrite forallb_forall in H1; specialize (H1 _ Hin); cbn [fst] in H1; apply N.ltb_lt in H1; specialize (IH H2 Hin Hc).
    destruct (N.leb_spec c b); [lia|]; destruct (N.ltb_spec c a); [lia|exact IH].
Qed.
Lemma elsewhere_ranges lo hi c : In (lo, hi) elsewhere -> lo <= c <= hi -> in_ranges elsewhere c = true.
Proof. apply climbs_in; vm_compute; reflexivity. Qed.

Lemma deaf_runs q r s p c s' p' c' : runs r s p c s' p' c' -> deaf q r = true ->
  Forall (fun g => in_set q (fst g) = true) s -> False.
Proof.
  induction 1 as
    [s p c|ranges ch w s p c H|s c|p c|i r s p c s' p' c' H IH
    |a b s p c s1 p1 c1 s2 p2 c2 H1 IH1 H2 IH2|a b s p c s' p' c' H IH|a b s p c s' p' c' H IH
    |g r s p c|g r s p c s1 p1 c1 s2 p2 c2 H1 IH1 Hlt H2 IH2]; cbn [deaf]; intros Hd Hf; try discriminate.
  - inversion Hf as [|? ? Hc _]; subst; cbn [fst] in Hc; eapply apart_in; eassumption.
  - auto.
  - destruct (deaf q a); [auto|]; apply IH2; [exact Hd|].
    apply runs_consumes in H1; destruct H1 as (u & -> & _); apply Forall_app in Hf; apply Hf.
  - destruct (deaf q a); [auto|discriminate].
  - destruct (deaf q a); [auto|discriminate].
Qed.
Lemma deaf_find q p rs n : deaf q (prog (p_re p)) = true -> scalars rs -> Forall (fun c => in_set q c = true) rs ->
  find p (encode rs) n = Ok [].
Proof.
  intros Hd Hs Hf; unfold find; cbn [find_loop]; set (word := encode rs) in *.
  destruct ((0 <? len word)%Z && ((n <? 0)%Z || (len (@nil (list Z)) <? n)%Z)) eqn:E; [|reflexivity].
  assert (slice word 0 (len word) = Ok word) as ->.
  { unfold slice; replace ((0 <=? 0)%Z && (0 <=? len word)%Z && (len word <=? len word)%Z) with true by (unfold len; lia).
    cbn [Z.to_nat skipn]; f_equal; apply firstn_all2; unfold len; lia. }
  cbn [bind]; unfold find_submatch_index.
  destruct (search (prog (p_re p)) (glyphs word) 0) as [[[a b] c]|] eqn:Es; [|reflexivity].
  exfalso; destruct (search_sound _ _ _ _ _ _ Es) as (u & v & w & Eg & _ & _ & Hr).
  refine (deaf_runs q _ _ _ _ _ _ _ Hr Hd _).
  assert (Forall (fun g => in_set q (fst g) = true) (glyphs word)) as Hg.
  { apply Forall_forall; intros g Hin; rewrite Forall_forall in Hf; apply Hf.
    apply (in_map fst) in Hin; change (map fst (glyphs word)) with (runes word) in Hin.
    unfold word in Hin; rewrite runes_encode in Hin by exact Hs; exact Hin. }
  rewrite Eg in Hg; apply Forall_app in Hg; apply Hg.
Qed.

(** With commas. *)
Definition commas (s : list (rune * nat)) : nat := length (filter (fun g => fst g =? comma) s).
Lemma commas_app a b : commas (a ++ b) = (commas a + commas b)%nat.
Proof. unfold commas; rewrite filter_app, app_length; reflexivity. Qed.
Lemma noise_runs q r s p c s' p' c' : runs r s p c s' p' c' -> Forall (fun g => in_set q (fst g) = true \/ fst g = comma) s ->
  exists u, s = u ++ s' /\ (noise q r <= commas u)%nat.
Proof.
  induction 1 as
    [s p c|ranges ch w s p c H|s c|p c|i r s p c s' p' c' H IH
    |a b s p c s1 p1 c1 s2 p2 c2 H1 IH1 H2 IH2|a b s p c s' p' c' H IH|a b s p c s' p' c' H IH
    |g r s p c|g r s p c s1 p1 c1 s2 p2 c2 H1 IH1 Hlt H2 IH2]; cbn [noise]; intros Hf.
  - exists []; split; [reflexivity|apply le_n].
  - exists [(ch, w)]; split; [reflexivity|]; inversion Hf as [|? ? Hc _]; subst; cbn [fst] in Hc.
    destruct (apart ranges q) eqn:E; [|apply Nat.le_0_l]; destruct Hc as [Hc| ->]; [exfalso; eapply apart_in; eassumption|].
    rewrite H; apply le_n.
  - exists []; split; [reflexivity|apply le_n].
  - exists []; split; [reflexivity|apply le_n].
  - auto.
  - destruct (IH1 Hf) as (u1 & -> & L1); apply Forall_app in Hf; destruct (IH2 (proj2 Hf)) as (u2 & -> & L2).
    exists (u1 ++ u2); split; [apply app_assoc|]; rewrite commas_app.
    destruct (noise q a) as [|[|n]]; [lia|destruct (noise q b); lia|lia].
  - destruct (IH Hf) as (u & -> & L); exists u; split; [reflexivity|]; destruct (noise q a); lia.
  - destruct (IH Hf) as (u & -> & L); exists u; split; [reflexivity|]; destruct (noise q a); lia.
  - exists []; split; [reflexivity|apply le_n].
  - destruct (IH1 Hf) as (u1 & -> & _); apply Forall_app in Hf; destruct (IH2 (proj2 Hf)) as (u2 & -> & _).
    exists (u1 ++ u2); split; [apply app_assoc|apply Nat.le_0_l].
Qed.
Lemma noise_find q p rs n : noise q (prog (p_re p)) = 2%nat -> scalars rs -> Forall (fun c => in_set q c = true \/ c = comma) rs ->
  (length (filter (fun c => (c =? comma)%N) rs) <= 1)%nat -> find p (encode rs) n = Ok [].
Proof.
  intros Hd Hs Hf Hone; unfold find; cbn [find_loop]; set (word := encode rs) in *.
  destruct ((0 <? len word)%Z && ((n <? 0)%Z || (len (@nil (list Z)) <? n)%Z)) eqn:E; [|reflexivity].
  assert (slice word 0 (len word) = Ok word) as ->.
  { unfold slice; replace ((0 <=? 0)%Z && (0 <=? len word)%Z && (len word <=? len word)%Z) with true by (unfold len; lia).
    cbn [Z.to_nat skipn]; f_equal; apply firstn_all2; unfold len; lia. }
  cbn [bind]; unfold find_submatch_index.
  destruct (search (prog (p_re p)) (glyphs word) 0) as [[[a b] c]|] eqn:Es; [|reflexivity].
  exfalso; destruct (search_sound _ _ _ _ _ _ Es) as (u & v & w & Eg & _ & _ & Hr).
  assert (map fst (glyphs word) = rs) as Em by (change (map fst (glyphs word)) with (runes word); unfold word; apply runes_encode; exact Hs).
  assert (Forall (fun g => in_set q (fst g) = true \/ fst g = comma) (glyphs word)) as Hg.
  { apply Forall_forall; intros g Hin; rewrite Forall_forall in Hf; apply Hf; rewrite <- Em; apply in_map; exact Hin. }
  assert (commas (glyphs word) <= 1)%nat as Hc.
  { clear - Hone Em; rewrite <- Em in Hone; revert Hone; unfold commas; generalize (glyphs word); intros l.
    assert (length (filter (fun c => c =? comma) (map fst l)) = length (filter (fun g : rune * nat => fst g =? comma) l)) as ->; [|auto].
    induction l as [|x l IH]; [reflexivity|]; cbn [map filter]; destruct (fst x =? comma); cbn [length]; rewrite IH; reflexivity. }
  rewrite Eg in Hg, Hc; apply Forall_app in Hg; destruct Hg as [_ Hg].
  destruct (noise_runs q _ _ _ _ _ _ _ Hr Hg) as (x & Ex & L); rewrite Hd in L; rewrite Ex, !commas_app in Hc; lia.
Qed.

(** ** Such characters are not of the language *)
Lemma elsewhere_script sc c : sc <> Hrkt -> in_ranges elsewhere c = true -> script_is sc c = false.
Proof.
  intros Hn Hc; apply in_ranges_set in Hc.
  assert (forall tab, apart tab elsewhere = true -> in_ranges tab c = false) as Ht.
  { intros tab Ha; destruct (in_ranges tab c) eqn:E; [|reflexivity]; exfalso; apply in_ranges_set in E; eapply apart_in; eassumption. }
  destruct sc; try contradiction; cbn [script_is]; [apply Ht; vm_compute; reflexivity| |apply Ht; vm_compute; reflexivity..].
  unfold is_mark; rewrite (Ht tab_cyrillic) by (vm_compute; reflexivity); apply Ht; vm_compute; reflexivity.
Qed.
Lemma elsewhere_space c : in_ranges elsewhere c = true -> is_space c = false.
Proof.
  intros Hc; apply in_ranges_set in Hc; destruct (is_space c) eqn:E; [|reflexivity]; exfalso.
  refine (apart_in [(9, 13); (32, 32); (0x85, 0x85); (0xA0, 0xA0); (0x1680, 0x1680); (0x2000, 0x200A); (0x2028, 0x2029);
                    (0x202F, 0x202F); (0x205F, 0x205F); (0x3000, 0x3000)] elsewhere c eq_refl _ Hc).
  unfold is_space in E; unfold in_set; cbn [existsb fst snd]; unfold rune in *; destruct (c <=? 0xFF); lia.
Qed.
Lemma elsewhere_scalar c : in_ranges elsewhere c = true -> is_scalar c = true.
Proof.
  intros Hc; apply in_ranges_set in Hc; unfold in_set, elsewhere in Hc; cbn [existsb fst snd] in Hc; unfold is_scalar; unfold rune in *; lia.
Qed.

(** ** What the normalization makes of a text *)
Definition normal_runes (s : spec) (rs : list rune) : list rune := concat (map (norm_char s) rs).
Lemma normal_runes_app s a b : normal_runes s (a ++ b) = normal_runes s a ++ normal_runes s b.
Proof. unfold normal_runes; rewrite map_app, concat_app; reflexivity. Qed.
Lemma norm_char_one s c : is_scalar c = true -> ~ In c (flat_map (fun p => runes (fst p)) (s_normReplacer s)) ->
  norm_char s c = [norm_rune s c].
Proof.
  intros Hc Hn; unfold norm_char; rewrite sub_plain by assumption.
  replace (encode_rune c) with (encode [c]) by apply app_nil_r; rewrite runes_encode by (repeat constructor; exact Hc); reflexivity.
Qed.
Lemma norm_rune_scalar s c : is_scalar c = true -> is_scalar (norm_rune s c) = true.
Proof.
  intros Hc; unfold norm_rune; destruct (nmem c (s_normLetters s)); [exact Hc|]; cbn [orb].
  destruct (script_is (s_script s) c) eqn:E; [apply normalize_scalar; exact E|exact Hc].
Qed.
Lemma norm_char_scalars s c : scalars (norm_char s c).
Proof.
  unfold norm_char, scalars; apply Forall_map; pose proof (runes_scalar (sub (s_normReplacer s) c)) as H; eapply Forall_impl; [|exact H].
  intros a Ha; apply norm_rune_scalar; exact Ha.
Qed.
Lemma normal_runes_scalars s rs : scalars (normal_runes s rs).
Proof.
  unfold normal_runes, scalars; induction rs as [|c rs IH]; [constructor|]; cbn [map concat]; apply Forall_app; split; [apply norm_char_scalars|exact IH].
Qed.
Lemma norm_rune_meaningful s c : meaningful s c = true -> meaningful s (norm_rune s c) = true.
Proof.
  intros Hm; unfold norm_rune; destruct (nmem c (s_normLetters s)); [exact Hm|]; cbn [orb].
  destruct (script_is (s_script s) c) eqn:E; [|exact Hm]; cbn [negb]; unfold meaningful; rewrite normalize_in_script by exact E; reflexivity.
Qed.

(** The parts of [spec_separates]. *)
Lemma separates_script s : spec_separates s = true -> l_translit (s_lang s) = [] -> s_script s <> Hrkt.
Proof. unfold spec_separates; intros H Hl E; rewrite E, Hl in H; discriminate. Qed.
Lemma separates_parts s : spec_separates s = true -> s_script s <> Hrkt ->
  s_script s <> Hrkt /\
  Forall (fun r => deaf elsewhere (prog (p_re (rule_from r))) = true) (s_rewrite s) /\
  (forall k v, In (k, v) (s_normReplacer s) -> single_key (k, v) = true /\ edges_kept s v = true /\
     forall c, In c (runes k) -> in_ranges elsewhere c = false) /\
  (forall c, In c (s_puncts s) -> in_ranges elsewhere c = false).
Proof.
  unfold spec_separates; intros H Hl; destruct (s_script s) eqn:Es; try contradiction; (split; [discriminate|]);
    apply andb_true_iff in H; destruct H as [H Hp]; apply andb_true_iff in H; destruct H as [Hr Hk];
    rewrite forallb_forall in Hr, Hk, Hp; (split; [apply Forall_forall; exact Hr|]); (split; [|intros c Hin; apply negb_true_iff, Hp, Hin]);
    intros k v Hin; specialize (Hk _ Hin); cbn [fst snd] in Hk; apply andb_true_iff in Hk; destruct Hk as [Hk Hn];
    apply andb_true_iff in Hk; destruct Hk as [H1 H2]; (split; [exact H1|split; [exact H2|]]); intros c Hc;
    apply negb_true_iff in Hn; destruct (in_ranges elsewhere c) eqn:E; try reflexivity; exfalso;
    rewrite <- not_true_iff_false in Hn; apply Hn, existsb_exists; exists c; split; assumption.
Qed.

Lemma norm_char_edges s c : spec_separates s = true -> s_script s <> Hrkt -> is_scalar c = true -> meaningful s c = true ->
  exists a b, hd_error (norm_char s c) = Some a /\ hd_error (rev (norm_char s c)) = Some b /\ meaningful s a = true /\ meaningful s b = true.
Proof.
  intros Hsep Hl Hc Hm; destruct (separates_parts s Hsep Hl) as (_ & _ & Hk & _).
  unfold norm_char, sub; destruct (List.find _ (s_normReplacer s)) as [[k v]|] eqn:E.
  - apply List.find_some in E; destruct E as [Hin _]; destruct (Hk k v Hin) as (_ & He & _); unfold edges_kept in He.
    rewrite <- map_rev; destruct (runes v) as [|a l]; [discriminate|]; destruct (rev (a :: l)) as [|b l']; [discriminate|].
    cbn [map hd_error]; exists (norm_rune s a), (norm_rune s b); split; [reflexivity|]; split; [reflexivity|].
    destruct (meaningful s (norm_rune s a)); [split; [reflexivity|exact He]|discriminate].
  - replace (encode_rune c) with (encode [c]) by apply app_nil_r; rewrite runes_encode by (repeat constructor; exact Hc).
    cbn [map rev app hd_error]; exists (norm_rune s c), (norm_rune s c); pose proof (norm_rune_meaningful s c Hm); auto.
Qed.
Lemma normal_edges s u v : spec_separates s = true -> s_script s <> Hrkt -> scalars u -> scalars v -> edge_meaningful s u v ->
  edge_meaningful s (normal_runes s u) (normal_runes s v).
Proof.
  intros Hsep Hl Su Sv [Hu Hv]; split.
  - destruct u as [|x p] using rev_ind; [intros p c E; destruct p; discriminate|]; clear IHp.
    apply Forall_app in Su; destruct Su as [_ Sx]; inversion Sx as [|? ? Hx _]; subst.
    destruct (norm_char_edges s x Hsep Hl Hx (Hu p x eq_refl)) as (a & b & _ & Eb & _ & Mb).
    intros q c E; rewrite normal_runes_app in E; unfold normal_runes at 2 in E; cbn [map concat] in E; rewrite app_nil_r in E.
    destruct (norm_char s x) as [|y l] eqn:En using rev_ind; [discriminate|]; clear IHl.
    rewrite rev_app_distr in Eb; cbn [rev app hd_error] in Eb; injection Eb as ->.
    rewrite app_assoc in E; apply app_inj_tail in E; destruct E as [_ <-]; exact Mb.
  - destruct v as [|x p]; [intros c p E; discriminate|]; inversion Sv as [|? ? Hx _]; subst.
    destruct (norm_char_edges s x Hsep Hl Hx (Hv x p eq_refl)) as (a & b & Ea & _ & Ma & _).
    intros c q E; unfold normal_runes in E; cbn [map concat] in E; destruct (norm_char s x) as [|y l]; [discriminate|].
    injection Ea as ->; injection E as <- _; exact Ma.
Qed.

(** ** Characters from elsewhere *)
Lemma elsewhere_meaningful s c : spec_separates s = true -> s_script s <> Hrkt -> in_ranges elsewhere c = true -> meaningful s c = false.
Proof.
  intros Hsep Hl Hc; destruct (separates_parts s Hsep Hl) as (Hsc & _ & _ & Hp); unfold meaningful.
  rewrite elsewhere_script by assumption; destruct (nmem c (s_puncts s)) eqn:E.
  - apply nmem_in_iff in E; rewrite (Hp _ E) in Hc; discriminate.
  - cbn [orb]; unfold has_space_only; destruct (encode_rune c) eqn:Ee; [reflexivity|]; rewrite <- Ee.
    replace (encode_rune c) with (encode [c]) by apply app_nil_r.
    rewrite runes_encode by (repeat constructor; apply elsewhere_scalar; exact Hc); cbn [forallb]; rewrite elsewhere_space by exact Hc; reflexivity.
Qed.
Lemma elsewhere_normal s run : spec_separates s = true -> s_script s <> Hrkt -> Forall (fun c => in_ranges elsewhere c = true) run ->
  normal_runes s run = run.
Proof.
  intros Hsep Hl Hf; destruct (separates_parts s Hsep Hl) as (Hsc & _ & Hk & _).
  induction Hf as [|c run Hc Hf IH]; [reflexivity|]; unfold normal_runes in *; cbn [map concat]; rewrite IH.
  rewrite norm_char_one; [|apply elsewhere_scalar; exact Hc|].
  - unfold norm_rune; rewrite elsewhere_script by assumption; cbn [negb]; rewrite orb_true_r; reflexivity.
  - intros Hin; apply in_flat_map in Hin; destruct Hin as ([k v] & Hin & Hr); cbn [fst] in Hr.
    destruct (Hk k v Hin) as (_ & _ & Hno); rewrite (Hno c Hr) in Hc; discriminate.
Qed.

(** Outside of Japanese, localization only drops zero width spaces. *)
Lemma localize_drops sc prev rs : sc <> Hrkt -> localize_loop sc prev rs = filter (fun c => negb (c =? 0x200B)) rs.
Proof.
  intros Hn; revert prev; induction rs as [|c rs IH]; intros prev; cbn [localize_loop filter]; [reflexivity|].
  destruct (c =? 0x200B); cbn [negb]; [apply IH|]; destruct (is_punct c) eqn:Ep; cbn [negb]; [|rewrite IH; reflexivity].
  assert (localize_punct sc c = [c]) as -> by (destruct sc; try reflexivity; contradiction).
  pose proof (punct_not_space c Ep) as Hs; cbv zeta.
  assert (trim_left_r is_space [c] = [c]) as -> by (cbn; rewrite Hs; reflexivity).
  assert (trim_right_r is_space [c] = [c]) as E by (unfold trim_right_r; cbn; rewrite Hs; reflexivity).
  destruct prev, rs; cbn [app]; rewrite ?E; try (destruct (ps _)); rewrite IH; reflexivity.
Qed.
