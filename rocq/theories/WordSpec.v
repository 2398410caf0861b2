(** A spec whose rules look at one word at a time. *)
From Coq Require Import Lia List Bool ZArith.
From Verif Require Import GoBase Utf8 Utf8Facts UniTables Unicode Replacer ReplacerFacts Regex RegexSpec RegexFacts CaptureFacts Hre FindFacts Subword SubwordFacts
  Rule RuleFacts Scripts Spec Jamo JamoFacts Procedure ProcFacts MaskFacts ProcSem ProcLocal ProcChars LocalizeFacts ScriptFacts CaseFacts SeparateFacts
  WordFacts WordScan WordRules WordProc.
Import ListNotations.
Open Scope Z_scope.

(** The check of a spec: its patterns look at one word at a time ([wordwise_pattern], WordScan.v),
    its rewrite rules write no spaces, and its section normalize does not speak about the space
    and makes of a character one or more characters of the language, no spaces. *)
Definition no_space (t : bytes) : bool := forallb (fun c => negb (is_space c)) (runes t).
Definition rule_words (r : rule) : bool := wordwise_pattern (rule_from r).
Definition norm_words (s : spec) (p : bytes * bytes) : bool :=
  single_key p && negb (nmem 0x20 (runes (fst p))) &&
  match runes (snd p) with
  | [] => false
  | rs => forallb (fun c => meaningful s (norm_rune s c) && negb (is_space (norm_rune s c))) rs
  end.
Definition spec_words (s : spec) : bool :=
  match s_script s with
  | Hrkt => false
  | _ =>
    forallb (fun r => rule_words r && forallb no_space (rule_texts r)) (s_rewrite s) &&
    forallb rule_words (s_transcribe s) && forallb (norm_words s) (s_normReplacer s)
  end.

Lemma words_parts s : spec_words s = true ->
  s_script s <> Hrkt /\
  Forall (fun r => wordwise_pattern (rule_from r) = true /\ forall c, char_of (rule_texts r) c -> is_space c = false) (s_rewrite s) /\
  Forall (fun r => wordwise_pattern (rule_from r) = true) (s_transcribe s) /\
  (forall p, In p (s_normReplacer s) -> norm_words s p = true).
Proof.
  unfold spec_words; intros H; destruct (s_script s) eqn:Es; try discriminate; (split; [discriminate|]);
    apply andb_true_iff in H; destruct H as [H Hn]; apply andb_true_iff in H; destruct H as [Hr Ht];
    rewrite forallb_forall in Hr, Ht, Hn; (split; [|split; [apply Forall_forall; exact Ht|exact Hn]]);
    apply Forall_forall; intros r Hin; specialize (Hr r Hin); apply andb_true_iff in Hr; destruct Hr as [Hw Hx]; (split; [exact Hw|]);
    intros c (t & Hint & Hc); rewrite forallb_forall in Hx; specialize (Hx t Hint); unfold no_space in Hx; rewrite forallb_forall in Hx;
    apply negb_true_iff, Hx; exact Hc.
Qed.

(** ** Normalization *)
Lemma script_space sc c : sc <> Hrkt -> script_is sc c = true -> is_space c = false.
Proof.
  intros Hn Hs; destruct (is_space c) eqn:E; [|reflexivity]; exfalso; apply is_space_in in E.
  assert (forallb (fun x => negb (script_is sc x)) space_list = true) as Hl by (destruct sc; try contradiction; vm_compute; reflexivity).
  rewrite forallb_forall in Hl; specialize (Hl c E); rewrite Hs in Hl; discriminate.
Qed.
Definition word_char (s : spec) (c : rune) : Prop := meaningful s c = true /\ is_space c = false.
Lemma norm_rune_word s c : s_script s <> Hrkt -> word_char s c -> word_char s (norm_rune s c).
Proof.
  intros Hsc [Hm Hn]; split; [apply norm_rune_meaningful; exact Hm|].
  unfold norm_rune; destruct (nmem c (s_normLetters s)); [exact Hn|]; cbn [orb].
  destruct (script_is (s_script s) c) eqn:E; cbn [negb]; [|exact Hn].
  apply (script_space (s_script s)); [exact Hsc|]; apply normalize_in_script; exact E.
Qed.
Lemma norm_char_word s c : spec_words s = true -> is_scalar c = true -> word_char s c ->
  norm_char s c <> [] /\ Forall (word_char s) (norm_char s c).
Proof.
  intros Hw Hc Hm; destruct (words_parts s Hw) as (Hsc & _ & _ & Hk).
  unfold norm_char, CaseFacts.sub; destruct (List.find _ (s_normReplacer s)) as [[k v]|] eqn:E.
  - apply List.find_some in E; destruct E as [Hin _]; specialize (Hk _ Hin); unfold norm_words in Hk; cbn [fst snd] in Hk.
    apply andb_true_iff in Hk; destruct Hk as [_ Hk]; destruct (runes v) as [|a l]; [discriminate|]; split; [discriminate|].
    rewrite forallb_forall in Hk; apply Forall_map, Forall_forall; intros x Hx; specialize (Hk x Hx).
    apply andb_true_iff in Hk; destruct Hk as [H1 H2]; split; [exact H1|apply negb_true_iff; exact H2].
  - replace (encode_rune c) with (encode [c]) by apply app_nil_r; rewrite runes_encode by (repeat constructor; exact Hc).
    cbn [map]; split; [discriminate|]; constructor; [|constructor]; apply norm_rune_word; assumption.
Qed.
Lemma normal_word s u : spec_words s = true -> scalars u -> Forall (word_char s) u -> Forall (word_char s) (normal_runes s u).
Proof.
  intros Hw Hs Hu; induction Hu as [|c u Hc Hu IH]; [constructor|]; inversion Hs; subst; unfold normal_runes; cbn [map concat].
  apply Forall_app; split; [apply norm_char_word; assumption|apply IH; assumption].
Qed.
Lemma norm_char_sp s : spec_words s = true -> norm_char s sp = [sp].
Proof.
  intros Hw; destruct (words_parts s Hw) as (Hsc & _ & _ & Hk); rewrite norm_char_one; [|reflexivity|].
  - f_equal; unfold norm_rune; destruct (nmem sp (s_normLetters s)); [reflexivity|]; cbn [orb].
    assert (script_is (s_script s) sp = false) as -> by (destruct (s_script s); try contradiction; reflexivity); reflexivity.
  - intros Hin; apply in_flat_map in Hin; destruct Hin as (p & Hp & Hc); specialize (Hk p Hp); unfold norm_words in Hk.
    apply andb_true_iff in Hk; destruct Hk as [Hk _]; apply andb_true_iff in Hk; destruct Hk as [_ Hk]; apply negb_true_iff in Hk.
    unfold nmem in Hk; rewrite <- not_true_iff_false in Hk; apply Hk, existsb_exists; exists sp; split; [exact Hc|reflexivity].
Qed.

(** ** Words with spaces between them *)
Fixpoint spaced (ws : list (list N)) : list N :=
  match ws with
  | [] => []
  | [w] => w
  | w :: ws' => w ++ 0x20%N :: spaced ws'
  end.
Lemma spaced_cons w ws : ws <> [] -> spaced (w :: ws) = w ++ 0x20%N :: spaced ws.
Proof. destruct ws; [contradiction|reflexivity]. Qed.
Fixpoint joins (cs : list cells) : cells :=
  match cs with
  | [] => []
  | [c] => c
  | c :: cs' => joined c (joins cs')
  end.
Lemma joins_cons c cs : cs <> [] -> joins (c :: cs) = joined c (joins cs).
Proof. destruct cs; [contradiction|reflexivity]. Qed.
Definition ones (rs : list rune) : cells := map (fun x => (x, 1)) rs.
Lemma ones_spaced ws : joins (map ones ws) = ones (spaced ws).
Proof.
  induction ws as [|w ws IH]; [reflexivity|]; destruct ws as [|w2 ws]; [reflexivity|].
  cbn [map]; rewrite joins_cons by discriminate; rewrite spaced_cons by discriminate; cbn [map] in IH; rewrite IH.
  unfold ones, joined; rewrite map_app; reflexivity.
Qed.
Lemma normal_spaced s ws : spec_words s = true -> normal_runes s (spaced ws) = spaced (map (normal_runes s) ws).
Proof.
  intros Hw; induction ws as [|w ws IH]; [reflexivity|]; destruct ws as [|w2 ws]; [reflexivity|].
  cbn [map]; rewrite !spaced_cons by discriminate; rewrite normal_runes_app; cbn [map] in IH; f_equal.
  change (0x20%N :: spaced (w2 :: ws)) with ([sp] ++ spaced (w2 :: ws)); rewrite normal_runes_app, IH.
  assert (normal_runes s [sp] = [sp]) as -> by (unfold normal_runes; cbn [map concat]; rewrite (norm_char_sp s Hw); reflexivity); reflexivity.
Qed.

Lemma white_space c : white c = true -> is_space c = true.
Proof. intros H; apply white_in in H; cbn [whites In] in H; repeat (destruct H as [<-|H]; [reflexivity|]); contradiction. Qed.
Lemma unspaced_encode c : is_space c = false -> unspaced (encode_rune c).
Proof.
  intros H.
  assert (forall b : N, (0x80 <= b)%N -> white b = false) as Hb.
  { intros b Hb; destruct (white b) eqn:E; [|reflexivity]; apply white_in in E; cbn [whites In] in E; unfold rune in *.
    repeat (destruct E as [<-|E]; [lia|]); contradiction. }
  unfold unspaced, encode_rune; destruct (c <=? 0x7F)%N.
  - constructor; [|constructor]; destruct (white c) eqn:E; [apply white_space in E; congruence|reflexivity].
  - repeat match goal with |- context [if ?b then _ else _] => destruct b end;
      repeat (constructor; [apply Hb; unfold rune in *; lia|]); constructor.
Qed.
Lemma unspaced_word c : Forall (fun x => is_space (fst x) = false) c -> unspaced (word_of c).
Proof.
  induction 1 as [|x c Hx Hc IH]; [constructor|]; change (x :: c) with ([x] ++ c); rewrite word_of_app.
  apply Forall_app; split; [|exact IH]; unfold word_of, encode; cbn [map flat_map]; rewrite app_nil_r; apply unspaced_encode; exact Hx.
Qed.
Lemma unspaced_seen c : quiet c -> unspaced (seen_by_transcribe c).
Proof.
  unfold seen_by_transcribe; induction 1 as [|[x l] c Hx Hc IH]; [constructor|]; change ((x, l) :: c) with ([(x, l)] ++ c).
  rewrite mark_app, visible_app; apply Forall_app; split; [|exact IH]; unfold ProcChars.mark; cbn [flat_map fst snd]; rewrite app_nil_r.
  cbn [fst snd] in Hx; destruct (l =? 2) eqn:E.
  - rewrite visible_marked; clear; induction (length (encode_rune x)) as [|n IH]; [constructor|]; cbn [repeat]; constructor; [reflexivity|exact IH].
  - rewrite visible_kept; apply unspaced_encode; destruct Hx as [Hx|Hx]; [lia|exact Hx].
Qed.

(** ** The phases *)
Lemma words_worked s ts : spec_words s = true -> Forall good_rule (s_rewrite s) -> Forall good_transcribe (s_transcribe s) ->
  ts <> [] -> Forall scalars ts -> Forall (Forall (word_char s)) ts ->
  exists ds, Forall2 (fun t d => quiet d /\ exists c, worked word_of 1 (s_rewrite s) (ones t) c /\ worked seen_by_transcribe 2 (s_transcribe s) c d) ts ds /\
    exists c, worked word_of 1 (s_rewrite s) (joins (map ones ts)) c /\ worked seen_by_transcribe 2 (s_transcribe s) c (joins ds).
Proof.
  intros Hw Hrw Htr Hne Hs Hc; destruct (words_parts s Hw) as (_ & Hr & Ht & _).
  assert (Forall (fun r => compiled (rule_from r) /\ rule_ok r = true /\ wordwise_pattern (rule_from r) = true /\
            forall c, char_of (rule_texts r) c -> is_space (fst (c, 1)) = false) (s_rewrite s)) as Gr.
  { rewrite Forall_forall in *; intros r Hin; destruct (Hr r Hin) as [H1 H2]; destruct (Hrw r Hin) as (H3 & H4 & _); auto. }
  assert (Forall (fun r => compiled (rule_from r) /\ rule_ok r = true /\ wordwise_pattern (rule_from r) = true /\
            forall c, char_of (rule_texts r) c -> snd (c, 2) = 2 \/ is_space (fst (c, 2)) = false) (s_transcribe s)) as Gt.
  { rewrite Forall_forall in *; intros r Hin; destruct (Htr r Hin) as [(H3 & H4 & _) _]; specialize (Ht r Hin); auto. }
  assert (forall c, Forall (fun x : rune * Z => is_space (fst x) = false) c -> quiet c) as Hq.
  { intros c H; eapply Forall_impl; [|exact H]; cbv beta; auto. }
  assert (forall t, scalars t -> Forall (word_char s) t -> exists c d,
    worked word_of 1 (s_rewrite s) (ones t) c /\ worked seen_by_transcribe 2 (s_transcribe s) c d /\
    Forall (fun x : rune * Z => is_space (fst x) = false) (ones t) /\ quiet c /\ quiet d) as Hone.
  { intros t Hst Hct; destruct (rewrite_worked (s_rewrite s) (ones t) Hrw (const_scalar _ _ Hst)) as (c & Wc).
    assert (Forall (fun x : rune * Z => is_space (fst x) = false) (ones t)) as Ho.
    { unfold ones; apply Forall_map; eapply Forall_impl; [|exact Hct]; intros x [_ Hx]; exact Hx. }
    destruct (transcribe_worked (s_transcribe s) c Htr) as (d & Wd); [eapply worked_scalar; [exact Wc|apply const_scalar; exact Hst]|].
    exists c, d; split; [exact Wc|]; split; [exact Wd|]; split; [exact Ho|].
    assert (quiet c) as Qc by (apply Hq; eapply (worked_joined word_of 1 _ _ joined_word (fun c => eq_refl) unspaced_word Gr); eassumption).
    split; [exact Qc|]; eapply (worked_joined seen_by_transcribe 2 _ _ joined_visible visible_len unspaced_seen Gt); eassumption. }
  induction ts as [|t ts IH]; [contradiction|]; inversion Hs as [|? ? Hs1 Hs2]; inversion Hc as [|? ? Hc1 Hc2]; subst.
  destruct (Hone t Hs1 Hc1) as (c & d & Wc & Wd & Ho & Qc & Qd).
  destruct ts as [|t2 ts].
  - exists [d]; split; [constructor; [|constructor]; split; [exact Qd|]; exists c; auto|]; exists c; auto.
  - destruct (IH ltac:(discriminate) Hs2 Hc2) as (ds & F & c2 & W1 & W2).
    exists (d :: ds); split; [constructor; [|exact F]; split; [exact Qd|]; exists c; auto|].
    assert (ds <> []) as Hds by (inversion F; discriminate).
    exists (joined c c2); cbn [map] in *; rewrite (joins_cons (ones t)) by discriminate; rewrite (joins_cons d ds Hds); split.
    + apply (worked_joined word_of 1 _ _ joined_word (fun c => eq_refl) unspaced_word Gr); assumption.
    + apply (worked_joined seen_by_transcribe 2 _ _ joined_visible visible_len unspaced_seen Gt); assumption.
Qed.

(** Words of which some empty ones are left out, never the last one. *)
Inductive thin : list (list N) -> list (list N) -> Prop :=
| thin_nil : thin [] []
| thin_keep r rs rs' : thin rs rs' -> thin (r :: rs) (r :: rs')
| thin_drop rs rs' : rs <> [] -> thin rs rs' -> thin ([] :: rs) rs'.
Lemma thin_nonempty rs rs' : thin rs rs' -> rs <> [] -> rs' <> [].
Proof. induction 1; intros Hne; [contradiction|discriminate|auto]. Qed.
Lemma thin_forall (P : list N -> Prop) rs rs' : thin rs rs' -> Forall P rs -> Forall P rs'.
Proof. induction 1 as [|r rs rs' H IH|rs rs' Hne H IH]; intros HF; [constructor| |]; inversion HF; subst; [constructor|]; auto. Qed.
Lemma thin_map f rs rs' : f [] = [] -> thin rs rs' -> thin (map f rs) (map f rs').
Proof.
  intros Hf; induction 1 as [|r rs rs' H IH|rs rs' Hne H IH]; cbn [map]; [constructor|constructor; exact IH|].
  rewrite Hf; apply thin_drop; [destruct rs; [contradiction|discriminate]|exact IH].
Qed.
Lemma thin_full rs rs' : thin rs rs' -> (forall a r b, rs = a ++ r :: b -> b <> [] -> r <> []) -> rs' = rs.
Proof.
  induction 1 as [|r rs rs' H IH|rs rs' Hne H IH]; intros Hf; [reflexivity| |].
  - f_equal; apply IH; intros a x b -> Hb; apply (Hf (r :: a) x b); [reflexivity|exact Hb].
  - exfalso; exact (Hf [] [] rs eq_refl Hne eq_refl).
Qed.
Lemma gist_thin t : Forall quiet t -> t <> [] -> exists gs, thin (map (gist false) t) gs /\ gist true (joins t) = sp :: spaced gs.
Proof.
  induction 1 as [|d t Hd Ht IH]; [contradiction|]; intros _; destruct t as [|d2 t].
  - exists [gist false d]; split; [constructor; constructor|apply quiet_opens; exact Hd].
  - destruct (IH ltac:(discriminate)) as (gs & Hg & E).
    assert (gs <> []) as Hne by (eapply thin_nonempty; [exact Hg|discriminate]).
    rewrite joins_cons by discriminate; rewrite gist_joined by exact Hd; cbn [map]; destruct (gist false d) as [|x g] eqn:Eg.
    + exists gs; split; [apply thin_drop; [discriminate|exact Hg]|exact E].
    + exists ((x :: g) :: gs); split; [apply thin_keep; exact Hg|]; rewrite spaced_cons by exact Hne; rewrite E; reflexivity.
Qed.
Lemma gist_joins ds : Forall quiet ds -> ds <> [] ->
  exists gs, thin (map (gist false) (tl ds)) gs /\ gist false (joins ds) = spaced (gist false (hd [] ds) :: gs).
Proof.
  intros Hq Hne; destruct ds as [|d t]; [contradiction|]; cbn [hd tl]; inversion Hq as [|? ? Hd Ht]; subst; destruct t as [|d2 t].
  - exists []; split; [constructor|reflexivity].
  - destruct (gist_thin (d2 :: t) Ht ltac:(discriminate)) as (gs & Hg & E); exists gs; split; [exact Hg|].
    assert (gs <> []) as Hn by (eapply thin_nonempty; [exact Hg|discriminate]).
    rewrite joins_cons by discriminate; rewrite gist_joined by exact Hd; rewrite spaced_cons by exact Hn; rewrite E; reflexivity.
Qed.

Lemma gist_scalars c b : scalar_cells c -> scalars (gist b c).
Proof.
  intros Hc; unfold scalar_cells in Hc; revert b; induction c as [|[x l] c IH]; intros b; cbn [gist].
  - destruct b; repeat constructor.
  - inversion Hc; subst; destruct (l =? 2); [|apply IH; assumption].
    apply Forall_app; split; [destruct b; repeat constructor|]; constructor; [assumption|apply IH; assumption].
Qed.
Lemma compose_spaced H gs : hl_is_hangul H 0x20%N = false -> Forall scalars gs ->
  compose_hangul H (encode (spaced gs)) = spaced (map (fun g => compose_hangul H (encode g)) gs).
Proof.
  intros Hh; assert (forall gs, Forall scalars gs -> scalars (spaced gs)) as Hsp.
  { induction 1 as [|g t Hg Ht IH]; [constructor|]; destruct t; [exact Hg|]; rewrite spaced_cons by discriminate.
    apply Forall_app; split; [exact Hg|]; constructor; [reflexivity|exact IH]. }
  induction 1 as [|g t Hg Ht IH]; [reflexivity|]; destruct t as [|g2 t]; [reflexivity|].
  rewrite spaced_cons by discriminate.
  rewrite compose_hangul_split; [|exact Hh|discriminate|exact Hg|reflexivity|apply Hsp; exact Ht].
  refine (eq_trans (f_equal (fun z => compose_hangul H (encode g) ++ encode [0x20%N] ++ z) IH) _).
  symmetry; apply (spaced_cons (compose_hangul H (encode g))); discriminate.
Qed.
Lemma localize_spaced sc bs : sc <> Hrkt -> Forall utf8_text bs -> localize_word sc (spaced bs) = spaced (map (localize_word sc) bs).
Proof.
  intros Hsc; induction 1 as [|b t Hb Ht IH]; [|destruct t as [|b2 t]]; [destruct sc; reflexivity|reflexivity|].
  rewrite spaced_cons by discriminate.
  assert (localize_word sc (b ++ 0x20%N :: spaced (b2 :: t)) = localize_word sc b ++ [0x20%N] ++ localize_word sc (spaced (b2 :: t))) as E.
  { unfold localize_word; rewrite !localize_drops by exact Hsc; rewrite runes_app_text by exact Hb; rewrite filter_app, encode_app; f_equal. }
  refine (eq_trans E _); refine (eq_trans (f_equal (fun z => localize_word sc b ++ [0x20%N] ++ z) IH) _).
  symmetry; apply (spaced_cons (localize_word sc b)); discriminate.
Qed.

(** What is returned for a phrase of the language is what is returned for its words, but for
    empty ones between the first and the last. *)
Lemma phases_words H s ws rs : hl_is_hangul H 0x20%N = false ->
  spec_words s = true -> Forall good_rule (s_rewrite s) -> Forall good_transcribe (s_transcribe s) ->
  ws <> [] -> Forall (fun u => scalars u /\ Forall (word_char s) u) ws ->
  Forall2 (fun u r => after_translit H s None (encode u) = Ok (None, r)) ws rs ->
  exists rs', thin (tl rs) rs' /\ after_translit H s None (encode (spaced ws)) = Ok (None, spaced (hd [] rs :: rs')).
Proof.
  intros Hh Hw Hrw Htr Hne Hws Hres; destruct (words_parts s Hw) as (Hsc & _ & _ & Hk).
  assert (forallb single_key (s_normReplacer s) = true) as Hkey.
  { apply forallb_forall; intros p Hin; specialize (Hk p Hin); unfold norm_words in Hk.
    apply andb_true_iff in Hk; destruct Hk as [Hk _]; apply andb_true_iff in Hk; apply Hk. }
  assert (forall u, scalars u -> snd (normalize s None (encode u)) = encode (normal_runes s u)) as Hnorm by (intros u Hu; apply normalize_chars; assumption).
  set (ts := map (normal_runes s) ws).
  assert (ts <> []) as Htne by (destruct ws; [contradiction|discriminate]).
  assert (Forall scalars ts) as Hts by (apply Forall_map, Forall_forall; intros u _; apply normal_runes_scalars).
  assert (Forall (Forall (word_char s)) ts) as Htw.
  { apply Forall_map; eapply Forall_impl; [|exact Hws]; cbv beta; intros u (H2 & H3); apply normal_word; assumption. }
  destruct (words_worked s ts Hw Hrw Htr Htne Hts Htw) as (ds & F & c & W1 & W2).
  set (after := fun d => localize_word (s_script s) (compose_hangul H (encode (gist false d)))).
  assert (rs = map after ds) as Ers.
  { subst ts; clear - F Hres Hws Hnorm Hrw Htr Hw; revert ds F; induction Hres as [|u r ws rs Hr Hres IH]; intros ds F; inversion F as [|? d ? ds' (Qd & c & W1 & W2) F']; subst; [reflexivity|].
    inversion Hws as [|? ? (H2 & H3) Hws']; subst; cbn [map]; f_equal; [|apply IH; assumption].
    rewrite after_translit_inner, Hnorm in Hr by exact H2.
    pose proof (normal_word s u Hw H2 H3) as N2.
    rewrite (inner_text H s (normal_runes s u) c d) in Hr; try assumption; [|apply normal_runes_scalars|eapply Forall_impl; [|exact N2]; intros x [Hx _]; exact Hx].
    cbn [bind] in Hr; injection Hr as <-; reflexivity. }
  assert (scalars (spaced ws)) as Hsw.
  { clear - Hws; induction Hws as [|u ws (Hu & _) Hws IH]; [constructor|]; destruct ws; [exact Hu|]; rewrite spaced_cons by discriminate.
    apply Forall_app; split; [exact Hu|]; constructor; [reflexivity|exact IH]. }
  assert (Forall quiet ds) as Hq by (clear - F; induction F as [|? ? ? ? [Hq _] F IH]; constructor; assumption).
  assert (scalars (spaced ts)) as Hst by (unfold ts; rewrite <- normal_spaced by exact Hw; apply normal_runes_scalars).
  assert (Forall scalars (map (gist false) ds)) as Hgs.
  { apply Forall_map; clear - F Hts; induction F as [|t d ts ds (_ & c & W1 & W2) F IH]; [constructor|]; inversion Hts; subst; constructor; [|apply IH; assumption].
    apply gist_scalars; eapply worked_scalar; [exact W2|]; eapply worked_scalar; [exact W1|]; apply const_scalar; assumption. }
  assert (ds <> []) as Hdne by (destruct ds; [inversion F; subst; congruence|discriminate]).
  destruct (gist_joins ds Hq Hdne) as (gs & Hth & Eg).
  set (fin := fun g => localize_word (s_script s) (compose_hangul H (encode g))).
  exists (map fin gs); split.
  { rewrite Ers; destruct ds as [|d ds]; [contradiction|]; cbn [map tl] in *.
    change (map after ds) with (map (fun d => fin (gist false d)) ds); rewrite <- (map_map (gist false) fin).
    apply thin_map; [unfold fin; destruct (s_script s); reflexivity|exact Hth]. }
  assert (hd [] rs = fin (gist false (hd [] ds))) as Ehd by (rewrite Ers; destruct ds; [contradiction|reflexivity]).
  assert (Forall scalars (gist false (hd [] ds) :: gs)) as Hgs'.
  { destruct ds as [|d ds]; [contradiction|]; cbn [map hd tl] in *; inversion Hgs; subst; constructor; [assumption|].
    eapply thin_forall; [exact Hth|assumption]. }
  rewrite after_translit_inner, Hnorm by exact Hsw; rewrite normal_spaced by exact Hw; fold ts.
  rewrite (inner_text H s (spaced ts) c (joins ds)); try assumption.
  - cbn [bind]; do 2 f_equal.
    rewrite Eg; rewrite compose_spaced by assumption; rewrite localize_spaced; [|exact Hsc|].
    + rewrite Ehd, map_map; reflexivity.
    + apply Forall_map, Forall_forall; intros g _; apply encode_utf8_text.
  - clear - Htw; induction Htw as [|t ts Ht Hts IH]; [constructor|].
    assert (Forall (fun x => meaningful s x = true) t) as H0 by (eapply Forall_impl; [|exact Ht]; intros x [Hx _]; exact Hx).
    destruct ts; [exact H0|]; rewrite spaced_cons by discriminate; apply Forall_app; split; [exact H0|]; constructor; [|exact IH].
    unfold meaningful; rewrite orb_true_iff; right; reflexivity.
  - rewrite ones_spaced in W1; exact W1.
Qed.

(** The same for [forward], which transliterates before: the transliterators make of the
    words [us] the words [ws], and of the phrase a phrase. *)
Lemma forward_words {W} H s (reg : list (bytes * translit W)) w us ws rs : hl_is_hangul H 0x20%N = false ->
  spec_words s = true -> Forall good_rule (s_rewrite s) -> Forall good_transcribe (s_transcribe s) ->
  ws <> [] -> Forall (fun u => scalars u /\ Forall (word_char s) u) ws ->
  Forall2 (fun u v => transliterate (l_translit (s_lang s)) reg w None (encode u) = (w, None, Ok (encode v))) us ws ->
  transliterate (l_translit (s_lang s)) reg w None (encode (spaced us)) = (w, None, Ok (encode (spaced ws))) ->
  Forall2 (fun u r => forward H s reg false w (encode u) = (w, None, Ok r)) us rs ->
  exists rs', thin (tl rs) rs' /\ forward H s reg false w (encode (spaced us)) = (w, None, Ok (spaced (hd [] rs :: rs'))).
Proof.
  intros Hh Hw Hrw Htr Hne Hws Ht Hp Hres.
  destruct (phases_words H s ws rs Hh Hw Hrw Htr Hne Hws) as (rs' & Hthin & E).
  - clear - Ht Hres; revert rs Hres; induction Ht as [|u v us ws Hu Ht IH]; intros rs Hres; inversion Hres as [|? r ? rs0 Hr Hres']; subst; constructor; [|apply IH; exact Hres'].
    unfold forward in Hr; cbn [new_tracer trace_word emit] in Hr; rewrite Hu in Hr.
    destruct (after_translit H s None (encode v)) as [[tr x]| | | | |]; cbn [map_res snd] in Hr; try discriminate; injection Hr as -> ->; reflexivity.
  - exists rs'; split; [exact Hthin|]; unfold forward; cbn [new_tracer trace_word emit]; rewrite Hp, E; reflexivity.
Qed.
