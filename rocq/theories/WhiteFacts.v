(** Tabs and line breaks are to the rules what spaces are. *)
From Coq Require Import Lia List Bool ZArith.
From Verif Require Import GoBase Utf8 Utf8Facts UniTables Unicode Replacer ReplacerFacts Regex RegexSpec RegexFacts CaptureFacts Hre FindFacts Subword SubwordFacts
  Rule RuleFacts Scripts Spec Jamo JamoFacts Procedure ProcFacts MaskFacts ProcSem ProcLocal ProcChars LocalizeFacts ScriptFacts CaseFacts SeparateFacts
  WordFacts WordScan WordRules WordProc WordSpec.
Import ListNotations.
Open Scope Z_scope.

(** ** Expressions that do not tell white space from white space *)
Definition blend (c : N) : N := if white c then 0x20%N else c.
Fixpoint even (x : rx) : bool :=
  match x with
  | XSet ranges => forallb (in_set ranges) whites || forallb (fun c => negb (in_set ranges c)) whites
  | XCap _ r | XStar _ r => even r
  | XCat a b | XAlt a b => even a && even b
  | _ => true
  end.
Definition even_opt (e : option regexp) : bool := match e with None => true | Some e => even (prog e) end.
Definition whiteless (t : bytes) : bool := forallb (fun b => negb (white b)) t.
(** Nor do its variables contain white space. *)
Definition even_pattern (p : pattern) : bool :=
  even (prog (p_re p)) && even_opt (p_negA p) && even_opt (p_negB p) && forallb (forallb whiteless) (p_usedVars p).
Definition blended (c : N) : bool := (blend c =? c)%N.
Definition even_rule (r : rule) : bool :=
  even_pattern (rule_from r) && forallb (fun t => forallb blended (runes t)) (rule_texts r).
Definition even_key (p : bytes * bytes) : bool :=
  single_key p && forallb (fun c => negb (nmem c (runes (fst p)))) whites.
Definition spec_even (s : spec) : bool :=
  forallb even_rule (s_rewrite s) && forallb even_rule (s_transcribe s) && forallb even_key (s_normReplacer s).

Lemma white_blend c : white (blend c) = white c.
Proof. unfold blend; destruct (white c) eqn:E; [reflexivity|exact E]. Qed.
Lemma blend_plain c : white c = false -> blend c = c.
Proof. unfold blend; intros ->; reflexivity. Qed.
Lemma blend_high c : (0x80 <= c)%N -> blend c = c.
Proof.
  intros H; apply blend_plain; destruct (white c) eqn:E; [|reflexivity]; apply white_in in E; cbn [whites In] in E; unfold rune in *.
  repeat (destruct E as [<-|E]; [lia|]); contradiction.
Qed.
Lemma blend_low c : (c < 0x80)%N -> (blend c < 0x80)%N.
Proof. unfold blend; destruct (white c); unfold rune in *; lia. Qed.
Lemma blended_eq c : blended c = true -> blend c = c.
Proof. apply N.eqb_eq. Qed.

Definition bg (g : rune * nat) : rune * nat := (blend (fst g), snd g).
Definition bo (o : out) : out := let '(s, p, c) := o in (map bg s, p, c).
Lemma set_blend ranges c : even (XSet ranges) = true -> in_set ranges (blend c) = in_set ranges c.
Proof.
  unfold blend; destruct (white c) eqn:E; [|reflexivity]; cbn [even]; intros H; apply white_in in E.
  assert (In 0x20%N whites) as H0 by (cbn; tauto).
  apply orb_true_iff in H; rewrite !forallb_forall in H; destruct H as [H|H].
  - rewrite (H _ E), (H _ H0); reflexivity.
  - pose proof (H _ E) as H1; specialize (H _ H0); apply negb_true_iff in H, H1; rewrite H, H1; reflexivity.
Qed.
Lemma next_blend f f' s1 p1 c1 :
  (forall s p, f' (map bg s) p = map bo (f s p)) -> WordFacts.next f' (map bg s1, p1, c1) = map bo (WordFacts.next f (s1, p1, c1)).
Proof. intros H; cbn [WordFacts.next]; rewrite H, !map_map; apply map_ext; intros [[s2 p2] c2]; reflexivity. Qed.
Lemma outs_blend x : even x = true -> forall s p, outs x (map bg s) p = map bo (outs x s p).
Proof.
  induction x as [| |ranges| | |i r IH|a IHa b IHb|a IHa b IHb|g r IH]; intros Hb s p; cbn [outs].
  - reflexivity.
  - reflexivity.
  - destruct s as [|[ch w] s]; [reflexivity|]; cbn [map bg fst snd]; rewrite (set_blend ranges ch Hb); destruct (in_set ranges ch); reflexivity.
  - destruct p; reflexivity.
  - destruct s; reflexivity.
  - cbn [even] in Hb; rewrite IH by exact Hb; rewrite !map_map; apply map_ext; intros [[s1 p1] c1]; reflexivity.
  - cbn [even] in Hb; apply andb_true_iff in Hb; destruct Hb as [Ha Hb'].
    rewrite (IHa Ha), flat_map_map, map_flat_map; apply flat_map_ext; intros [[s1 p1] c1]; cbn [bo].
    apply next_blend; intros; apply IHb; exact Hb'.
  - cbn [even] in Hb; apply andb_true_iff in Hb; destruct Hb as [Ha Hb']; rewrite (IHa Ha), (IHb Hb'), map_app; reflexivity.
  - cbn [even] in Hb.
    assert (forall n s p, rounds (outs r) g n (map bg s) p = map bo (rounds (outs r) g n s p)) as H.
    { induction n as [|g0 n IHn]; intros s1 p1; [reflexivity|]; cbn [rounds].
      assert (flat_map (onward p1 (rounds (outs r) g n)) (outs r (map bg s1) p1)
              = map bo (flat_map (onward p1 (rounds (outs r) g n)) (outs r s1 p1))) as E.
      { rewrite (IH Hb), flat_map_map, map_flat_map; apply flat_map_ext; intros [[s2 p2] c2]; cbn [bo onward].
        destruct (p2 <=? p1)%nat; [reflexivity|]; apply (next_blend (rounds (outs r) g n)); intros; apply IHn. }
      rewrite E; destruct g; [rewrite map_app; reflexivity|reflexivity]. }
    rewrite H; f_equal; apply rounds_fuel; rewrite ?map_length; lia.
Qed.
Lemma search_blend x : even x = true -> forall s p, search x (map bg s) p = search x s p.
Proof.
  intros Hx; induction s as [|[ch w] s IH]; intros p.
  - reflexivity.
  - rewrite (search_step x (map bg ((ch, w) :: s))), (search_step x ((ch, w) :: s)); unfold first_end; rewrite (outs_blend x Hx).
    destruct (outs x ((ch, w) :: s) p) as [|[[s' p'] c] l]; cbn [map bo bg fst snd]; [apply IH|reflexivity].
Qed.

(** ** Texts *)
Notation blends := (map blend) (only parsing).
Lemma cont_blend b : is_cont (blend b) = is_cont b.
Proof.
  destruct (N.lt_ge_cases b 0x80) as [H|H]; [|rewrite blend_high by exact H; reflexivity].
  pose proof (blend_low b H); unfold is_cont; replace (0x80 <=? blend b)%N with false by lia; replace (0x80 <=? b)%N with false by lia; reflexivity.
Qed.
Lemma cont_high b : is_cont b = true -> blend b = b.
Proof. unfold is_cont; intros H; apply andb_true_iff in H; apply blend_high; lia. Qed.
Lemma decode_high s : (0x80 <= fst (decode_rune s))%N \/ exists b t, s = b :: t /\ decode_rune s = (b, 1%nat) /\ (b < 0x80)%N.
Proof.
  destruct s as [|b t]; [left; vm_compute; discriminate|]; destruct (N.lt_ge_cases (fst (decode_rune (b :: t))) 0x80) as [H|H]; [right|left; exact H].
  exists b, t; split; [reflexivity|]; pose proof (HslInv.decode_ascii b t H) as E; split; [exact E|]; rewrite E in H; exact H.
Qed.
Lemma decode_blend s : decode_rune (blends s) = bg (decode_rune s).
Proof.
  destruct s as [|b0 s]; [reflexivity|].
  destruct (N.lt_ge_cases b0 0x80) as [H|H].
  - cbn [map decode_rune]; pose proof (blend_low b0 H).
    replace (blend b0 <? 0x80)%N with true by lia; replace (b0 <? 0x80)%N with true by lia; reflexivity.
  - transitivity (decode_rune (b0 :: blends s)); [cbn [map]; rewrite blend_high by exact H; reflexivity|].
    assert (bg (decode_rune (b0 :: s)) = decode_rune (b0 :: s)) as ->.
    { destruct (decode_high (b0 :: s)) as [Hd|(b & t & E & _ & Hb)].
      - unfold bg; rewrite blend_high by exact Hd; destruct (decode_rune (b0 :: s)); reflexivity.
      - injection E as <- <-; lia. }
    cbn [decode_rune]; destruct (b0 <? 0x80)%N; [reflexivity|]; destruct (_ || _); [reflexivity|].
    destruct s as [|b1 s]; [reflexivity|]; cbn [map]; rewrite cont_blend.
    destruct (is_cont b1) eqn:E1; [rewrite (cont_high b1 E1)|]; cbn [andb].
    2:{ destruct (b0 <? 0xE0)%N; [reflexivity|]; destruct (b0 <? 0xF0)%N; reflexivity. }
    destruct (b0 <? 0xE0)%N; [reflexivity|]; destruct (b0 <? 0xF0)%N.
    + destruct (_ && _); [|reflexivity]; destruct s as [|b2 s]; [reflexivity|]; cbn [map]; rewrite cont_blend.
      destruct (is_cont b2) eqn:E2; [rewrite (cont_high b2 E2)|]; reflexivity.
    + destruct (_ && _); [|reflexivity]; destruct s as [|b2 [|b3 s]]; [reflexivity|reflexivity|]; cbn [map]; rewrite !cont_blend.
      destruct (is_cont b2) eqn:E2; [rewrite (cont_high b2 E2)|reflexivity].
      destruct (is_cont b3) eqn:E3; [rewrite (cont_high b3 E3)|]; reflexivity.
Qed.
Lemma glyphs_blend s : glyphs (blends s) = map bg (glyphs s).
Proof.
  revert s; apply (glyphs_ind (fun s => glyphs (blends s) = map bg (glyphs s))); [reflexivity|]; intros s Hn IH.
  rewrite (glyphs_step s Hn), glyphs_step by (destruct s; [contradiction|discriminate]); cbn [map].
  rewrite decode_blend; cbn [bg snd]; f_equal; rewrite skipn_map; exact IH.
Qed.
Lemma match_blend e s : even (prog e) = true -> match_string e (blends s) = match_string e s.
Proof. intros H; unfold match_string; rewrite glyphs_blend, search_blend by exact H; reflexivity. Qed.
Lemma find_blend e s : even (prog e) = true -> find_submatch_index e (blends s) = find_submatch_index e s.
Proof. intros H; unfold find_submatch_index; rewrite glyphs_blend, search_blend by exact H; reflexivity. Qed.
Lemma len_blend (s : bytes) : len (blends s) = len s.
Proof. unfold len; rewrite map_length; reflexivity. Qed.
Lemma substr_blend s i j : substr (blends s) i j = blends (substr s i j).
Proof.
  unfold substr; rewrite len_blend; destruct (_ || _); [reflexivity|]; destruct (len s <=? i); [reflexivity|].
  destruct (0 <? _); [|reflexivity]; rewrite skipn_map, firstn_map; reflexivity.
Qed.
Lemma slice_blend (s : bytes) i j : slice (blends s) i j = match slice s i j with Ok t => Ok (blends t) | r => r end.
Proof. unfold slice; rewrite len_blend; destruct (_ && _); [rewrite skipn_map, firstn_map|]; reflexivity. Qed.

(** ** Patterns and rules *)
Lemma even_parts p : even_pattern p = true -> even (prog (p_re p)) = true /\ even_opt (p_negA p) = true /\ even_opt (p_negB p) = true /\
  forallb (forallb whiteless) (p_usedVars p) = true.
Proof. unfold even_pattern; intros H; repeat (apply andb_true_iff in H; destruct H as [H ?]); auto. Qed.
Lemma negatives_blend p s m : even_pattern p = true -> negatives_allow p (blends s) m = negatives_allow p s m.
Proof.
  intros H; apply even_parts in H; destruct H as (_ & Ha & Hb & _); unfold negatives_allow; rewrite len_blend.
  assert (forall e i j, even_opt (Some e) = true -> match_string e (substr (blends s) i j) = match_string e (substr s i j)) as Hm.
  { intros e i j He; rewrite substr_blend; apply match_blend; exact He. }
  destruct (p_negA p) as [ea|].
  - destruct (index m _) as [st| | | | |]; cbn [bind]; try reflexivity; rewrite Hm by exact Ha; destruct (negb _); [|reflexivity].
    destruct (p_negB p) as [eb|]; [|reflexivity]; destruct (index m 5) as [st2| | | | |]; cbn [bind]; try reflexivity; rewrite Hm by exact Hb; reflexivity.
  - cbn [bind]; destruct (p_negB p) as [eb|]; [|reflexivity]; destruct (index m 5) as [st2| | | | |]; cbn [bind]; try reflexivity; rewrite Hm by exact Hb; reflexivity.
Qed.
Lemma loop_blend p s n : even_pattern p = true -> forall fuel off acc, find_loop fuel p (blends s) n off acc = find_loop fuel p s n off acc.
Proof.
  intros H; induction fuel as [|fuel IH]; intros off acc; [reflexivity|]; cbn [find_loop]; rewrite len_blend.
  destruct (_ && _); [|reflexivity]; rewrite slice_blend; destruct (slice s off (len s)) as [rest| | | | |]; cbn [bind]; try reflexivity.
  rewrite find_blend by (apply even_parts; exact H).
  destruct (len _ =? 0); [reflexivity|]; destruct (len _ <? 10); [reflexivity|].
  destruct (pick_start_stop _) as [[start stop]| | | | |]; cbn [bind]; try reflexivity.
  destruct (stop - start =? 0); [reflexivity|]; rewrite negatives_blend by exact H.
  destruct (negatives_allow p s _) as [[]| | | | |]; cbn [bind]; try reflexivity; [|apply IH].
  destruct (slice _ 6 _); cbn [bind]; try reflexivity; apply IH.
Qed.
Lemma pattern_blend p s n : even_pattern p = true -> find p (blends s) n = find p s n.
Proof. intros H; unfold find; rewrite map_length, loop_blend by exact H; reflexivity. Qed.
Lemma index_of_blend t vs : forallb whiteless vs = true -> index_of (blends t) vs = index_of t vs.
Proof.
  induction vs as [|v vs IH]; [reflexivity|]; cbn [forallb index_of]; intros H; apply andb_true_iff in H; destruct H as [Hv Hvs].
  rewrite IH by exact Hvs.
  assert (beqb v (blends t) = beqb v t) as ->; [|reflexivity].
  apply eq_true_iff_eq; rewrite !beqb_eq; split; intros E.
  - subst v; clear - Hv; unfold whiteless in Hv; induction t as [|b t IH]; [reflexivity|]; cbn [map forallb] in *.
    apply andb_true_iff in Hv; destruct Hv as [H1 H2]; rewrite IH by exact H2; f_equal.
    rewrite white_blend in H1; apply negb_true_iff in H1; apply blend_plain; exact H1.
  - subst v; clear - Hv; unfold whiteless in Hv; induction t as [|b t IH]; [reflexivity|]; cbn [map forallb] in *.
    apply andb_true_iff in Hv; destruct Hv as [H1 H2]; rewrite <- IH by exact H2; f_equal.
    apply negb_true_iff in H1; symmetry; apply blend_plain; exact H1.
Qed.
Lemma interpolate_blend p s m parts k : even_pattern p = true -> interpolate_parts parts k p (blends s) m = interpolate_parts parts k p s m.
Proof.
  intros H; apply even_parts in H; destruct H as (_ & _ & _ & Hv).
  revert k; induction parts as [|[t|v used] parts IH]; intros k; cbn [interpolate_parts]; [reflexivity|rewrite IH; reflexivity|].
  destruct (_ <? k); [reflexivity|]; destruct (index (p_usedVars p) k) as [fromVar| | | | |] eqn:Ei; cbn [bind]; try reflexivity.
  apply index_In in Ei; rewrite forallb_forall in Hv; specialize (Hv _ Ei).
  unfold captured; destruct (index m _) as [a| | | | |]; cbn [bind]; try reflexivity; destruct (index m _) as [b| | | | |]; cbn [bind]; try reflexivity.
  rewrite substr_blend, index_of_blend by exact Hv; rewrite IH; reflexivity.
Qed.
Lemma repls_blend r s ms : even_pattern (rule_from r) = true -> rule_repls r (blends s) ms = rule_repls r s ms.
Proof.
  intros H; induction ms as [|m ms IH]; [reflexivity|]; cbn [rule_repls]; unfold interpolate; rewrite interpolate_blend by exact H; rewrite IH; reflexivity.
Qed.
Lemma replacements_blend r s : even_rule r = true -> replacements r (blends s) = replacements r s.
Proof.
  unfold even_rule; intros H; apply andb_true_iff in H; destruct H as [H _]; unfold replacements; rewrite pattern_blend by exact H.
  destruct (find _ s _); cbn [bind]; try reflexivity; apply repls_blend; exact H.
Qed.

(** ** Characters *)
Lemma encode_blend c : encode_rune (blend c) = blends (encode_rune c).
Proof.
  destruct (N.lt_ge_cases c 0x80) as [H|H].
  - pose proof (blend_low c H); unfold encode_rune.
    replace (blend c <=? 0x7F)%N with true by lia; replace (c <=? 0x7F)%N with true by lia; reflexivity.
  - rewrite blend_high by exact H; symmetry; rewrite <- (map_id (encode_rune c)) at 2; apply map_ext_in; intros b Hb; apply blend_high.
    revert Hb; unfold encode_rune; replace (c <=? 0x7F)%N with false by lia.
    repeat match goal with |- context [if ?t then _ else _] => destruct t end; cbn [In]; unfold rune in *; intros Hb;
      repeat (destruct Hb as [Hb|Hb]; [lia|]); contradiction.
Qed.
Lemma encodes_blend rs : encode (blends rs) = blends (encode rs).
Proof. induction rs as [|c rs IH]; [reflexivity|]; cbn [map encode flat_map]; fold (encode (blends rs)) (encode rs); rewrite encode_blend, map_app, IH; reflexivity. Qed.
Lemma scalar_blend c : is_scalar c = true -> is_scalar (blend c) = true.
Proof. unfold blend; destruct (white c); [reflexivity|auto]. Qed.
Lemma scalars_blend rs : scalars rs -> scalars (blends rs).
Proof. unfold scalars; intros H; apply Forall_map; eapply Forall_impl; [|exact H]; apply scalar_blend. Qed.
Lemma space_blend c : is_space (blend c) = is_space c.
Proof. unfold blend; destruct (white c) eqn:E; [|reflexivity]; rewrite (white_space c E); reflexivity. Qed.

Definition bc (x : rune * Z) : rune * Z := (blend (fst x), snd x).
Lemma word_blend c : word_of (map bc c) = blends (word_of c).
Proof. unfold word_of; rewrite <- encodes_blend, !map_map; reflexivity. Qed.
Lemma seen_blend c : seen_by_transcribe (map bc c) = blends (seen_by_transcribe c).
Proof.
  unfold seen_by_transcribe, visible, ProcChars.mark; rewrite map_map.
  induction c as [|[x l] c IH]; [reflexivity|]; cbn [map flat_map bc fst snd]; rewrite !map_app, IH; f_equal.
  rewrite encode_blend, !map_map; apply map_ext; intros b; cbn [fst snd]; destruct (l =? 2); reflexivity.
Qed.

(** A round of editing. *)
Definition br (o : cells * option (list rune)) : cells * option (list rune) := (map bc (fst o), snd o).
Lemma before_blend rd : before (map br rd) = map bc (before rd).
Proof. unfold before; rewrite flat_map_map, map_flat_map; reflexivity. Qed.
Lemma repls_of_blend rd off : repls_of off (map br rd) = repls_of off rd.
Proof.
  revert off; induction rd as [|[o [w|]] rd IH]; intros off; cbn [map br fst snd repls_of]; [reflexivity| |]; rewrite word_blend, len_blend, IH; reflexivity.
Qed.
Lemma after_blend next rd (P : rune -> Prop) off : (forall c, P c -> blend c = c) -> scalar_cells (after next rd) ->
  Forall (fun x => forall c, In c (runes (rp_word x)) -> P c) (repls_of off rd) -> after next (map br rd) = map bc (after next rd).
Proof.
  intros HP; revert off; induction rd as [|[o [w|]] rd IH]; intros off Hs Hf; [reflexivity| |];
    unfold scalar_cells in Hs; cbn [after flat_map snd] in Hs; fold (after next rd) in Hs; rewrite map_app in Hs; apply Forall_app in Hs; destruct Hs as [Hs1 Hs2];
    cbn [map after flat_map br fst snd]; fold (after next rd) (after next (map br rd)); rewrite map_app; cbn [repls_of] in Hf.
  - inversion Hf as [|? ? H1 H2]; subst; rewrite (IH _ Hs2 H2); f_equal; rewrite map_map; apply map_ext_in; intros c Hc; unfold bc; cbn [fst snd]; f_equal.
    symmetry; apply HP, H1; cbn [rp_word]; rewrite map_map in Hs1; cbn [fst] in Hs1; rewrite map_id in Hs1; rewrite runes_encode by exact Hs1; exact Hc.
  - rewrite (IH _ Hs2 Hf); reflexivity.
Qed.
Lemma even_texts r c : even_rule r = true -> char_of (rule_texts r) c -> blend c = c.
Proof.
  unfold even_rule; intros H (t & Hin & Hc); apply andb_true_iff in H; destruct H as [_ H]; rewrite forallb_forall in H; specialize (H t Hin).
  rewrite forallb_forall in H; apply blended_eq, H; exact Hc.
Qed.
Lemma worked_blend see next rules c c' : (forall c, see (map bc c) = blends (see c)) -> Forall good_rule rules -> forallb even_rule rules = true ->
  worked see next rules c c' -> worked see next rules (map bc c) (map bc c').
Proof.
  intros Hsee Hg He Hw; revert Hg He; induction Hw as [|r rules rd c' E Hs Hin Hw IH]; intros Hg He; [constructor|].
  inversion Hg as [|? ? Hr Hg']; subst; cbn [forallb] in He; apply andb_true_iff in He; destruct He as [He He'].
  destruct (good_repls _ _ _ Hr E) as [_ Hf].
  assert (after next (map br rd) = map bc (after next rd)) as Ea.
  { apply (after_blend next rd (char_of (rule_texts r)) 0); [intros x; apply even_texts; exact He|exact Hs|].
    eapply Forall_impl; [|exact Hf]; cbv beta; tauto. }
  rewrite <- before_blend; apply worked_cons; rewrite ?Ea.
  - rewrite before_blend, Hsee, repls_of_blend, replacements_blend by exact He; exact E.
  - unfold scalar_cells in *; rewrite map_map; cbn [bc fst]; rewrite <- (map_map fst blend); apply scalars_blend; exact Hs.
  - rewrite before_blend; intros x Hx; apply in_map_iff in Hx; destruct Hx as (y & <- & Hy); destruct (Hin y Hy) as [H|[H1 H2]].
    + left; apply in_map; exact H.
    + right; split; [exact H1|]; cbn [bc fst]; rewrite (even_texts r _ He H2); exact H2.
  - apply IH; assumption.
Qed.
(** What is written contains no tabs or line breaks. *)
Lemma worked_written see next rules c c' : forallb even_rule rules = true -> worked see next rules c c' ->
  forall x, In x c' -> In x c \/ bc x = x.
Proof.
  intros He Hw; induction Hw as [|r rules rd c' E Hs Hin Hw IH]; intros x Hx; [left; exact Hx|].
  cbn [forallb] in He; apply andb_true_iff in He; destruct He as [He He']; destruct (IH He' x Hx) as [H|H]; [|right; exact H].
  destruct (Hin x H) as [H'|[_ H']]; [left; exact H'|right].
  destruct x as [x l]; unfold bc; cbn [fst snd] in *; rewrite (even_texts r x He H'); reflexivity.
Qed.
Lemma gist_blend b c : (forall x, In x c -> snd x = 2 -> bc x = x) -> gist b (map bc c) = gist b c.
Proof.
  revert b; induction c as [|[x l] c IH]; intros b Hc; [reflexivity|]; cbn [map bc fst snd gist].
  assert (forall b, gist b (map bc c) = gist b c) as IH' by (intros b'; apply IH; intros y Hy; apply Hc; right; exact Hy).
  destruct (l =? 2) eqn:El; rewrite IH'; [|rewrite space_blend; reflexivity].
  apply Z.eqb_eq in El; pose proof (Hc (x, l) (or_introl eq_refl) El) as Hx; unfold bc in Hx; cbn [fst snd] in Hx; injection Hx as Hx.
  unfold rune in *; rewrite Hx; reflexivity.
Qed.

(** ** The phases *)
Lemma even_spec s : spec_even s = true -> forallb even_rule (s_rewrite s) = true /\ forallb even_rule (s_transcribe s) = true /\
  forallb even_key (s_normReplacer s) = true.
Proof. unfold spec_even; intros H; repeat (apply andb_true_iff in H; destruct H as [H ?]); auto. Qed.
Lemma meaningful_blend s c : white c = true -> meaningful s c = true.
Proof. intros H; apply white_in in H; cbn [whites In] in H; repeat (destruct H as [<-|H]; [unfold meaningful; rewrite orb_true_iff; right; reflexivity|]); contradiction. Qed.
Lemma meaningfuls_blend s rs : Forall (fun x => meaningful s x = true) rs -> Forall (fun x => meaningful s x = true) (blends rs).
Proof.
  intros H; apply Forall_map; eapply Forall_impl; [|exact H]; intros c Hc; unfold blend; destruct (white c); [apply meaningful_blend; reflexivity|exact Hc].
Qed.
Lemma inner_blend H s rs : spec_even s = true -> Forall good_rule (s_rewrite s) -> Forall good_transcribe (s_transcribe s) ->
  scalars rs -> Forall (fun x => meaningful s x = true) rs -> inner H s (encode (blends rs)) = inner H s (encode rs).
Proof.
  intros He Hrw Htr Hs Hm; destruct (even_spec s He) as (E1 & E2 & _).
  pose proof (const_scalar 1 _ Hs) as Sr.
  destruct (rewrite_worked (s_rewrite s) _ Hrw Sr) as (c & W1).
  destruct (transcribe_worked (s_transcribe s) c Htr (worked_scalar _ _ _ _ _ W1 Sr)) as (d & W2).
  rewrite (inner_text H s rs c d Hrw Htr Hs Hm W1 W2).
  rewrite (inner_text H s (blends rs) (map bc c) (map bc d) Hrw Htr); [|apply scalars_blend; exact Hs|apply meaningfuls_blend; exact Hm| |].
  - rewrite gist_blend; [reflexivity|].
    intros x Hx Hl; destruct (worked_written _ _ _ _ _ E2 W2 x Hx) as [H0|H0]; [|exact H0].
    exfalso; destruct (worked_levels _ _ _ _ _ W1 x H0) as [H1|H1]; [|lia].
    apply in_map_iff in H1; destruct H1 as (y & <- & _); discriminate.
  - pose proof (worked_blend _ _ _ _ _ word_blend Hrw E1 W1) as W; rewrite map_map in W; rewrite map_map; exact W.
  - apply worked_blend; [exact seen_blend|eapply Forall_impl; [|exact Htr]; intros r Hr; apply Hr|exact E2|exact W2].
Qed.
Lemma norm_char_white s c : s_script s <> Hrkt -> spec_even s = true -> white c = true -> norm_char s c = [c].
Proof.
  intros Hsc He Hw; destruct (even_spec s He) as (_ & _ & Hk); rewrite forallb_forall in Hk; apply white_in in Hw.
  assert (is_scalar c = true /\ script_is (s_script s) c = false) as [Hs Hn].
  { cbn [whites In] in Hw; repeat (destruct Hw as [<-|Hw]; [split; [reflexivity|destruct (s_script s); try contradiction; reflexivity]|]); contradiction. }
  rewrite norm_char_one; [|exact Hs|].
  - f_equal; unfold norm_rune; destruct (nmem c (s_normLetters s)); [reflexivity|]; cbn [orb]; rewrite Hn; reflexivity.
  - intros Hin; apply in_flat_map in Hin; destruct Hin as (p & Hp & Hc); specialize (Hk p Hp); unfold even_key in Hk.
    apply andb_true_iff in Hk; destruct Hk as [_ Hk]; rewrite forallb_forall in Hk; specialize (Hk c Hw); apply negb_true_iff in Hk.
    unfold nmem in Hk; rewrite <- not_true_iff_false in Hk; apply Hk, existsb_exists; exists c; split; [exact Hc|apply N.eqb_refl].
Qed.
Lemma normal_blend s rs : s_script s <> Hrkt -> spec_even s = true -> blends (normal_runes s (blends rs)) = blends (normal_runes s rs).
Proof.
  intros Hsc He; induction rs as [|c rs IH]; [reflexivity|]; unfold normal_runes in *; cbn [map concat]; rewrite !map_app; refine (f_equal2 (@app N) _ IH).
  destruct (white c) eqn:E; [|rewrite (blend_plain c E); reflexivity].
  rewrite (norm_char_white s c Hsc He E), (norm_char_white s (blend c) Hsc He) by (rewrite white_blend; exact E).
  cbn [map]; f_equal; unfold blend; rewrite E; reflexivity.
Qed.
Lemma norm_char_meaningful s c : spec_words s = true -> is_scalar c = true -> meaningful s c = true ->
  Forall (fun x => meaningful s x = true) (norm_char s c).
Proof.
  intros Hw Hc Hm; destruct (words_parts s Hw) as (Hsc & _ & _ & Hk).
  unfold norm_char, CaseFacts.sub; destruct (List.find _ (s_normReplacer s)) as [[k v]|] eqn:E.
  - apply List.find_some in E; destruct E as [Hin _]; specialize (Hk _ Hin); unfold norm_words in Hk; cbn [fst snd] in Hk.
    apply andb_true_iff in Hk; destruct Hk as [_ Hk]; destruct (runes v) as [|a l]; [discriminate|].
    rewrite forallb_forall in Hk; apply Forall_map, Forall_forall; intros x Hx; specialize (Hk x Hx).
    apply andb_true_iff in Hk; apply Hk.
  - replace (encode_rune c) with (encode [c]) by apply app_nil_r; rewrite runes_encode by (repeat constructor; exact Hc).
    cbn [map]; constructor; [|constructor]; apply norm_rune_meaningful; exact Hm.
Qed.
Lemma normal_meaningful s rs : spec_words s = true -> scalars rs -> Forall (fun x => meaningful s x = true) rs ->
  Forall (fun x => meaningful s x = true) (normal_runes s rs).
Proof.
  intros Hw Hs Hm; induction Hm as [|c rs Hc Hm IH]; [constructor|]; inversion Hs; subst; unfold normal_runes; cbn [map concat].
  apply Forall_app; split; [apply norm_char_meaningful; assumption|apply IH; assumption].
Qed.
Lemma phases_blend H s rs : spec_words s = true -> spec_even s = true -> Forall good_rule (s_rewrite s) -> Forall good_transcribe (s_transcribe s) ->
  scalars rs -> Forall (fun x => meaningful s x = true) rs ->
  after_translit H s None (encode (blends rs)) = after_translit H s None (encode rs).
Proof.
  intros Hw He Hrw Htr Hs Hm; destruct (words_parts s Hw) as (Hsc & _ & _ & Hk).
  assert (forallb single_key (s_normReplacer s) = true) as Hkey.
  { apply forallb_forall; intros p Hin; specialize (Hk p Hin); unfold norm_words in Hk.
    apply andb_true_iff in Hk; destruct Hk as [Hk _]; apply andb_true_iff in Hk; apply Hk. }
  pose proof (scalars_blend _ Hs) as Hs'; pose proof (meaningfuls_blend _ _ Hm) as Hm'.
  rewrite !after_translit_inner, !normalize_chars by assumption.
  assert (inner H s (encode (normal_runes s (blends rs))) = inner H s (encode (normal_runes s rs))) as E; [|exact (f_equal (fun z => bind z _) E)].
  refine (eq_trans (eq_sym (inner_blend H s (normal_runes s (blends rs)) He Hrw Htr (normal_runes_scalars _ _) (normal_meaningful _ _ Hw Hs' Hm'))) _).
  refine (eq_trans _ (inner_blend H s (normal_runes s rs) He Hrw Htr (normal_runes_scalars _ _) (normal_meaningful _ _ Hw Hs Hm))).
  exact (f_equal (fun z => inner H s (encode z)) (normal_blend s rs Hsc He)).
Qed.
