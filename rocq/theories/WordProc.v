(** The phases of Hangulize on a phrase. *)
From Coq Require Import Lia List Bool ZArith.
From Verif Require Import GoBase Utf8 Utf8Facts Unicode Regex RegexSpec RegexFacts CaptureFacts Hre FindFacts Subword SubwordFacts
  Rule RuleFacts Scripts Spec Jamo JamoFacts Procedure ProcFacts MaskFacts ProcSem ProcLocal ProcChars WordFacts WordScan WordRules.
Import ListNotations.
Open Scope Z_scope.

(** ** One rule, all rules *)
Lemma rewrite_step r c : good_rule r -> scalar_cells c ->
  exists rd, before rd = c /\ replacements r (word_of c) = Ok (repls_of 0 rd) /\ scalar_cells (after 1 rd) /\
    forall x, In x (after 1 rd) -> In x (before rd) \/ (snd x = 1 /\ char_of (rule_texts r) (fst x)).
Proof.
  intros Hr Hc; destruct (rule_ok_repls r (word_of c) (proj1 Hr) (proj1 (proj2 Hr))) as (repls & Er & _).
  destruct (good_repls _ _ _ Hr Er) as [Ho Hf].
  destruct (cut_round c repls [] c eq_refl Ho) as (rd & E1 & E2 & E3).
  { eapply Forall_impl; [|exact Hf]; cbv beta; intros x (_ & B1 & B2 & Hu & _).
    split; [apply boundary_cells; assumption|]; split; [apply boundary_cells; assumption|exact Hu]. }
  change (len (word_of [])) with 0 in E2.
  destruct (written_after _ 1 repls rd (rule_texts r) E3) as [Hs Hin].
  { rewrite E1; exact Hc. }
  { eapply Forall_impl; [|exact Hf]; cbv beta; tauto. }
  exists rd; split; [exact E1|]; split; [rewrite E2; exact Er|]; split; [exact Hs|exact Hin].
Qed.
Lemma transcribe_step r c : good_transcribe r -> scalar_cells c ->
  exists rd, before rd = c /\ replacements r (seen_by_transcribe c) = Ok (repls_of 0 rd) /\ scalar_cells (after 2 rd) /\
    forall x, In x (after 2 rd) -> In x (before rd) \/ (snd x = 2 /\ char_of (rule_texts r) (fst x)).
Proof.
  intros [Hr Hnn] Hc; unfold seen_by_transcribe.
  destruct (rule_ok_repls r (visible (ProcChars.mark c)) (proj1 Hr) (proj1 (proj2 Hr))) as (repls & Er & _).
  destruct (good_repls _ _ _ Hr Er) as [Ho Hf].
  assert (Forall (fun x => cell_boundary c (rp_start x) /\ cell_boundary c (rp_stop x) /\ utf8_text (rp_word x)) repls) as Hb.
  { pose proof Er as Er'; unfold replacements in Er'.
    destruct (find _ _ _) as [ms| | | | |] eqn:Ef; cbn [bind] in Er'; try discriminate.
    destruct Hr as (Hcomp & Hok & Hu).
    assert (safe_pattern (rule_from r) = true) as Hs by (unfold rule_ok in Hok; apply andb_true_iff in Hok; apply Hok).
    destruct (safe_matches _ _ _ Hcomp Hs Ef) as [_ Hm]; apply repls_matches in Er'.
    rewrite Forall_forall in *; intros x Hx; destruct (Hf x Hx) as (Hlt & B1 & B2 & Hux & _).
    destruct (Er' x Hx) as (m & Hin & H0 & H1).
    destruct (match_no_nul _ _ _ _ _ Hcomp Hs Hnn (Hm _ Hin) H0 H1) as (L0 & L1 & L2).
    assert (forall j, (Z.to_nat (rp_start x) <= j < Z.to_nat (rp_stop x))%nat -> nth_error (visible (ProcChars.mark c)) j <> Some 0%N) as Hnul.
    { intros j Hj Hn; apply L2; unfold sub.
      apply nth_error_In with (n := (j - Z.to_nat (rp_start x))%nat); rewrite nth_error_sub by lia; exact Hn. }
    destruct B1 as (u1 & v1 & G1 & E1), B2 as (u2 & v2 & G2 & E2).
    split; [|split; [|exact Hux]].
    - destruct (visible_boundary _ _ _ Hc G1) as [(c1 & c2 & -> & Ew)|(P & N1 & N2)].
      + exists c1, c2; split; [reflexivity|]; rewrite E1, Ew; reflexivity.
      + exfalso; apply (Hnul (gwidth u1)); [lia|exact N1].
    - destruct (visible_boundary _ _ _ Hc G2) as [(c1 & c2 & -> & Ew)|(P & N1 & N2)].
      + exists c1, c2; split; [reflexivity|]; rewrite E2, Ew; reflexivity.
      + exfalso; apply (Hnul (gwidth u2 - 1)%nat); [lia|exact N2]. }
  destruct (cut_round c repls [] c eq_refl) as (rd & E1 & E2 & E3); [rewrite <- visible_len; exact Ho|exact Hb|].
  change (len (word_of [])) with 0 in E2.
  destruct (written_after _ 2 repls rd (rule_texts r) E3) as [Hs Hin].
  { rewrite E1; exact Hc. }
  { eapply Forall_impl; [|exact Hf]; cbv beta; tauto. }
  exists rd; split; [exact E1|]; split; [rewrite E2; exact Er|]; split; [exact Hs|exact Hin].
Qed.

Lemma rewrite_worked rules c : Forall good_rule rules -> scalar_cells c -> exists c', worked word_of 1 rules c c'.
Proof.
  intros Hg; revert c; induction Hg as [|r rules Hr Hg IH]; intros c Hc; [exists c; constructor|].
  destruct (rewrite_step r c Hr Hc) as (rd & <- & Er & Hs & Hin); destruct (IH _ Hs) as (c' & Hw).
  exists c'; eapply worked_cons; eassumption.
Qed.
Lemma transcribe_worked rules c : Forall good_transcribe rules -> scalar_cells c -> exists c', worked seen_by_transcribe 2 rules c c'.
Proof.
  intros Hg; revert c; induction Hg as [|r rules Hr Hg IH]; intros c Hc; [exists c; constructor|].
  destruct (transcribe_step r c Hr Hc) as (rd & <- & Er & Hs & Hin); destruct (IH _ Hs) as (c' & Hw).
  exists c'; eapply worked_cons; eassumption.
Qed.
Lemma worked_scalar see next rules c c' : worked see next rules c c' -> scalar_cells c -> scalar_cells c'.
Proof. induction 1 as [|r rules rd c' E Hs Hin Hw IH]; auto. Qed.
Lemma worked_levels see next rules c c' : worked see next rules c c' -> forall x, In x c' -> In x c \/ snd x = next.
Proof.
  induction 1 as [|r rules rd c' E Hs Hin Hw IH]; intros x Hx; [left; exact Hx|].
  destruct (IH x Hx) as [H|H]; [|right; exact H]; destruct (Hin x H) as [H'|[H' _]]; [left|right]; exact H'.
Qed.
Lemma worked_empty see next rules c c' : worked see next rules c c' -> see [] = [] -> c = [] -> c' = [].
Proof.
  induction 1 as [|r rules rd c' E Hs Hin Hw IH]; intros H0 Hc; [exact Hc|]; apply IH; [exact H0|].
  rewrite Hc, H0 in E.
  assert (repls_of 0 rd = []) as Er.
  { unfold replacements in E; change (find (rule_from r) [] (-1)) with (@Ok (list (list Z)) []) in E; cbn in E; congruence. }
  clear - Er Hc; revert Er Hc; generalize 0; induction rd as [|[o [w|]] rd IH]; intros off Er Hc; [reflexivity|discriminate|].
  cbn [repls_of before after flat_map fst snd] in *; apply app_eq_nil in Hc; destruct Hc as [-> Hc]; cbn [app]; eapply IH; [exact Er|exact Hc].
Qed.

Lemma rewrite_run n rules i c c' recs : worked word_of 1 rules c c' ->
  rewrite_rules false n rules i (word_of c) (mk_replacer c 1 []) recs = Ok (mk_replacer c' 1 [], recs).
Proof.
  induction 1 as [|r rules rd c' E Hs Hin Hw IH]; cbn [rewrite_rules]; [reflexivity|].
  rewrite E; cbn [bind]; rewrite (string_round 1 rd _ eq_refl); cbn [bind record_subword negb]; exact IH.
Qed.
Lemma transcribe_run n rules i c c' dum recs : Forall good_transcribe rules -> worked seen_by_transcribe 2 rules c c' ->
  rep_wf dum -> rr_next dum = 0 -> rr_word dum = seen_by_transcribe c ->
  transcribe_rules false n rules i (seen_by_transcribe c) (mk_replacer c 2 []) dum recs = Ok (mk_replacer c' 2 [], recs).
Proof.
  intros Hg Hw; revert dum Hg; induction Hw as [|r rules rd c' E Hs Hin Hw IH]; intros dum Hg Wd Nd Ed; cbn [transcribe_rules]; [reflexivity|].
  inversion Hg as [|? ? [Hr _] Hg']; subst; rewrite E; cbn [bind].
  destruct (good_repls _ _ _ Hr E) as [Ho _].
  destruct (string_edit dum (map mask (repls_of 0 rd)) Wd) as (dum1 & -> & Wd1 & Nd1 & Ed1).
  { rewrite Ed; apply mask_ordered; exact Ho. }
  cbn [bind]; rewrite (string_round 2 rd _ eq_refl); cbn [bind record_subword negb].
  assert (rr_word dum1 = seen_by_transcribe (after 2 rd)) as Ed1'.
  { rewrite <- (combine_fst (rr_word dum1) (rr_levels dum1)) by apply Wd1; rewrite Ed1, Nd.
    rewrite (apply_mask _ (ProcChars.mark (before rd))) by (rewrite combine_fst by apply Wd; exact Ed).
    pose proof (edit_round rd [] []) as Er2; cbn [app] in Er2; change (len (word_of [])) with 0 in Er2.
    rewrite Er2; reflexivity. }
  rewrite Ed1'; apply IH; try assumption; congruence.
Qed.

(** ** What is left of the characters: the written ones, and one space for the unwritten
    ones between two of them if they contain a space *)
Fixpoint gist (blank : bool) (c : cells) : list rune :=
  match c with
  | [] => if blank then [sp] else []
  | (x, l) :: c' => if l =? 2 then (if blank then [sp] else []) ++ x :: gist false c' else gist (blank || is_space x) c'
  end.
Lemma gist_written rs c : gist false (map (fun x => (x, 2)) rs ++ c) = rs ++ gist false c.
Proof. induction rs as [|x rs IH]; [reflexivity|]; cbn [map app gist Z.eqb]; change (2 =? 2) with true; cbn [app]; rewrite IH; reflexivity. Qed.
Lemma gist_unwritten rs b c : gist b (map (fun x => (x, 1)) rs ++ c) = gist (b || existsb is_space rs) c.
Proof.
  revert b; induction rs as [|x rs IH]; intros b; cbn [map app gist existsb]; [rewrite orb_false_r; reflexivity|].
  change (1 =? 2) with false; cbv iota; rewrite IH, orb_assoc; reflexivity.
Qed.
Definition opens (c : cells) : Prop := gist true c = sp :: gist false c.
Lemma gist_shown H sws jb : levels_alternate sws -> Forall (fun sw => sw_word sw <> []) sws -> Forall (fun sw => utf8_text (sw_word sw)) sws ->
  Forall (fun sw => sw_level sw = 1 \/ sw_level sw = 2) sws ->
  ProcLocal.shown H sws jb = compose_hangul H (jb ++ encode (gist false (cells_of sws))).
Proof.
  revert jb; induction sws as [|sw sws IH]; intros jb Ha Hn Hu Hl.
  - unfold cells_of; cbn [flat_map gist encode]; rewrite app_nil_r; reflexivity.
  - inversion Hn as [|? ? Hn1 Hn2]; inversion Hu as [|? ? Hu1 Hu2]; inversion Hl as [|? ? Hl1 Hl2]; subst.
    assert (levels_alternate sws) as Ha' by (destruct sws; [exact I|apply Ha]).
    rewrite shown_cons; cbn [cells_of flat_map]; fold (cells_of sws); destruct Hl1 as [E|E]; rewrite E.
    + change (1 =? 0) with false; change (1 =? 1) with true; cbv iota; rewrite IH by assumption; f_equal.
      rewrite gist_unwritten; cbn [orb]; unfold has_space; rewrite <- app_assoc; f_equal.
      destruct (existsb is_space (runes (sw_word sw))); [|reflexivity].
      enough (gist true (cells_of sws) = sp :: gist false (cells_of sws)) as -> by reflexivity.
      destruct sws as [|sw2 sws]; [reflexivity|]; destruct Ha as [Hd _].
      inversion Hl2 as [|? ? [E2|E2] _]; subst; [congruence|].
      inversion Hn2 as [|? ? Hn3 _]; subst.
      cbn [cells_of flat_map]; rewrite E2; fold (cells_of sws).
      destruct (runes (sw_word sw2)) as [|x rs] eqn:Er.
      * exfalso; apply Hn3; inversion Hu2 as [|? ? Hu3 _]; subst; rewrite <- (utf8_text_runes _ Hu3), Er; reflexivity.
      * reflexivity.
    + change (2 =? 0) with false; change (2 =? 1) with false; cbv iota; rewrite IH by assumption; f_equal.
      rewrite gist_written, encode_app, <- app_assoc; do 2 f_equal; symmetry; apply utf8_text_runes; exact Hu1.
Qed.

Lemma merge_alternate sws sw : levels_alternate (sw :: sws) -> Forall (fun x => sw_level x <> -1) (sw :: sws) ->
  merge_loop sws (sw_word sw) (sw_level sw) = sw :: sws.
Proof.
  revert sw; induction sws as [|x sws IH]; intros sw Ha Hr; [destruct sw; reflexivity|].
  inversion Hr as [|? ? H1 H2]; subst; destruct Ha as [Hd Ha]; rewrite merge_step by exact H1.
  replace (sw_level x =? sw_level sw) with false by lia; rewrite IH by assumption; destruct sw; reflexivity.
Qed.
Lemma builder_alternate sws : levels_alternate sws -> real sws -> builder_subwords sws = sws.
Proof. intros Ha Hr; destruct sws as [|sw sws]; [reflexivity|]; rewrite builder_cons; apply merge_alternate; assumption. Qed.

Lemma cells_nonnil sws : Forall (fun sw => sw_word sw <> []) sws -> cells_of sws = [] -> sws = [].
Proof.
  destruct sws as [|sw sws]; [reflexivity|]; intros Hn E; inversion Hn as [|? ? H1 _]; subst.
  destruct (cells_head sw sws H1) as (x & r & Ec); rewrite Ec in E; discriminate.
Qed.
Lemma cells_levels sws x : Forall (fun sw => sw_word sw <> []) sws -> In x sws -> exists y, In y (cells_of sws) /\ snd y = sw_level x.
Proof.
  intros Hn Hx; rewrite Forall_forall in Hn; specialize (Hn x Hx).
  destruct (runes (sw_word x)) as [|r rs] eqn:E.
  - exfalso; destruct (cells_head x [] Hn) as (y & t & Ec); cbn [cells_of flat_map] in Ec; rewrite E in Ec; discriminate.
  - exists (r, sw_level x); split; [|reflexivity]; apply in_flat_map; exists x; split; [exact Hx|]; rewrite E; left; reflexivity.
Qed.

(** One subword holds them all if they have one level. *)
Lemma one_subword sws rs : cells_of sws = map (fun c => (c, 1)) rs -> rs <> [] -> scalars rs -> levels_alternate sws ->
  Forall (fun sw => sw_word sw <> []) sws -> Forall (fun sw => utf8_text (sw_word sw)) sws ->
  sws = [{| sw_word := encode rs; sw_level := 1 |}].
Proof.
  intros E Hne Hs Ha Hn Hu; apply cells_unique; try assumption.
  - cbn [cells_of flat_map sw_word sw_level]; rewrite runes_encode by exact Hs; rewrite app_nil_r; exact E.
  - exact I.
  - constructor; [|constructor]; cbn [sw_word]; destruct rs as [|r rs]; [contradiction|]; intros E0.
    pose proof (encode_rune_length r) as Hl; cbn [encode flat_map] in E0; apply app_eq_nil in E0; destruct E0 as [E0 _].
    unfold rune in *; rewrite E0 in Hl; cbn in Hl; lia.
  - repeat constructor; cbn [sw_word]; exists rs; auto.
Qed.

Lemma level_one (c : cells) : (forall x, In x c -> snd x = 1) -> c = map (fun y => (y, 1)) (map fst c).
Proof.
  induction c as [|[x l] c IH]; intros H; [reflexivity|]; cbn [map fst]; rewrite <- IH by (intros y Hy; apply H; right; exact Hy).
  specialize (H _ (or_introl eq_refl)); cbn [snd] in H; subst l; reflexivity.
Qed.

(** The text between normalization and localization, for a text of the language. *)
Lemma inner_text H s rs c d : Forall good_rule (s_rewrite s) -> Forall good_transcribe (s_transcribe s) ->
  scalars rs -> Forall (fun x => meaningful s x = true) rs ->
  worked word_of 1 (s_rewrite s) (map (fun x => (x, 1)) rs) c -> worked seen_by_transcribe 2 (s_transcribe s) c d ->
  inner H s (encode rs) = Ok (compose_hangul H (encode (gist false d))).
Proof.
  intros Hrw Htr Hs Hm Wr Wt.
  destruct (list_eq_dec N.eq_dec rs []) as [->|Hne].
  { pose proof (worked_empty _ _ _ _ _ Wr eq_refl eq_refl) as ->; pose proof (worked_empty _ _ _ _ _ Wt eq_refl eq_refl) as ->; reflexivity. }
  rewrite inner_pieces.
  destruct (partition_cells s rs Hs) as (sws & -> & Ec & Ha & Hn & Hu); cbn [bind].
  assert (map (fun x => (x, if meaningful s x then 1 else 0)) rs = map (fun x => (x, 1)) rs) as Em.
  { apply map_ext_in; intros x Hx; rewrite Forall_forall in Hm; rewrite (Hm x Hx); reflexivity. }
  rewrite Em in Ec; rewrite (one_subword sws rs Ec Hne Hs Ha Hn Hu); cbn [mapm].
  assert (scalar_cells (map (fun x => (x, 1)) rs)) as Sr by (apply const_scalar; exact Hs).
  pose proof (worked_scalar _ _ _ _ _ Wr Sr) as Sc; pose proof (worked_scalar _ _ _ _ _ Wt Sc) as Sd.
  assert (forall x, In x c -> snd x = 1) as Lc.
  { intros x Hx; destruct (worked_levels _ _ _ _ _ Wr x Hx) as [H0|H0]; [|exact H0].
    apply in_map_iff in H0; destruct H0 as (y & <- & _); reflexivity. }
  unfold rewrite_piece; cbn [sw_word sw_level]; rewrite new_replacer_cells.
  pose proof (rewrite_run 0 _ 0 _ _ [] Wr) as Er; rewrite word_of_const in Er; rewrite Er; cbn [bind]; clear Er.
  destruct (replacer_subwords_ok c 1 Sc) as (out & -> & Eo & Ao & No & Uo); cbn [bind concat].
  destruct c as [|x0 c0] eqn:Ecc.
  - rewrite (cells_nonnil out No Eo); cbn [app concat builder_subwords mapm bind].
    rewrite (worked_empty _ _ _ _ _ Wt eq_refl eq_refl); reflexivity.
  - rewrite <- Ecc in *; assert (c <> []) as Hcne by (rewrite Ecc; discriminate); clear Ecc x0 c0.
    pose proof (level_one c Lc) as E1.
    assert (map fst c <> []) as Hf by (destruct c; [contradiction|discriminate]).
    rewrite (one_subword out (map fst c)); try assumption; [|congruence].
    cbn [app]; rewrite builder_cons; cbn [merge_loop sw_word sw_level mapm].
    unfold transcribe_piece; cbn [sw_level sw_word]; change (1 =? 0) with false; cbv iota.
    rewrite !new_replacer_cells, <- E1.
    assert (encode (map fst c) = seen_by_transcribe c) as Ev.
    { unfold seen_by_transcribe; rewrite E1 at 2; rewrite mark_unwritten by lia; rewrite visible_kept; reflexivity. }
    rewrite Ev; rewrite (transcribe_run 0 _ 0 c d); try assumption.
    2:{ rewrite <- new_replacer_cells; apply new_replacer_wf. }
    2:{ reflexivity. }
    2:{ rewrite <- new_replacer_cells; cbn [rr_word new_replacer]; exact Ev. }
    cbn [bind]; destruct (replacer_subwords_ok d 2 Sd) as (out2 & -> & Ed & Ad & Nd & Ud); cbn [bind concat]; rewrite app_nil_r.
    assert (Forall (fun sw => sw_level sw = 1 \/ sw_level sw = 2) out2) as Lo.
    { apply Forall_forall; intros sw Hin; destruct (cells_levels out2 sw Nd Hin) as (y & Hy & <-); rewrite Ed in Hy.
      destruct (worked_levels _ _ _ _ _ Wt y Hy) as [H0|H0]; [left; apply Lc; exact H0|right; exact H0]. }
    assert (real out2) as Ro by (eapply Forall_impl; [|exact Lo]; cbv beta; intros sw [E|E]; rewrite E; lia).
    rewrite settle_shown, builder_alternate by assumption; rewrite gist_shown by assumption; rewrite Ed; reflexivity.
Qed.

(** ** Phrases *)
(** Unwritten characters that are no spaces. *)
Definition quiet (c : cells) : Prop := Forall (fun x => snd x = 2 \/ is_space (fst x) = false) c.
Lemma gist_joined a b blank : quiet a -> gist blank (joined a b) =
  match blank, gist false a with
  | true, [] => gist true b
  | true, g => sp :: g ++ gist true b
  | false, g => g ++ gist true b
  end.
Proof.
  unfold joined; intros Ha; revert blank; induction Ha as [|[x l] a Hx Ha IH]; intros blank; cbn [app gist].
  - change (1 =? 2) with false; change (is_space sp) with true; rewrite orb_true_r; destruct blank; reflexivity.
  - destruct (l =? 2) eqn:E; [destruct blank; cbn [app]; rewrite IH; reflexivity|].
    cbn [fst snd] in Hx; destruct Hx as [Hx|Hx]; [lia|]; rewrite Hx, orb_false_r, IH; cbn [orb]; reflexivity.
Qed.
Lemma quiet_opens c : quiet c -> opens c.
Proof.
  unfold opens; induction 1 as [|[x l] c Hx Hc IH]; [reflexivity|]; cbn [gist].
  destruct (l =? 2) eqn:E; [reflexivity|]; cbn [fst snd] in Hx; destruct Hx as [Hx|Hx]; [lia|]; rewrite Hx; exact IH.
Qed.
Lemma joined_opens a b : quiet a -> gist false a <> [] -> opens (joined a b).
Proof. intros Ha Hg; unfold opens; rewrite !gist_joined by exact Ha; destruct (gist false a); [contradiction|reflexivity]. Qed.
