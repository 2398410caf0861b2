(** Text outside the language separates the word into parts treated independently. *)
From Verif Require Import GoBase Utf8 Utf8Facts Unicode Replacer ReplacerFacts Hre FindFacts Subword SubwordFacts Rule
  RuleFacts Scripts Spec Jamo Procedure ProcFacts ProcSem LocalizeFacts.
Open Scope Z_scope.

Definition real (sws : list subword) : Prop := Forall (fun sw => sw_level sw <> -1) sws.

(** ** Syllabification of merged subwords *)
Section Settle.
  Context (H : hangul_lib).
  Notation syl := (syllabify_loop H).

  Lemma compose_nil : compose_hangul H [] = []. Proof. reflexivity. Qed.

  Lemma syl_merge sws buf lvl jb :
    real sws -> lvl <> -1 ->
    syl (merge_loop sws buf lvl) jb = syl ({| sw_word := buf; sw_level := lvl |} :: sws) jb.
  Proof.
    intros Hr; revert buf lvl jb; induction Hr as [|sw sws Hsw Hr IH]; intros buf lvl jb Hl; cbn [merge_loop]; [reflexivity|].
    assert (lvl =? -1 = false) as El by lia; rewrite El; cbn [negb]; rewrite andb_true_r.
    destruct (sw_level sw =? lvl) eqn:E; cbn [negb].
    - rewrite IH by exact Hsw; apply Z.eqb_eq in E; cbn [syllabify_loop sw_level sw_word]; rewrite E.
      destruct (lvl =? 0); [|rewrite <- !app_assoc; reflexivity].
      rewrite compose_nil; cbn [app]; rewrite <- !app_assoc; reflexivity.
    - cbn [syllabify_loop sw_level sw_word]; destruct (lvl =? 0); rewrite IH by exact Hsw; cbn [syllabify_loop sw_level sw_word]; reflexivity.
  Qed.
  Lemma syl_builder sws jb : real sws -> syl (builder_subwords sws) jb = syl sws jb.
  Proof.
    intros Hr; destruct sws as [|sw sws]; [reflexivity|]; unfold builder_subwords; cbn [merge_loop].
    inversion Hr as [|? ? Hsw Hr']; subst.
    change (negb (-1 =? -1)) with false; rewrite Bool.andb_false_r; cbn [app].
    rewrite syl_merge by assumption; destruct sw; reflexivity.
  Qed.

  Lemma discard_real sws : real sws -> real (discard_level1 sws).
  Proof.
    unfold real, discard_level1; induction 1 as [|sw sws Hsw Hr IH]; cbn [flat_map]; [constructor|].
    apply Forall_app; split; [|exact IH].
    destruct (sw_level sw =? 1); [destruct (has_space _); repeat constructor; cbn; lia|repeat constructor; exact Hsw].
  Qed.
  Lemma builder_real sws : real sws -> real (builder_subwords sws).
  Proof. intros Hr; exact (builder_levels_in (fun l => l <> -1) sws Hr). Qed.

  Definition settle (buf : list subword) : bytes :=
    syl (builder_subwords (discard_level1 (builder_subwords buf))) [].
  Definition shown (sws : list subword) (jb : bytes) : bytes := syl (discard_level1 sws) jb.
  Lemma settle_shown buf : real buf -> settle buf = shown (builder_subwords buf) [].
  Proof. intros Hr; apply syl_builder, discard_real, builder_real; exact Hr. Qed.

  Lemma shown_cons sw sws jb :
    shown (sw :: sws) jb =
    if sw_level sw =? 0 then compose_hangul H jb ++ sw_word sw ++ shown sws []
    else shown sws (jb ++ (if sw_level sw =? 1 then if has_space (sw_word sw) then [0x20%N] else [] else sw_word sw)).
  Proof.
    unfold shown, discard_level1; cbn [flat_map]; destruct (sw_level sw =? 1) eqn:E1.
    - assert (sw_level sw =? 0 = false) as -> by lia.
      destruct (has_space (sw_word sw)); cbn [app syllabify_loop sw_level sw_word]; [reflexivity|rewrite app_nil_r; reflexivity].
    - cbn [app syllabify_loop]; destruct (sw_level sw =? 0); reflexivity.
  Qed.
  Lemma shown_nil jb : shown [] jb = compose_hangul H jb. Proof. reflexivity. Qed.

  Lemma merge_step sws buf lvl sw :
    lvl <> -1 ->
    merge_loop (sw :: sws) buf lvl =
    if sw_level sw =? lvl then merge_loop sws (buf ++ sw_word sw) lvl
    else {| sw_word := buf; sw_level := lvl |} :: merge_loop sws (sw_word sw) (sw_level sw).
  Proof.
    intros Hl; cbn [merge_loop]; assert (lvl =? -1 = false) as -> by lia; cbn [negb]; rewrite andb_true_r.
    destruct (sw_level sw =? lvl) eqn:E; cbn [negb]; [apply Z.eqb_eq in E; rewrite E; reflexivity|reflexivity].
  Qed.
  Lemma builder_cons sw sws : builder_subwords (sw :: sws) = merge_loop sws (sw_word sw) (sw_level sw).
  Proof. unfold builder_subwords; cbn [merge_loop]; rewrite andb_false_r; reflexivity. Qed.

  Lemma shown_zero y w jb :
    real y -> shown (merge_loop y w 0) jb = compose_hangul H jb ++ w ++ shown (builder_subwords y) [].
  Proof.
    intros Hr; revert w jb; induction Hr as [|sw y Hsw Hr IH]; intros w jb.
    - cbn [merge_loop]; rewrite shown_cons; reflexivity.
    - rewrite merge_step by lia; rewrite builder_cons; destruct (sw_level sw =? 0) eqn:E.
      + apply Z.eqb_eq in E; rewrite E, !IH, compose_nil; cbn [app]; rewrite <- !app_assoc; reflexivity.
      + rewrite shown_cons; cbn [sw_level sw_word Z.eqb]; reflexivity.
  Qed.
  Lemma shown_split x z y buf lvl jb :
    real x -> real y -> sw_level z = 0 -> lvl <> -1 ->
    shown (merge_loop (x ++ z :: y) buf lvl) jb =
    shown (merge_loop x buf lvl) jb ++ sw_word z ++ shown (builder_subwords y) [].
  Proof.
    intros Hx Hy Hz; revert buf lvl jb; induction Hx as [|sw x Hsw Hx IH]; intros buf lvl jb Hl; cbn [app].
    - rewrite merge_step by exact Hl; rewrite Hz; destruct (0 =? lvl) eqn:E.
      + apply Z.eqb_eq in E; subst lvl; rewrite shown_zero by exact Hy; cbn [merge_loop]; rewrite shown_cons, shown_nil.
        cbn [sw_level sw_word Z.eqb]; rewrite compose_nil, app_nil_r, <- !app_assoc; reflexivity.
      + cbn [merge_loop]; rewrite !shown_cons; cbn [sw_level sw_word]; rewrite Z.eqb_sym, E, shown_nil.
        rewrite shown_zero by exact Hy; reflexivity.
    - rewrite !merge_step by exact Hl; destruct (sw_level sw =? lvl); [apply IH; exact Hl|].
      rewrite !shown_cons; cbn [sw_level sw_word]; destruct (lvl =? 0); rewrite IH by exact Hsw; [rewrite <- !app_assoc|]; reflexivity.
  Qed.
  Lemma settle_split x z y :
    real x -> real y -> sw_level z = 0 -> settle (x ++ z :: y) = settle x ++ sw_word z ++ settle y.
  Proof.
    intros Hx Hy Hz; rewrite !settle_shown; try assumption.
    - destruct x as [|sw x]; cbn [app].
      + rewrite builder_cons, Hz, shown_zero by exact Hy; reflexivity.
      + inversion Hx; subst; rewrite !builder_cons; apply shown_split; assumption.
    - apply Forall_app; split; [exact Hx|]; constructor; [lia|exact Hy].
  Qed.
  Lemma settle_nil : settle [] = []. Proof. reflexivity. Qed.
End Settle.

(** ** The merged subwords around a separating one *)
Definition zero (w : bytes) : subword := {| sw_word := w; sw_level := 0 |}.
Definition left_part (sws pre : list subword) (u : bytes) : Prop := (sws = pre /\ u = []) \/ sws = pre ++ [zero u].
Definition right_part (sws post : list subword) (v : bytes) : Prop := (sws = post /\ v = []) \/ sws = zero v :: post.

Lemma merge_right y w :
  real y -> exists v post, merge_loop y w 0 = zero (w ++ v) :: post /\ right_part (builder_subwords y) post v.
Proof.
  intros Hr; revert w; induction Hr as [|sw y Hsw Hr IH]; intros w.
  - exists [], []; cbn; rewrite app_nil_r; split; [reflexivity|left; auto].
  - rewrite merge_step by lia; rewrite builder_cons; destruct (sw_level sw =? 0) eqn:E.
    + apply Z.eqb_eq in E; rewrite E; destruct (IH (w ++ sw_word sw)) as (v & post & E1 & _).
      destruct (IH (sw_word sw)) as (v' & post' & E2 & _).
      assert (forall a b p q, merge_loop y a 0 = zero p :: q -> merge_loop y (b ++ a) 0 = zero (b ++ p) :: q) as Hshift.
      { clear; induction y as [|s y IH]; intros a b p q E.
        - cbn in *; injection E as -> <-; reflexivity.
        - rewrite merge_step in * by lia; destruct (sw_level s =? 0).
          + rewrite <- app_assoc; apply IH; exact E.
          + injection E as -> <-; reflexivity. }
      pose proof (Hshift _ w _ _ E2) as E3; rewrite E1 in E3; injection E3 as Ev <-.
      exists (sw_word sw ++ v'), post; rewrite E1; split; [rewrite Ev; reflexivity|right; exact E2].
    + exists [], (merge_loop y (sw_word sw) (sw_level sw)); rewrite app_nil_r; split; [reflexivity|left; auto].
Qed.
Lemma merge_around x z y buf lvl :
  real x -> real y -> lvl <> -1 ->
  exists pre u v post, merge_loop (x ++ zero z :: y) buf lvl = pre ++ zero (u ++ z ++ v) :: post /\
    left_part (merge_loop x buf lvl) pre u /\ right_part (builder_subwords y) post v.
Proof.
  intros Hx Hy; revert buf lvl; induction Hx as [|sw x Hsw Hx IH]; intros buf lvl Hl; cbn [app].
  - rewrite merge_step by exact Hl; cbn [sw_level zero]; destruct (0 =? lvl) eqn:E.
    + apply Z.eqb_eq in E; subst lvl; destruct (merge_right y (buf ++ z) Hy) as (v & post & E1 & E2).
      exists [], buf, v, post; cbn [app sw_word zero]; rewrite E1, <- app_assoc; split; [reflexivity|].
      split; [right; reflexivity|exact E2].
    + destruct (merge_right y z Hy) as (v & post & E1 & E2).
      exists [{| sw_word := buf; sw_level := lvl |}], [], v, post; cbn [app sw_word zero]; rewrite E1; split; [reflexivity|].
      split; [left; auto|exact E2].
  - rewrite !merge_step by exact Hl; destruct (sw_level sw =? lvl); [apply IH; exact Hl|].
    destruct (IH (sw_word sw) (sw_level sw) Hsw) as (pre & u & v & post & E1 & E2 & E3).
    exists ({| sw_word := buf; sw_level := lvl |} :: pre), u, v, post; rewrite E1; split; [reflexivity|].
    split; [|exact E3]; destruct E2 as [[-> ->]| ->]; [left; auto|right; reflexivity].
Qed.
Lemma builder_around x z y :
  real x -> real y ->
  exists pre u v post, builder_subwords (x ++ zero z :: y) = pre ++ zero (u ++ z ++ v) :: post /\
    left_part (builder_subwords x) pre u /\ right_part (builder_subwords y) post v.
Proof.
  intros Hx Hy; destruct x as [|sw x]; cbn [app].
  - rewrite builder_cons; destruct (merge_right y z Hy) as (v & post & E1 & E2).
    exists [], [], v, post; cbn [app sw_word sw_level zero] in *; rewrite E1; split; [reflexivity|split; [left; auto|exact E2]].
  - inversion Hx; subst; rewrite !builder_cons; apply merge_around; assumption.
Qed.

(** ** Transcribing subword by subword *)
Definition transcribe_piece (rules : list rule) (sw : subword) : res (list subword) :=
  if sw_level sw =? 0 then Ok [sw]
  else
    let! '(rep, _) := transcribe_rules false 0 rules 0 (sw_word sw) (new_replacer (sw_word sw) (sw_level sw) 2)
                                       (new_replacer (sw_word sw) 0 0) [] in
    let! '(_, out) := replacer_subwords rep in Ok out.
Lemma transcribe_rules_plain n rules i word rep dum recs :
  transcribe_rules false n rules i word rep dum recs =
  let! '(rep', _) := transcribe_rules false 0 rules 0 word rep dum [] in Ok (rep', recs).
Proof.
  revert word rep dum; induction rules as [|r rules IH]; intros word rep dum; cbn [transcribe_rules]; [reflexivity|].
  destruct (replacements r word); cbn [bind]; try reflexivity.
  destruct (replacer_string _) as [[dum1 word1]| | | | |]; cbn [bind]; try reflexivity.
  destruct (replacer_string _) as [[rep1 w1]| | | | |]; cbn [bind record_subword negb]; try reflexivity; apply IH.
Qed.
Lemma transcribe_loop_plain n rules i sws buf recs :
  transcribe_loop false n rules i sws buf recs =
  let! outs := mapm (transcribe_piece rules) sws in Ok (buf ++ concat outs, recs).
Proof.
  revert i buf; induction sws as [|sw sws IH]; intros i buf; cbn [transcribe_loop mapm bind concat].
  - rewrite app_nil_r; reflexivity.
  - unfold transcribe_piece at 1; destruct (sw_level sw =? 0).
    + cbn [bind]; rewrite IH; destruct (mapm _ sws); cbn [bind concat app]; try reflexivity; rewrite <- app_assoc; reflexivity.
    + rewrite transcribe_rules_plain.
      destruct (transcribe_rules false 0 rules 0 _ _ _ []) as [[rep rc]| | | | |]; cbn [bind]; try reflexivity.
      destruct (replacer_subwords rep) as [[rep1 out]| | | | |]; cbn [bind]; try reflexivity.
      rewrite IH; destruct (mapm _ sws); cbn [bind concat]; try reflexivity; rewrite app_assoc; reflexivity.
Qed.

(** Levels. *)
Lemma transcribe_rules_levels n rules i word rep dum recs rep' recs' :
  rep_wf rep -> transcribe_rules false n rules i word rep dum recs = Ok (rep', recs') ->
  rep_wf rep' /\ rr_next rep' = rr_next rep /\ (forall x, In x (rr_levels rep') -> x = rr_next rep \/ In x (rr_levels rep)).
Proof.
  revert word rep dum; induction rules as [|r rules IH]; intros word rep dum Hw; cbn [transcribe_rules].
  - intros E; injection E as <- <-; auto.
  - destruct (replacements r word) as [repls| | | | |]; cbn [bind]; try discriminate.
    destruct (replacer_string (replace_by dum _)) as [[dum1 word1]| | | | |]; cbn [bind]; try discriminate.
    destruct (string_word rep repls _ Hw eq_refl) as [(rep1 & rep0 & E1 & _ & Hw1 & Hn1 & Hl1)|[E1 _]];
      rewrite E1; cbn [bind record_subword negb]; [|discriminate].
    intros E; destruct (IH _ _ _ Hw1 E) as (Hw' & Hn & Hl); split; [exact Hw'|]; split; [congruence|].
    intros x Hx; destruct (Hl x Hx) as [->|Hx']; [left; exact Hn1|apply Hl1; exact Hx'].
Qed.
Lemma transcribe_piece_real rules sw out :
  sw_level sw <> -1 -> transcribe_piece rules sw = Ok out -> real out.
Proof.
  intros Hsw; unfold transcribe_piece; destruct (sw_level sw =? 0).
  - intros E; injection E as <-; repeat constructor; exact Hsw.
  - destruct (transcribe_rules _ _ _ _ _ _ _ _) as [[rep rc]| | | | |] eqn:E; cbn [bind]; try discriminate.
    destruct (transcribe_rules_levels _ _ _ _ _ _ _ _ _ (new_replacer_wf _ _ _) E) as (Hw & _ & Hl).
    destruct (replacer_subwords rep) as [[rep1 sws]| | | | |] eqn:Es; cbn [bind]; try discriminate.
    intros E2; injection E2 as <-; destruct (subwords_text _ _ _ Hw Es) as [_ Hf].
    eapply Forall_impl; [|exact Hf]; cbv beta; intros x Hx; destruct (Hl _ Hx) as [->|Hx']; cbn [new_replacer rr_next] in *; [lia|].
    cbn [rr_levels new_replacer] in Hx'; apply repeat_spec in Hx'; congruence.
Qed.
Lemma rewrite_piece_real rules sw out :
  sw_level sw <> -1 -> rewrite_piece rules sw = Ok out -> real out.
Proof.
  intros Hsw E; destruct (rewrite_piece_sequence _ _ _ E) as (_ & _ & _ & Hf).
  eapply Forall_impl; [|exact Hf]; cbv beta; intros x [->| ->]; [lia|exact Hsw].
Qed.
Lemma mapm_real f sws outs :
  (forall sw out, sw_level sw <> -1 -> f sw = Ok out -> real out) ->
  real sws -> mapm f sws = Ok outs -> real (concat outs).
Proof.
  intros Hf Hr E; apply mapm_forall2 in E; induction E as [|sw o sws outs Ho E IH]; [constructor|].
  inversion Hr; subst; cbn [concat]; apply Forall_app; split; [eapply Hf; eassumption|apply IH; assumption].
Qed.
Lemma mapm_app {A B} (f : A -> res B) a b : 
  mapm f (a ++ b) = let! x := mapm f a in let! y := mapm f b in Ok (x ++ y).
Proof.
  induction a as [|x a IH]; cbn [app mapm bind].
  - destruct (mapm f b); reflexivity.
  - destruct (f x); cbn [bind]; try reflexivity; rewrite IH.
    destruct (mapm f a); cbn [bind]; try reflexivity; destruct (mapm f b); reflexivity.
Qed.

(** The part of the procedure between normalization and localization, untraced. *)
Definition inner (H : hangul_lib) (s : spec) (word : bytes) : res bytes :=
  let! sws0 := partition s word in
  let! '(_, sws1) := rewrite s None sws0 in
  let! '(_, sws2) := transcribe s None sws1 in
  Ok (snd (syllabify H None sws2)).
Lemma inner_pieces H s word :
  inner H s word =
  let! sws0 := partition s word in
  let! outs := mapm (rewrite_piece (s_rewrite s)) sws0 in
  let! outs2 := mapm (transcribe_piece (s_transcribe s)) (builder_subwords (concat outs)) in
  Ok (settle H (concat outs2)).
Proof.
  unfold inner; destruct (partition s word) as [sws0| | | | |]; cbn [bind]; try reflexivity.
  unfold rewrite; cbn [is_some]; rewrite rewrite_loop_plain.
  destruct (mapm _ sws0) as [outs| | | | |]; cbn [bind app trace_commit]; try reflexivity.
  unfold transcribe; cbn [is_some]; rewrite transcribe_loop_plain.
  destruct (mapm _ _) as [outs2| | | | |]; cbn [bind app trace_commit]; reflexivity.
Qed.
Lemma after_translit_inner H s word :
  after_translit H s None word =
  let! x := inner H s (snd (normalize s None word)) in Ok (None, localize_word (s_script s) x).
Proof.
  unfold after_translit, inner, normalize; cbn [trace_word emit snd].
  destruct (partition s _) as [sws0| | | | |]; cbn [bind]; try reflexivity.
  assert (forall s sws tr' out, rewrite s None sws = Ok (tr', out) -> tr' = None) as Hr.
  { intros s' sws tr' out; unfold rewrite; cbn [is_some]; destruct (rewrite_loop _ _ _ _ _ _ _) as [[? ?]| | | | |]; cbn [bind trace_commit]; try discriminate.
    intros E; injection E as <- _; reflexivity. }
  assert (forall s sws tr' out, transcribe s None sws = Ok (tr', out) -> tr' = None) as Ht.
  { intros s' sws tr' out; unfold transcribe; cbn [is_some]; destruct (transcribe_loop _ _ _ _ _ _ _) as [[? ?]| | | | |]; cbn [bind trace_commit]; try discriminate.
    intros E; injection E as <- _; reflexivity. }
  destruct (rewrite s None sws0) as [[tr1 sws1]| | | | |] eqn:E1; cbn [bind]; try reflexivity.
  rewrite (Hr _ _ _ _ E1).
  destruct (transcribe s None sws1) as [[tr2 sws2]| | | | |] eqn:E2; cbn [bind]; try reflexivity.
  rewrite (Ht _ _ _ _ E2); reflexivity.
Qed.

(** ** Partitioning around a separating run *)
Lemma cells_of_cons sw sws : cells_of (sw :: sws) = map (fun c => (c, sw_level sw)) (runes (sw_word sw)) ++ cells_of sws.
Proof. reflexivity. Qed.
Lemma cells_head sw sws :
  sw_word sw <> [] -> exists c rest, cells_of (sw :: sws) = (c, sw_level sw) :: rest.
Proof.
  intros Hn; rewrite cells_of_cons; destruct (runes (sw_word sw)) as [|c rs] eqn:E.
  - exfalso; apply Hn; apply runes_nil_inv; exact E.
  - do 2 eexists; reflexivity.
Qed.
Lemma cells_unique a b :
  cells_of a = cells_of b -> levels_alternate a -> levels_alternate b ->
  Forall (fun sw => sw_word sw <> []) a -> Forall (fun sw => sw_word sw <> []) b ->
  Forall (fun sw => utf8_text (sw_word sw)) a -> Forall (fun sw => utf8_text (sw_word sw)) b -> a = b.
Proof.
  revert b; induction a as [|x a IH]; intros [|y b] E Ha Hb Na Nb Ua Ub; [reflexivity| | |].
  - inversion Nb as [|? ? Ny _]; subst; destruct (cells_head y b Ny) as (c & r & Ec); rewrite Ec in E; discriminate.
  - inversion Na as [|? ? Nx _]; subst; destruct (cells_head x a Nx) as (c & r & Ec); rewrite Ec in E; discriminate.
  - inversion Na as [|? ? Nx Na']; inversion Nb as [|? ? Ny Nb']; inversion Ua as [|? ? Ux Ua']; inversion Ub as [|? ? Uy Ub']; subst.
    assert (sw_level x = sw_level y) as El.
    { destruct (cells_head x a Nx) as (c & r & Ec), (cells_head y b Ny) as (c' & r' & Ec').
      rewrite Ec, Ec' in E; congruence. }
    assert (levels_alternate a /\ levels_alternate b) as [Ha' Hb'].
    { split; [destruct a; [exact I|apply Ha]|destruct b; [exact I|apply Hb]]. }
    assert (forall p q l (c d : cells), map (fun c => (c, l)) p ++ c = map (fun c => (c, l)) q ++ d ->
              (forall k r, c <> (k, l) :: r) -> (forall k r, d <> (k, l) :: r) -> p = q /\ c = d) as Hpre.
    { clear; induction p as [|k p IH]; intros [|k' q] l c d E Hc Hd; cbn [map app] in E.
      - auto.
      - exfalso; eapply Hc; exact E.
      - exfalso; eapply Hd; symmetry; exact E.
      - injection E as -> E; destruct (IH _ _ _ _ E Hc Hd) as [-> ->]; auto. }
    assert (forall sw sws, levels_alternate (sw :: sws) -> Forall (fun s => sw_word s <> []) sws ->
              forall k r, cells_of sws <> (k, sw_level sw) :: r) as Hhd.
    { clear; intros sw [|s sws] Hl Hn k r E; [discriminate|].
      inversion Hn as [|? ? Hs _]; subst; destruct (cells_head s sws Hs) as (c & q & Ec); rewrite Ec in E.
      injection E as _ E _; destruct Hl as [Hl _]; congruence. }
    rewrite !cells_of_cons, El in E.
    destruct (Hpre _ _ _ _ _ E) as [Er Ec].
    { rewrite <- El; apply Hhd; assumption. }
    { apply Hhd; assumption. }
    assert (sw_word x = sw_word y) as Ew by (apply utf8_text_runes in Ux; apply utf8_text_runes in Uy; congruence).
    f_equal; [destruct x, y; cbn in *; congruence|apply IH; assumption].
Qed.

Lemma alternate_around pre w post :
  levels_alternate pre -> levels_alternate post ->
  (forall p sw, pre = p ++ [sw] -> sw_level sw <> 0) -> (forall sw p, post = sw :: p -> sw_level sw <> 0) ->
  levels_alternate (pre ++ zero w :: post).
Proof.
  induction pre as [|x pre IH]; intros Hp Hq Hl Hr; cbn [app].
  - destruct post as [|y post]; [exact I|]; split; [|exact Hq].
    cbn [sw_level zero]; intros E; exact (Hr y post eq_refl (eq_sym E)).
  - destruct pre as [|x' pre]; cbn [app].
    + split; [cbn [sw_level zero]; apply (Hl [] x); reflexivity|apply IH; [exact I|exact Hq| |exact Hr]].
      intros p sw E; destruct p; discriminate.
    + split; [apply Hp|]; apply IH; [apply Hp|exact Hq| |exact Hr].
      intros p sw E; apply (Hl (x :: p) sw); rewrite E; reflexivity.
Qed.

Lemma partition_around s a run b :
  scalars a -> scalars run -> scalars b -> run <> [] ->
  Forall (fun c => meaningful s c = false) run ->
  (forall p c, a = p ++ [c] -> meaningful s c = true) -> (forall c p, b = c :: p -> meaningful s c = true) ->
  exists pa pb, partition s (encode a) = Ok pa /\ partition s (encode b) = Ok pb /\
    partition s (encode (a ++ run ++ b)) = Ok (pa ++ zero (encode run) :: pb) /\
    real pa /\ real pb.
Proof.
  intros Sa Sr Sb Hn Hm Hla Hfb.
  destruct (partition_cells s a Sa) as (pa & Ea & Ca & Aa & Na & Ua).
  destruct (partition_cells s b Sb) as (pb & Eb & Cb & Ab & Nb & Ub).
  assert (scalars (a ++ run ++ b)) as Sall by (unfold scalars in *; rewrite !Forall_app; auto).
  destruct (partition_cells s (a ++ run ++ b) Sall) as (p & E & C & A & N & U).
  assert (utf8_text (encode run)) as Ur by (exists run; auto).
  assert (forall rs p, cells_of p = map (fun c => (c, if meaningful s c then 1 else 0)) rs ->
            Forall (fun sw => sw_word sw <> []) p -> real p) as Hreal.
  { intros rs q Hc Hq; apply Forall_forall; intros sw Hin; rewrite Forall_forall in Hq; specialize (Hq sw Hin).
    apply in_split in Hin; destruct Hin as (q1 & q2 & ->).
    unfold cells_of in Hc; rewrite flat_map_app in Hc; cbn [flat_map] in Hc.
    destruct (runes (sw_word sw)) as [|c rest] eqn:Er; [exfalso; apply Hq, runes_nil_inv; exact Er|].
    assert (In (c, sw_level sw) (map (fun c => (c, if meaningful s c then 1 else 0)) rs)) as Hin.
    { rewrite <- Hc; apply in_or_app; right; left; reflexivity. }
    apply in_map_iff in Hin; destruct Hin as (c' & Ec & _); injection Ec as _ El; destruct (meaningful s c'); lia. }
  exists pa, pb; split; [exact Ea|]; split; [exact Eb|]; split; [|split; eapply Hreal; eassumption].
  rewrite E; f_equal; apply cells_unique; try assumption.
  - rewrite C; unfold cells_of; rewrite flat_map_app; cbn [flat_map sw_level sw_word zero].
    fold (cells_of pa); fold (cells_of pb); rewrite Ca, Cb, !map_app; f_equal; f_equal.
    rewrite runes_encode by exact Sr; apply map_ext_in; intros c Hin; rewrite Forall_forall in Hm; rewrite (Hm c Hin); reflexivity.
  - apply alternate_around; try assumption.
    + intros q sw ->; apply Forall_app in Na; destruct Na as [_ Na]; inversion Na as [|? ? Nsw _]; subst.
      assert (exists rest c, a = rest ++ [c] /\ sw_level sw = if meaningful s c then 1 else 0) as (rest & c & -> & ->).
      { unfold cells_of in Ca; rewrite flat_map_app in Ca; cbn [flat_map] in Ca; rewrite app_nil_r in Ca.
        destruct (exists_last (l := runes (sw_word sw))) as (rs0 & c0 & Er); [intros Er; apply Nsw, runes_nil_inv; exact Er|].
        rewrite Er, map_app, app_assoc in Ca; cbn [map] in Ca.
        destruct (exists_last (l := a)) as (rest & c & ->).
        { intros ->; destruct (flat_map _ q ++ _); discriminate. }
        rewrite map_app in Ca; cbn [map] in Ca; apply app_inj_tail in Ca; destruct Ca as [_ Ca]; injection Ca as _ Cl.
        exists rest, c; auto. }
      rewrite (Hla rest c eq_refl); lia.
    + intros sw q ->; inversion Nb as [|? ? Nsw _]; subst; destruct (cells_head sw q Nsw) as (c & r & Ec).
      rewrite Ec in Cb; destruct b as [|c' b]; [discriminate|]; cbn [map] in Cb; injection Cb as _ Cl _.
      rewrite Cl, (Hfb c' b eq_refl); lia.
  - apply Forall_app; split; [exact Na|]; constructor; [|exact Nb]; cbn [sw_word zero].
    intros Er; apply Hn; apply encode_nil_inv; exact Er.
  - apply Forall_app; split; [exact Ua|]; constructor; [exact Ur|exact Ub].
Qed.

(** ** Untouched runs *)
Definition untouched (rules : list rule) (word : bytes) : Prop :=
  Forall (fun r => find (rule_from r) word (-1) = Ok []) rules.

Lemma untouched_rules n rules i word rep recs :
  untouched rules word -> rep_wf rep -> rr_word rep = word ->
  rewrite_rules false n rules i word rep recs = Ok (rep, recs).
Proof.
  intros Hu; revert rep; induction Hu as [|r rules Hr Hu IH]; intros rep Hw Ew; cbn [rewrite_rules]; [reflexivity|].
  unfold replacements at 1; rewrite Hr; cbn [bind rule_repls].
  assert (replacer_string (replace_by rep []) = Ok (rep, word)) as ->; [|cbn [bind record_subword negb]; apply IH; assumption].
  destruct rep as [w rp lv nx]; destruct Hw as [Hl Hr']; cbn [rr_repls rr_word rr_levels] in *; subst.
  unfold replace_by, replacer_string, commit; cbn [rr_repls rr_word rr_levels rr_next app commit_loop]; rewrite !slice_all; reflexivity.
Qed.
Lemma untouched_piece rules run :
  scalars run -> run <> [] -> untouched rules (encode run) ->
  rewrite_piece rules (zero (encode run)) = Ok [zero (encode run)].
Proof.
  intros Hs Hn Hu; unfold rewrite_piece; cbn [sw_word sw_level zero].
  rewrite untouched_rules by (try assumption; try reflexivity; apply new_replacer_wf); cbn [bind].
  rewrite new_replacer_cells.
  destruct (replacer_subwords_ok (map (fun c => (c, 0)) run) 1) as (sws & E & Hc & Ha & Hne & Hu').
  { unfold scalar_cells; rewrite map_map; cbn [fst]; rewrite map_id; exact Hs. }
  rewrite E; cbn [bind]; f_equal; apply cells_unique; try assumption.
  - rewrite Hc; unfold cells_of; cbn [flat_map sw_word sw_level zero]; rewrite app_nil_r, runes_encode by exact Hs; reflexivity.
  - exact I.
  - constructor; [|constructor]; cbn [sw_word]; intros Er; apply Hn, encode_nil_inv; exact Er.
  - constructor; [|constructor]; apply encode_utf8_text.
Qed.

(** ** The result around a run *)
Section Around.
  Context (H : hangul_lib) (s : spec).

  Lemma transcribed_left sws pre u outs :
    real sws -> left_part sws pre u -> mapm (transcribe_piece (s_transcribe s)) sws = Ok outs ->
    exists o, mapm (transcribe_piece (s_transcribe s)) pre = Ok o /\ real (concat o) /\
      settle H (concat outs) = settle H (concat o) ++ u.
  Proof.
    intros Hr [[-> ->]| ->] E.
    - exists outs; split; [exact E|]; split; [|rewrite app_nil_r; reflexivity].
      eapply mapm_real; [apply transcribe_piece_real|exact Hr|exact E].
    - rewrite mapm_app in E; destruct (mapm _ pre) as [o| | | | |] eqn:Eo; cbn [bind mapm] in E; try discriminate.
      unfold transcribe_piece in E; cbn [sw_level zero Z.eqb bind] in E; injection E as <-.
      apply Forall_app in Hr; destruct Hr as [Hr _].
      assert (real (concat o)) as Ho by (eapply mapm_real; [apply transcribe_piece_real|exact Hr|exact Eo]).
      exists o; split; [reflexivity|]; split; [exact Ho|].
      rewrite concat_app; cbn [concat app]; rewrite settle_split; [|exact Ho|constructor|reflexivity].
      rewrite settle_nil; cbn [sw_word zero]; rewrite app_nil_r; reflexivity.
  Qed.
  Lemma transcribed_right sws post v outs :
    real sws -> right_part sws post v -> mapm (transcribe_piece (s_transcribe s)) sws = Ok outs ->
    exists o, mapm (transcribe_piece (s_transcribe s)) post = Ok o /\ real (concat o) /\
      settle H (concat outs) = v ++ settle H (concat o).
  Proof.
    intros Hr [[-> ->]| ->] E.
    - exists outs; split; [exact E|]; split; [|reflexivity].
      eapply mapm_real; [apply transcribe_piece_real|exact Hr|exact E].
    - cbn [mapm] in E; unfold transcribe_piece at 1 in E; cbn [sw_level zero Z.eqb bind] in E.
      destruct (mapm _ post) as [o| | | | |] eqn:Eo; cbn [bind] in E; try discriminate; injection E as <-.
      inversion Hr as [|? ? _ Hr']; subst.
      assert (real (concat o)) as Ho by (eapply mapm_real; [apply transcribe_piece_real|exact Hr'|exact Eo]).
      exists o; split; [reflexivity|]; split; [exact Ho|].
      change (concat ([zero v] :: o)) with ([] ++ zero v :: concat o); rewrite settle_split; [|constructor|exact Ho|reflexivity].
      rewrite settle_nil; reflexivity.
  Qed.
  Lemma left_total sws pre u :
    left_part sws pre u ->
    forall o, mapm (transcribe_piece (s_transcribe s)) pre = Ok o ->
    exists outs, mapm (transcribe_piece (s_transcribe s)) sws = Ok outs.
  Proof.
    intros [[-> ->]| ->] o E; [eauto|].
    rewrite mapm_app, E; cbn [bind mapm]; unfold transcribe_piece; cbn [sw_level zero Z.eqb bind]; eauto.
  Qed.
  Lemma right_total sws post v :
    right_part sws post v ->
    forall o, mapm (transcribe_piece (s_transcribe s)) post = Ok o ->
    exists outs, mapm (transcribe_piece (s_transcribe s)) sws = Ok outs.
  Proof.
    intros [[-> ->]| ->] o E; [eauto|].
    cbn [mapm]; unfold transcribe_piece at 1; cbn [sw_level zero Z.eqb bind]; rewrite E; cbn [bind]; eauto.
  Qed.

  Definition edge_meaningful (a b : list rune) : Prop :=
    (forall p c, a = p ++ [c] -> meaningful s c = true) /\ (forall c p, b = c :: p -> meaningful s c = true).

  Lemma inner_around a run b z :
    scalars a -> scalars run -> scalars b -> run <> [] ->
    Forall (fun c => meaningful s c = false) run -> edge_meaningful a b ->
    untouched (s_rewrite s) (encode run) ->
    inner H s (encode (a ++ run ++ b)) = Ok z <->
    exists x y, inner H s (encode a) = Ok x /\ inner H s (encode b) = Ok y /\ z = x ++ encode run ++ y.
  Proof.
    intros Sa Sr Sb Hn Hm [Hla Hfb] Hu.
    destruct (partition_around s a run b Sa Sr Sb Hn Hm Hla Hfb) as (pa & pb & Ea & Eb & E & Ra & Rb).
    rewrite !inner_pieces, Ea, Eb, E; cbn [bind].
    rewrite mapm_app; cbn [mapm]; rewrite untouched_piece by assumption; cbn [bind].
    split.
    - intros Hz.
      destruct (mapm (rewrite_piece _) pa) as [oa| | | | |] eqn:Eoa; cbn [bind] in Hz; try discriminate.
      destruct (mapm (rewrite_piece _) pb) as [ob| | | | |] eqn:Eob; cbn [bind] in Hz; try discriminate.
      pose proof (mapm_real _ _ _ (rewrite_piece_real (s_rewrite s)) Ra Eoa) as Roa.
      pose proof (mapm_real _ _ _ (rewrite_piece_real (s_rewrite s)) Rb Eob) as Rob.
      rewrite concat_app in Hz; cbn [concat app] in Hz.
      destruct (builder_around (concat oa) (encode run) (concat ob) Roa Rob) as (pre & u & v & post & B & L & R).
      rewrite B, mapm_app in Hz; cbn [mapm] in Hz.
      destruct (mapm (transcribe_piece _) pre) as [ta| | | | |] eqn:Eta; cbn [bind] in Hz; try discriminate.
      unfold transcribe_piece at 1 in Hz; cbn [sw_level zero Z.eqb bind] in Hz.
      destruct (mapm (transcribe_piece _) post) as [tb| | | | |] eqn:Etb; cbn [bind] in Hz; try discriminate.
      destruct (left_total _ _ _ L _ Eta) as (la & Ela), (right_total _ _ _ R _ Etb) as (rb & Erb).
      destruct (transcribed_left _ _ _ _ (builder_real _ Roa) L Ela) as (ta' & Eta' & Rta & Sta).
      destruct (transcribed_right _ _ _ _ (builder_real _ Rob) R Erb) as (tb' & Etb' & Rtb & Stb).
      rewrite Eta in Eta'; injection Eta' as <-; rewrite Etb in Etb'; injection Etb' as <-.
      cbn [bind]; rewrite Ela, Erb; cbn [bind]; do 2 eexists; split; [reflexivity|]; split; [reflexivity|].
      injection Hz as <-; rewrite concat_app; cbn [concat app]; rewrite settle_split by (assumption || reflexivity).
      cbn [sw_word zero]; rewrite Sta, Stb, <- !app_assoc; reflexivity.
    - intros (x & y & Hx & Hy & ->).
      destruct (mapm (rewrite_piece _) pa) as [oa| | | | |] eqn:Eoa; cbn [bind] in Hx |- *; try discriminate.
      destruct (mapm (rewrite_piece _) pb) as [ob| | | | |] eqn:Eob; cbn [bind] in Hy |- *; try discriminate.
      pose proof (mapm_real _ _ _ (rewrite_piece_real (s_rewrite s)) Ra Eoa) as Roa.
      pose proof (mapm_real _ _ _ (rewrite_piece_real (s_rewrite s)) Rb Eob) as Rob.
      rewrite concat_app; cbn [concat app].
      destruct (builder_around (concat oa) (encode run) (concat ob) Roa Rob) as (pre & u & v & post & B & L & R).
      rewrite B, mapm_app; cbn [mapm].
      destruct (mapm (transcribe_piece _) (builder_subwords (concat oa))) as [la| | | | |] eqn:Ela; cbn [bind] in Hx; try discriminate.
      destruct (mapm (transcribe_piece _) (builder_subwords (concat ob))) as [rb| | | | |] eqn:Erb; cbn [bind] in Hy; try discriminate.
      destruct (transcribed_left _ _ _ _ (builder_real _ Roa) L Ela) as (ta & Eta & Rta & Sta).
      destruct (transcribed_right _ _ _ _ (builder_real _ Rob) R Erb) as (tb & Etb & Rtb & Stb).
      rewrite Eta, Etb; unfold transcribe_piece at 1; cbn [sw_level zero Z.eqb bind].
      injection Hx as <-; injection Hy as <-; f_equal.
      rewrite concat_app; cbn [concat app]; rewrite settle_split by (assumption || reflexivity).
      cbn [sw_word zero]; rewrite Sta, Stb, <- !app_assoc; reflexivity.
  Qed.
  Lemma inner_nil : inner H s [] = Ok []. Proof. reflexivity. Qed.
End Around.

(** ** Normalization of foreign text *)
Definition occurs (k word : bytes) : Prop := exists p q, word = p ++ k ++ q.
Lemma replacer_absent t word :
  (forall k v, In (k, v) t -> ~ occurs k word) -> replacer_replace t word = word.
Proof.
  intros Hn.
  assert (no_empty_key t) as Hk by (intros v Hin; apply (Hn [] v Hin); exists [], word; reflexivity).
  unfold replacer_replace; revert Hn; induction word as [|c w IH]; intros Hn; [apply rep_from_nil; exact Hk|].
  cbn [rep_from].
  assert (rep_lookup t (c :: w) false = None) as ->.
  { apply rep_lookup_none; intros k v Hin; destruct (matches k (c :: w) false) eqn:E; [|reflexivity].
    apply matches_prefix in E; destruct E as (r & E); exfalso; apply (Hn k v Hin); exists [], r; exact E. }
  cbn [app]; f_equal; apply IH; intros k v Hin (p & q & E); apply (Hn k v Hin); exists (c :: p), q; rewrite E; reflexivity.
Qed.
Lemma normalize_foreign s rs :
  scalars rs -> Forall (fun c => meaningful s c = false) rs ->
  (forall k v, In (k, v) (s_normReplacer s) -> ~ occurs k (encode rs)) ->
  snd (normalize s None (encode rs)) = encode rs.
Proof.
  intros Hs Hm Hn; unfold normalize; cbn [snd]; rewrite replacer_absent by exact Hn.
  rewrite runes_encode by exact Hs; f_equal; rewrite <- (map_id rs) at 2; apply map_ext_in; intros c Hin.
  rewrite Forall_forall in Hm; specialize (Hm c Hin); unfold meaningful in Hm; unfold norm_rune.
  destruct (script_is (s_script s) c); [discriminate|]; cbn [negb]; rewrite orb_true_r; reflexivity.
Qed.
Lemma localize_plain sc prev (rs : list rune) :
  Forall (fun c => is_punct c = false /\ c <> 0x200B%N) rs -> localize_loop sc prev rs = rs.
Proof.
  intros Hf; revert prev; induction Hf as [|c rs [Hp Hz] Hf IH]; intros prev; cbn [localize_loop]; [reflexivity|].
  apply N.eqb_neq in Hz; rewrite Hz, Hp; cbn [negb]; rewrite IH; reflexivity.
Qed.
