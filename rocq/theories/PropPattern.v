(** Properties C08, C09, C11, C12, C15, C16, C53 and C55: patterns read from their source text. *)
From Coq Require Import String.
From Verif Require Import GoBase Utf8 Utf8Facts Replacer Regex RegexSpec RegexFacts CaptureFacts RegexParse
  ParseFacts Hre FindFacts Subword SubwordFacts Rule RuleFacts Hsl Scripts Spec PropFind SourceFacts PatternFacts SrcFacts
  FindSrc WidthFacts LookFacts.
Open Scope Z_scope.

(** ** Sources with balanced brackets

    [src] (SrcFacts.v) is an expression taken apart: edges ^ and ^^, a lookaround in braces,
    the body, a lookaround, edges $ and $$.  [reads e macros vars s rb nb]: macros and
    variables expanded, the expression [e] is the text of [s], and each part of [s] is a
    regular expression on its own (so no bracket is opened in one part and closed in
    another); [rb] is the parsed body and [nb] the number of its groups. *)
Definition reads (e : bytes) (macros : macros_map) (vars : vars_map) (s : src) (rb : re) (nb : nat) : Prop :=
  e <> [] /\ (exists used, expand_vars (expand_macros e macros) vars = (encode (src_text s), used)) /\
  balanced s rb nb.

(** Proves [reads] for concrete sources. *)
Lemma plain_b x : forallb (fun r => negb (r =? 0x7B)%N && negb (r =? 0x7D)%N) x = true -> plain x.
Proof.
  intros H; apply Forall_forall; intros r Hr; rewrite forallb_forall in H; specialize (H r Hr).
  apply andb_true_iff in H; destruct H as [H1 H2]; apply negb_true_iff in H1, H2.
  apply N.eqb_neq in H1, H2; split; assumption.
Qed.
Ltac read_look :=
  cbn [look_ok s_behind s_ahead];
  lazymatch goal with
  | |- True => exact I
  | _ => repeat split; try (apply plain_b; reflexivity); try (apply scalars_b; reflexivity); try (vm_compute; congruence)
  end.
Ltac read_balanced :=
  cbn [look_balanced s_behind s_ahead];
  lazymatch goal with
  | |- True => exact I
  | |- exists r n, _ => do 2 eexists; vm_compute; reflexivity
  | |- exists r, _ => eexists; vm_compute; reflexivity
  end.
Ltac read_src :=
  lazymatch goal with |- reads _ _ _ ?s _ _ => try unfold s end;
  split; [discriminate|split; [eexists; vm_compute; reflexivity|]];
  split;
  [ split;
    [ read_look | read_look | apply scalars_b; reflexivity | vm_compute; congruence | apply paired_true; reflexivity
    | intros _; vm_compute; congruence | intros _; vm_compute; congruence ]
  | vm_compute; reflexivity
  | read_balanced
  | read_balanced ].

(** {h}(a|e+)r?{~l} *)
Definition ex_src : src := Src 0 (Pos (txt "h")) (txt "(a|e+)r?") (Neg (txt "l|mn")) 0.
Lemma ex_reads : exists rb, reads (lit "{h}(a|e+)r?{~l|mn}") [] [] ex_src rb 1.
Proof. eexists; read_src. Qed.

(** ** C08 for every pattern with balanced brackets *)
Theorem C08_matches : forall e macros vars s rb nb p word n ms,
  reads e macros vars s rb nb -> new_pattern e macros vars = Ok p -> find p word n = Ok ms ->
  ordered word 0 ms.
Proof.
  intros e macros vars s rb nb p word n ms (He & (used & Hx) & B) Hp Hf.
  destruct (balanced_find e macros vars s used rb nb p word n He Hx B Hp) as [(ms' & E & Ho)|[E _]];
    rewrite Hf in E; [apply ok_eq in E; subst; exact Ho|discriminate].
Qed.
Print Assumptions C08_matches.

(** The same in words of byte positions: every match is inside of the word, not empty, and
    starts and stops between characters, ... *)
Theorem C08_inside : forall e macros vars s rb nb p word n ms m,
  reads e macros vars s rb nb -> new_pattern e macros vars = Ok p -> find p word n = Ok ms -> In m ms ->
  exists start stop core, m = start :: stop :: core /\ 0 <= start < stop /\ stop <= len word /\
    boundary word start /\ boundary word stop.
Proof.
  intros; eapply ordered_in; [eapply C08_matches; eassumption|assumption].
Qed.
Print Assumptions C08_inside.
(** ... and a match earlier in the list stops before a later one starts. *)
Theorem C08_apart : forall e macros vars s rb nb p word n ms1 m1 ms2 m2 ms3,
  reads e macros vars s rb nb -> new_pattern e macros vars = Ok p ->
  find p word n = Ok (ms1 ++ m1 :: ms2 ++ m2 :: ms3) ->
  exists a b c d core core', m1 = a :: b :: core /\ m2 = c :: d :: core' /\ b <= c.
Proof.
  intros; eapply ordered_disjoint; eapply C08_matches; eassumption.
Qed.
Print Assumptions C08_apart.

Example C08_source_example :
  (exists rb, reads (lit "{h}(a|e+)r?{~l|mn}") [] [] ex_src rb 1) /\
  find (pat "{h}(a|e+)r?{~l|mn}") (lit "hamheerlharmnhammha") (-1) =
    Ok [[1; 2; 1; 2]; [14; 15; 14; 15]; [18; 19; 18; 19]].
Proof. split; [exact ex_reads|vm_compute; reflexivity]. Qed.

(** ** C09 for every pattern with balanced brackets *)
Theorem C09_balanced_partial : forall e macros vars s rb nb p word n,
  reads e macros vars s rb nb -> new_pattern e macros vars = Ok p ->
  find p word n <> Hang /\ find p word n <> NoFuel.
Proof.
  intros e macros vars s rb nb p word n (He & (used & Hx) & B) Hp.
  destruct (balanced_find e macros vars s used rb nb p word n He Hx B Hp) as [(ms & -> & _)|[-> _]]; split; discriminate.
Qed.
Print Assumptions C09_balanced_partial.

(** ** C11 for every pattern with balanced brackets *)
Theorem C11_balanced_partial : forall e macros vars s rb nb r word ms,
  reads e macros vars s rb nb -> new_pattern e macros vars = Ok (rule_from r) ->
  find (rule_from r) word (-1) = Ok ms ->
  Forall (fun m => fine (interpolate (rule_to r) (rule_from r) word m)) ms ->
  exists out, edited r word 0 ms out /\ rule_replace r word = Ok out /\
    pattern_replace (rule_from r) word (rule_to r) (-1) = Ok out.
Proof.
  intros e macros vars s rb nb r word ms Hr Hp Hf Hi.
  pose proof (C08_matches _ _ _ _ _ _ _ _ _ _ Hr Hp Hf) as Ho.
  destruct (ordered_edited r word 0 ms Ho ltac:(lia) Hi) as (out & He); exists out.
  split; [exact He|exact (replace_agree r word ms out Hf He)].
Qed.
Print Assumptions C11_balanced_partial.

(** ** C12 for every pattern with balanced brackets *)

(** The only panic left is the one for a match of nothing ... *)
Theorem C12_only_zero_width : forall e macros vars s rb nb p word n k,
  reads e macros vars s rb nb -> new_pattern e macros vars = Ok p -> find p word n = Panic k -> k = PZeroWidth.
Proof.
  intros e macros vars s rb nb p word n k (He & (used & Hx) & B) Hp Hf.
  destruct (balanced_find e macros vars s used rb nb p word n He Hx B Hp) as [(ms & E & _)|[E _]];
    rewrite E in Hf; [discriminate|injection Hf as <-; reflexivity].
Qed.
Print Assumptions C12_only_zero_width.
(** ... and a body which cannot match nothing rules it out. *)
Theorem C12_body_partial : forall e macros vars s rb nb p word n k,
  reads e macros vars s rb nb -> (forall pre post, ~ rmatch rb pre [] post) ->
  new_pattern e macros vars = Ok p -> find p word n <> Panic k.
Proof.
  intros e macros vars s rb nb p word n k (He & (used & Hx) & B) Hne Hp.
  destruct (balanced_find e macros vars s used rb nb p word n He Hx B Hp) as [(ms & -> & _)|[_ (pre & post & Hm)]];
    [discriminate|exfalso; exact (Hne _ _ Hm)].
Qed.
Print Assumptions C12_body_partial.
Lemma rmatch_nullable r pre post : rmatch r pre [] post -> nullable (simplify r) = true.
Proof.
  intros H; destruct (nullable (simplify r)) eqn:E; [reflexivity|exfalso].
  set (p := match pre with [] => O | _ => 1%nat end).
  assert (at_start pre p) as Hp by (subst p; destruct pre; split; intros; congruence).
  assert (exists gs, wide gs /\ runes_of gs = post) as (gs & Hg & <-).
  { exists (map (fun x => (x, 1%nat)) post); split; [apply Forall_map, Forall_forall; intros; cbn; lia|].
    unfold runes_of; rewrite map_map; apply map_id. }
  destruct (proj2 (means_simplify r) [] gs p pre Hg Hp H []) as (c & Hr).
  destruct (runs_nullable _ _ _ _ _ _ _ Hr E) as (v & Hv & E2); cbn [app] in E2.
  destruct v; [congruence|]; apply (f_equal (@length _)) in E2; cbn in E2; rewrite app_length in E2; lia.
Qed.
Example C12_body_example : exists rb, reads (lit "{h}(a|e+)r?{~l|mn}") [] [] ex_src rb 1 /\
  forall pre post, ~ rmatch rb pre [] post.
Proof.
  eexists; split; [read_src|]; intros pre post H.
  apply rmatch_nullable in H; discriminate.
Qed.

(** ** C15 RegexpMaxWidth

    [unlimited r]: something in [r] is repeated without a limit. [tame r]: nothing unlimited
    is itself repeated a limited number of times, and limits are not below minimums (which
    the parser rejects). *)
Theorem C15_bound_partial : forall r, tame r = true ->
  (max_width r = -1 <-> unlimited r = true) /\
  (0 <= max_width r -> forall pre mid post, rmatch r pre mid post -> len mid <= max_width r).
Proof.
  intros r Ht; pose proof (tame_width r Ht) as Hw; destruct (unlimited r) eqn:Eu; split.
  - split; auto.
  - intros; lia.
  - split; [lia|discriminate].
  - intros _ pre mid post H; exact (tame_bound r pre mid post H Ht Eu).
Qed.
Print Assumptions C15_bound_partial.

(** Without counted repetition, as in every negative lookaround of an accepted rule. *)
Theorem C15_uncounted : forall text r n, ~ In 0x7D%N text -> parse_from 0 text = Ok (r, n) ->
  (max_width r = -1 <-> unlimited r = true) /\
  (0 <= max_width r -> forall pre mid post, rmatch r pre mid post -> len mid <= max_width r).
Proof.
  intros text r n Hb Hp; apply C15_bound_partial, uncounted_tame.
  eapply parse_from_unc; [|exact Hp]; apply Forall_forall; intros x Hx ->; exact (Hb Hx).
Qed.
Print Assumptions C15_uncounted.

(** The same for what the engine finds. *)
Theorem C15_engine_partial : forall source e word a b c,
  compile_re source = Ok e -> tame (tree e) = true -> 0 <= max_width (tree e) ->
  search (prog e) (glyphs word) 0 = Some (a, b, c) ->
  exists P V Q, glyphs word = P ++ V ++ Q /\ a = gwidth P /\ b = gwidth (P ++ V) /\ len V <= max_width (tree e).
Proof.
  intros source e word a b c Hc Ht Hw Hs.
  assert (prog e = simplify (tree e)) as Ep.
  { unfold compile_re in Hc; destruct (parse_re source) as [[r k]| | | | |]; try discriminate; injection Hc as <-; reflexivity. }
  rewrite Ep in Hs; destruct (search_sound _ _ _ _ _ _ Hs) as (u & v & w & Eg & -> & -> & Hr); cbn [Nat.add] in *.
  exists u, v, w; split; [exact Eg|]; split; [reflexivity|]; split; [rewrite gwidth_app; reflexivity|].
  destruct (C15_bound_partial _ Ht) as [_ Hb].
  assert (rmatch (tree e) (runes_of u) (runes_of v) (runes_of w)) as Hm.
  { pose proof (glyphs_wide word) as Hwd; rewrite Eg in Hwd.
    apply wide_app in Hwd; destruct Hwd as [Hu Hwd].
    eapply (means_simplify (tree e)); [exact Hwd| |exact Hr].
    apply (at_start_app [] 0 u); [split; reflexivity|exact Hu]. }
  pose proof (Hb Hw _ _ _ Hm) as H; unfold len, runes_of in *; rewrite map_length in H; exact H.
Qed.
Print Assumptions C15_engine_partial.

(** Five characters where the reported width is one: an unlimited part repeated twice counts
    as minus two. *)
Theorem C15_counted_refuted : exists source e word caps,
  compile_re source = Ok e /\ max_width (tree e) = 1 /\ find_submatch_index e word = 0 :: 5 :: caps.
Proof.
  exists (lit "(a*){2}bbb").
  destruct (compile_re (lit "(a*){2}bbb")) as [e| | | | |] eqn:E; [|vm_compute in E; discriminate..].
  exists e, (lit "aabbb"); vm_compute in E; injection E as <-; eexists; vm_compute; repeat split.
Qed.
Print Assumptions C15_counted_refuted.
Theorem C15_minus_one_refuted : exists source r n,
  parse_re source = Ok (r, n) /\ unlimited r = true /\ max_width r = -2.
Proof. exists (lit "(a*){2}"); do 2 eexists; vm_compute; repeat split. Qed.
Print Assumptions C15_minus_one_refuted.

Example C15_example : exists r n,
  parse_from 0 (txt "(ab?|[c-e]f.|g|)x") = Ok (r, n) /\ max_width r = 4.
Proof. do 2 eexists; vm_compute; split; reflexivity. Qed.

(** ** C16 Negative lookaround

    [A] is the text right after (before) the match, [r] the expression of the lookaround.
    What is missing for the full property, each part being false without the restriction:
    the body has no alternation at the top ([one_branch]), the lookaround does not stand next
    to an edge, [A] consists of characters of one byte, and a lookbehind is only tested with
    enough text before the match. Edges in [r] are read as those of Go, not as those of HRE. *)
Definition narrow (A : list (rune * nat)) : Prop := Forall (fun g => snd g = 1%nat) A.

Theorem C16_ahead_partial : forall e macros vars s rb nb p word n ms start stop core x r k P A B,
  reads e macros vars s rb nb -> one_branch s -> new_pattern e macros vars = Ok p ->
  s_ahead s = Neg x -> s_right s = O -> parse_from 0 (nocap x) = Ok (r, k) ->
  find p word n = Ok ms -> In (start :: stop :: core) ms ->
  glyphs word = P ++ A ++ B -> Z.of_nat (gwidth P) = stop -> narrow A ->
  ~ rmatch r (runes_of P) (runes_of A) (runes_of B).
Proof.
  intros e macros vars s rb nb p word n ms start stop core x r k P A B (He & (used & Hx) & Hb) H1 Hp Ea Er Hr
    Hf Hin Eg Hs HA Hm.
  assert (plain x) as Hpl by (pose proof (ok_ahead _ (bal_ok _ _ _ Hb)) as Hok; rewrite Ea in Hok; apply Hok).
  pose proof (narrow_text x r k A _ _ Hpl Hr HA Hm) as Hw; revert Hm; eapply ahead_respected; eassumption.
Qed.
Print Assumptions C16_ahead_partial.

Theorem C16_behind_partial : forall e macros vars s rb nb p word n ms start stop core x r k P A B,
  reads e macros vars s rb nb -> one_branch s -> new_pattern e macros vars = Ok p ->
  s_behind s = Neg x -> s_left s = O -> parse_from 0 (nocap x) = Ok (r, k) ->
  find p word n = Ok ms -> In (start :: stop :: core) ms ->
  glyphs word = P ++ A ++ B -> Z.of_nat (gwidth (P ++ A)) = start -> narrow A -> max_width r <= start ->
  ~ rmatch r (runes_of P) (runes_of A) (runes_of B).
Proof.
  intros e macros vars s rb nb p word n ms start stop core x r k P A B (He & (used & Hx) & Hb) H1 Hp Ea Er Hr
    Hf Hin Eg Hs HA Hw Hm.
  assert (plain x) as Hpl by (pose proof (ok_behind _ (bal_ok _ _ _ Hb)) as Hok; rewrite Ea in Hok; apply Hok).
  pose proof (narrow_text x r k A _ _ Hpl Hr HA Hm) as Hw'; revert Hm; eapply behind_respected; try eassumption.
  destruct Hw'; [left|right]; lia.
Qed.
Print Assumptions C16_behind_partial.

(** Characters of several bytes are fine as long as the text is not longer, in bytes, than
    the longest match of the lookaround is in characters. *)
Theorem C16_ahead_width_partial : forall e macros vars s rb nb p word n ms start stop core x r k P A B,
  reads e macros vars s rb nb -> one_branch s -> new_pattern e macros vars = Ok p ->
  s_ahead s = Neg x -> s_right s = O -> parse_from 0 (nocap x) = Ok (r, k) ->
  find p word n = Ok ms -> In (start :: stop :: core) ms ->
  glyphs word = P ++ A ++ B -> Z.of_nat (gwidth P) = stop ->
  max_width r = -1 \/ Z.of_nat (gwidth A) <= max_width r ->
  ~ rmatch r (runes_of P) (runes_of A) (runes_of B).
Proof.
  intros e macros vars s rb nb p word n ms start stop core x r k P A B (He & (used & Hx) & Hb) **.
  eapply ahead_respected; eassumption.
Qed.
Print Assumptions C16_ahead_width_partial.

(** The pattern of [ex_src]: the "er" before "mn" and the "e" before "l" are not matched. *)
Example C16_example : exists rb r k,
  reads (lit "{h}(a|e+)r?{~l|mn}") [] [] ex_src rb 1 /\ one_branch ex_src /\
  parse_from 0 (nocap (txt "l|mn")) = Ok (r, k) /\
  find (pat "{h}(a|e+)r?{~l|mn}") (lit "hermnhelhem") (-1) = Ok [[9; 10; 9; 10]].
Proof.
  do 3 eexists; split; [read_src|]; split; [do 2 eexists; vm_compute; reflexivity|].
  split; vm_compute; reflexivity.
Qed.

(** In the next four, the text around the match is what the lookaround forbids.
    Too little text before the match: the whole lookbehind is skipped. *)
Theorem C16_short_text_refuted : exists e p word,
  e = lit "{~ab|b}c" /\ new_pattern e [] [] = Ok p /\ word = lit "bc" /\ find p word (-1) = Ok [[1; 2]].
Proof. exists (lit "{~ab|b}c"), (pat "{~ab|b}c"), (lit "bc"); vm_compute; repeat split. Qed.
Print Assumptions C16_short_text_refuted.
(** A character of several bytes: only its first byte is looked at. *)
Definition wide_source : bytes := lit "a{~" ++ encode [0xE9%N] ++ lit "}".
Definition wide_pattern : pattern := match new_pattern wide_source [] [] with Ok p => p | _ => pat "" end.
Theorem C16_bytes_refuted : exists p word,
  new_pattern wide_source [] [] = Ok p /\ word = lit "a" ++ encode [0xE9%N] /\ find p word (-1) = Ok [[0; 1]].
Proof. exists wide_pattern, (lit "a" ++ encode [0xE9%N]); vm_compute; repeat split. Qed.
Print Assumptions C16_bytes_refuted.
(** Next to an edge the lookaround is dropped: "a" is followed by a space. *)
Theorem C16_edge_refuted : exists e p word,
  e = lit "a{~ }$" /\ new_pattern e [] [] = Ok p /\ word = lit "a b" /\ find p word (-1) = Ok [[0; 1]].
Proof. exists (lit "a{~ }$"), (pat "a{~ }$"), (lit "a b"); vm_compute; repeat split. Qed.
Print Assumptions C16_edge_refuted.
(** The lookaround only belongs to the last alternative. *)
Theorem C16_alternative_refuted : exists e p word,
  e = lit "a|b{~c}" /\ new_pattern e [] [] = Ok p /\ word = lit "ac" /\ find p word (-1) = Ok [[0; 1]].
Proof. exists (lit "a|b{~c}"), (pat "a|b{~c}"), (lit "ac"); vm_compute; repeat split. Qed.
Print Assumptions C16_alternative_refuted.

(** ** C55 Positive lookaround

    Missing for the full property: bodies with an alternation at the top, for which it is
    false. The text of the lookaround is outside of the match by the very split. *)
Theorem C55_ahead_partial : forall e macros vars s rb nb p word n ms m x t k,
  reads e macros vars s rb nb -> one_branch s -> new_pattern e macros vars = Ok p ->
  s_ahead s = Pos x -> parse_from 0 (edges (nocap x)) = Ok (t, k) ->
  find p word n = Ok ms -> In m ms ->
  exists P V A Q core, glyphs word = P ++ V ++ A ++ Q /\
    m = Z.of_nat (gwidth P) :: Z.of_nat (gwidth (P ++ V)) :: core /\
    exists pre, rmatch t pre (runes_of A) (runes_of Q).
Proof.
  intros e macros vars s rb nb p word n ms m x t k (He & (used & Hx) & Hb) **; eapply ahead_holds; eassumption.
Qed.
Print Assumptions C55_ahead_partial.
Theorem C55_behind_partial : forall e macros vars s rb nb p word n ms m x t k,
  reads e macros vars s rb nb -> one_branch s -> new_pattern e macros vars = Ok p ->
  s_behind s = Pos x -> parse_from 0 (edges (nocap x)) = Ok (t, k) ->
  find p word n = Ok ms -> In m ms ->
  exists P B V Q core, glyphs word = P ++ B ++ V ++ Q /\
    m = Z.of_nat (gwidth (P ++ B)) :: Z.of_nat (gwidth (P ++ B ++ V)) :: core /\
    exists pre, rmatch t pre (runes_of B) (runes_of (V ++ Q)).
Proof.
  intros e macros vars s rb nb p word n ms m x t k (He & (used & Hx) & Hb) **; eapply behind_holds; eassumption.
Qed.
Print Assumptions C55_behind_partial.

Example C55_example : exists rb t,
  reads (lit "{k|[cq]h}a+{r}") [] [] (Src 0 (Pos (txt "k|[cq]h")) (txt "a+") (Pos (txt "r")) 0) rb 0 /\
  one_branch (Src 0 (Pos (txt "k|[cq]h")) (txt "a+") (Pos (txt "r")) 0) /\
  parse_from 0 (edges (nocap (txt "k|[cq]h"))) = Ok (t, O) /\
  find (pat "{k|[cq]h}a+{r}") (lit "kaarchartaarkaka") (-1) = Ok [[1; 3]; [6; 7]].
Proof.
  do 2 eexists; split; [read_src|]; split; [do 2 eexists; vm_compute; reflexivity|].
  split; vm_compute; reflexivity.
Qed.
Theorem C55_alternative_refuted : exists e p word,
  e = lit "a|b{c}" /\ new_pattern e [] [] = Ok p /\ word = lit "a" /\ find p word (-1) = Ok [[0; 1]].
Proof. exists (lit "a|b{c}"), (pat "a|b{c}"), (lit "a"); vm_compute; repeat split. Qed.
Print Assumptions C55_alternative_refuted.

(** ** C53 Unlimited negative lookaround is rejected *)

(** [bounded e]: there is a longest text. *)
Definition bounded (r : re) : Prop := exists w, forall pre mid post, rmatch r pre mid post -> len mid <= w.

Lemma measured_bounded e w x : measured (Some e) w -> w <> -1 -> x = tree e -> bounded x.
Proof.
  intros (Hu & -> & _) Hw ->; apply uncounted_tame in Hu.
  pose proof (tame_width _ Hu) as Ht; destruct (unlimited (tree e)) eqn:E; [contradiction|].
  exists (max_width (tree e)); intros; eapply tame_bound; eassumption.
Qed.

Lemma new_rules_bounded c tr i pairs macros vars rules :
  new_rules c tr i pairs macros vars = Ok rules ->
  Forall (fun r => forall e, p_negA (rule_from r) = Some e \/ p_negB (rule_from r) = Some e -> bounded (tree e)) rules.
Proof.
  revert i rules; induction pairs as [|pr pairs IH]; intros i rules H; cbn [new_rules] in H.
  - apply ok_eq in H; subst rules; constructor.
  - destruct (new_pattern (pr_left pr) _ vars) as [from| | | | |] eqn:Ef; try discriminate; cbn [bind] in H.
    unfold negative_lookaround_widths in H.
    destruct ((p_negAWidth from =? -1) || (p_negBWidth from =? -1)) eqn:Ew; [discriminate|].
    destruct (index (pr_right pr) 0) as [right_| | | | |]; try discriminate; cbn [bind] in H.
    destruct (new_rules c tr (S i) pairs macros vars) as [rest| | | | |] eqn:Er; try discriminate; cbn [bind] in H.
    apply ok_eq in H; subst rules; constructor; [|exact (IH _ _ Er)].
    cbn [rule_from]; apply orb_false_iff in Ew; destruct Ew as [Wa Wb].
    destruct (new_pattern_measured _ _ _ _ Ef) as [Ma Mb]; intros e [He|He]; rewrite He in *;
      eapply measured_bounded; try eassumption; try reflexivity; lia.
Qed.

(** Whatever negative lookaround a rule of an accepted spec tests has a longest match. *)
Theorem C53_accepted : forall c source spec r e,
  parse_spec c source = Ok spec -> In r (s_rewrite spec ++ s_transcribe spec) ->
  p_negA (rule_from r) = Some e \/ p_negB (rule_from r) = Some e -> bounded (tree e).
Proof.
  intros c source spec r e Hs Hin He.
  assert (Forall (fun r => forall e, p_negA (rule_from r) = Some e \/ p_negB (rule_from r) = Some e -> bounded (tree e))
            (s_rewrite spec ++ s_transcribe spec)) as H.
  2: { rewrite Forall_forall in H; exact (H r Hin e He). }
  clear r e Hin He; revert Hs; unfold parse_spec.
  destruct (parse_hsl_src source) as [[h rest]| | | | |]; cbn [bind]; try discriminate.
  repeat match goal with |- context [bind (with_section ?a ?b ?c ?d) _] =>
    destruct (with_section a b c d); cbn [bind]; try discriminate
  | |- context [bind (new_rules ?a ?b ?c ?d ?e ?f) _] =>
    destruct (new_rules a b c d e f) eqn:?; cbn [bind]; try discriminate end.
  destruct (get_script _); [|discriminate]; intros H; apply ok_eq in H; subst spec; cbn [s_rewrite s_transcribe].
  apply Forall_app; split; eapply new_rules_bounded; eassumption.
Qed.
Print Assumptions C53_accepted.

(** From the source text: a lookaround {~x}, not next to an edge, whose [x] has longer and
    longer matches. No list of rules with such a rule in it is accepted, wherever the rule
    stands. *)
Theorem C53_rejects : forall c tr before pr after macros vars s rb nb x r k i rules,
  reads (pr_left pr) (ch_macros c tr (2 * (i + length before)) macros) vars s rb nb ->
  contradictory (s_behind s) (s_left s) || contradictory (s_ahead s) (s_right s) = false ->
  (s_ahead s = Neg x /\ s_right s = O) \/ (s_behind s = Neg x /\ s_left s = O) ->
  parse_from 0 (nocap x) = Ok (r, k) -> ~ bounded r ->
  new_rules c tr i (before ++ pr :: after) macros vars <> Ok rules.
Proof.
  intros c tr before pr after macros vars s rb nb x r k i rules Hrd Hc Hx Hr Hu H.
  revert i rules H Hrd; induction before as [|pr0 before IH]; intros i rules H Hrd; cbn [app new_rules length] in H, Hrd.
  2: { destruct (new_pattern (pr_left pr0) _ vars) as [from| | | | |]; try discriminate; cbn [bind] in H.
       unfold negative_lookaround_widths in H; destruct ((p_negAWidth from =? -1) || (p_negBWidth from =? -1)); [discriminate|].
       destruct (index (pr_right pr0) 0) as [right_| | | | |]; try discriminate; cbn [bind] in H.
       destruct (new_rules c tr (S i) (before ++ pr :: after) macros vars) as [rest| | | | |] eqn:Er; try discriminate.
       apply (IH (S i) rest); [exact Er|].
       replace (S i + length before)%nat with (i + S (length before))%nat by lia; exact Hrd. }
  rewrite Nat.add_0_r in Hrd; destruct Hrd as (He & (used & Hex) & Hb).
  pose proof H as Hok; apply new_rules_bounded with (pairs := pr :: after) in H.
  destruct (balanced_accepted _ _ _ _ _ _ _ He Hex Hb Hc) as (p & alts & tb & ta & nbk & nega & Hp & _ & Lb & La & D & _).
  unfold rune in *; rewrite Hp in Hok; cbn [bind] in Hok; unfold negative_lookaround_widths in Hok.
  destruct ((p_negAWidth p =? -1) || (p_negBWidth p =? -1)); [discriminate|].
  destruct (index (pr_right pr) 0) as [right_| | | | |]; try discriminate; cbn [bind] in Hok.
  destruct (new_rules c tr (S i) after macros vars) as [rest| | | | |]; try discriminate; cbn [bind] in Hok.
  apply ok_eq in Hok; subst rules; inversion H as [|r0 l0 H0 _]; subst; clear H; cbn [rule_from] in H0.
  apply Hu; destruct Hx as [[Ea Er]|[Ea Er]].
  - rewrite Ea, Er in La; cbn [look_parses] in La; destruct La as [_ (r' & n' & Hr' & ->)].
    rewrite (parse_neg_ahead _ _ _ Hr) in Hr'; injection Hr' as <- <-.
    pose proof (d_negA _ _ _ _ _ _ _ _ D) as Hn; cbn [neg_regexp option_map] in Hn.
    destruct (H0 _ (or_introl Hn)) as (w & Hw); cbn [tree] in Hw; exists w; intros pre mid post Hm.
    apply (Hw [] mid post); refine (M_cat_cons _ _ _ [] _ _ _ _); [constructor|].
    rewrite <- (app_nil_r mid); apply M_cat_cons; [|constructor].
    apply M_cap; eapply rmatch_context; [exact Hm|auto|auto].
  - rewrite Ea, Er in Lb; cbn [look_parses] in Lb; destruct Lb as [_ (r' & n' & Hr' & ->)].
    rewrite (parse_neg_behind _ _ _ Hr) in Hr'; injection Hr' as <- <-.
    pose proof (d_negB _ _ _ _ _ _ _ _ D) as Hn; cbn [neg_regexp option_map] in Hn.
    destruct (H0 _ (or_intror Hn)) as (w & Hw); cbn [tree] in Hw; exists w; intros pre mid post Hm.
    apply (Hw pre mid []); rewrite <- (app_nil_r mid); apply M_cat_cons.
    + apply M_cap; eapply rmatch_context; [exact Hm|auto|auto].
    + refine (M_cat_cons _ _ _ [] [] _ _ _); constructor.
Qed.
Print Assumptions C53_rejects.

(** What can be repeated without a limit has no longest match, if it can match something. *)
Lemma plus_unbounded g r mid : mid <> [] -> (forall pre post, rmatch r pre mid post) -> ~ bounded (RPlus g r).
Proof.
  intros Hn Hm (w & Hw).
  assert (forall n pre post, rmatch (RStar g r) pre (concat (repeat mid n)) post) as Hs.
  { induction n as [|n IH]; intros pre post; cbn [repeat concat]; [constructor|apply M_star_more; auto]. }
  assert (forall n, (n <= length (concat (repeat mid n)))%nat) as Hl.
  { induction n as [|n IH]; cbn [repeat concat]; rewrite ?app_length; [lia|].
    destruct mid; [congruence|cbn [length]; lia]. }
  specialize (Hw [] (mid ++ concat (repeat mid (Z.to_nat w))) []); specialize (Hl (Z.to_nat w)).
  destruct mid; [congruence|]; unfold len in Hw; rewrite app_length in Hw; cbn [length] in Hw.
  specialize (Hw (M_plus _ _ _ _ _ _ (Hm _ _) (Hs _ _ _))); lia.
Qed.
(** b{~(xy)+} *)
Example C53_example : exists rb r k,
  reads (lit "b{~(xy)+}") [] [] (Src 0 NoLook (txt "b") (Neg (txt "(xy)+")) 0) rb 0 /\
  parse_from 0 (nocap (txt "(xy)+")) = Ok (r, k) /\ ~ bounded r.
Proof.
  do 3 eexists; split; [read_src|]; split; [vm_compute; reflexivity|].
  apply plus_unbounded with (mid := txt "xy"); [discriminate|intros pre post].
  refine (M_cat_cons _ _ _ [_] [_] _ _ _); [constructor|refine (M_cat_cons _ _ _ [_] [] _ _ _); constructor].
Qed.

(** Dropped lookaround is not tested either: next to an edge, and in a pattern that never
    matches because of another lookaround next to an edge. *)
Definition one_rule (left_ : string) : res (list rule) :=
  new_rules choices0 false 0 [{| pr_left := lit left_; pr_right := [lit "x"]; pr_line := 1 |}] [] [].
Theorem C53_edge_refuted : exists rules, one_rule "b{~a*}$" = Ok rules.
Proof. destruct (one_rule "b{~a*}$") eqn:E; [eexists; reflexivity|vm_compute in E; discriminate..]. Qed.
Print Assumptions C53_edge_refuted.
Theorem C53_contradiction_refuted : exists rules, one_rule "{~a*}b{c}$" = Ok rules.
Proof. destruct (one_rule "{~a*}b{c}$") eqn:E; [eexists; reflexivity|vm_compute in E; discriminate..]. Qed.
Print Assumptions C53_contradiction_refuted.

(** ** C17 ^^ and the beginning of the word

    What is true of a pattern starting with ^^: the first match starts at 0 and every other
    one starts exactly where the one before it stopped. Missing, and false (see
    [C17_later_start_refuted]): that there are no others. *)
Theorem C17_adjoining_partial : forall e macros vars s rb nb p word ms,
  reads e macros vars s rb nb -> one_branch s -> new_pattern e macros vars = Ok p ->
  (2 <= s_left s)%nat -> s_behind s = NoLook -> match s_ahead s with Neg _ => s_right s <> O | _ => True end ->
  find p word (-1) = Ok ms -> adjoining 0 ms.
Proof.
  intros e macros vars s rb nb p word ms (He & (used & Hx) & Hb) **; eapply begin_adjoining; eassumption.
Qed.
Print Assumptions C17_adjoining_partial.
(** In particular a limit of one gives at most the match at 0. *)
Theorem C17_first_partial : forall e macros vars s rb nb p word ms m,
  reads e macros vars s rb nb -> one_branch s -> new_pattern e macros vars = Ok p ->
  (2 <= s_left s)%nat -> s_behind s = NoLook -> match s_ahead s with Neg _ => s_right s <> O | _ => True end ->
  find p word (-1) = Ok ms -> find p word 1 = Ok [m] -> exists stop core, m = 0 :: stop :: core.
Proof.
  intros e macros vars s rb nb p word ms m Hr Ho Hp H1 H2 H3 Hf Hf1.
  pose proof (C17_adjoining_partial _ _ _ _ _ _ _ _ _ Hr Ho Hp H1 H2 H3 Hf) as Ha.
  rewrite (C10_limit p word 1 ms ltac:(lia) Hf) in Hf1; apply ok_eq in Hf1.
  destruct Ha as [|lo stop core ms Ha]; [discriminate|]; injection Hf1 as <-; eauto.
Qed.
Print Assumptions C17_first_partial.
Example C17_example : exists rb,
  reads (lit "^^(ab|c){d|a}") [] [] (Src 2 NoLook (txt "(ab|c)") (Pos (txt "d|a")) 0) rb 1 /\
  one_branch (Src 2 NoLook (txt "(ab|c)") (Pos (txt "d|a")) 0) /\
  find (pat "^^(ab|c){d|a}") (lit "abcab") (-1) = Ok [] /\
  find (pat "^^(ab|c){d|a}") (lit "cabdcd") (-1) = Ok [[0; 1; 0; 1]; [1; 3; 1; 3]].
Proof.
  eexists; split; [read_src|]; split; [do 2 eexists; vm_compute; reflexivity|]; split; vm_compute; reflexivity.
Qed.
