(** What lookaround says about the text around a match. *)
From Coq Require Import String.
From Verif Require Import GoBase Utf8 Utf8Facts Replacer Regex RegexSpec RegexFacts CaptureFacts RegexParse
  ParseFacts ReplaceFacts Hre FindFacts Rule RuleFacts HslInv SourceFacts PatternFacts SrcFacts FindSrc WidthFacts.
Open Scope Z_scope.

(** ** Edges

    The text around a match only matters in so far as it is there. *)
Lemma rmatch_context r pre mid post : rmatch r pre mid post -> forall pre' post',
  (pre = [] -> pre' = []) -> (post = [] -> post' = []) -> rmatch r pre' mid post'.
Proof.
  assert (forall (a b c : list rune), (a = [] -> b = []) -> a ++ c = [] -> b ++ c = []) as H1.
  { intros a b c H E; apply app_eq_nil in E; destruct E as [E ->]; rewrite (H E); reflexivity. }
  assert (forall (a b c : list rune), (a = [] -> b = []) -> c ++ a = [] -> c ++ b = []) as H2.
  { intros a b c H E; apply app_eq_nil in E; destruct E as [-> E]; rewrite (H E); reflexivity. }
  induction 1; intros pre' post' Hpre Hpost; try (constructor; auto; fail).
  - rewrite (Hpre eq_refl); constructor.
  - rewrite (Hpost eq_refl); constructor.
  - apply M_star_more; [apply IHrmatch1; [exact Hpre|apply H2; exact Hpost]|apply IHrmatch2; [apply H1; exact Hpre|exact Hpost]].
  - apply M_plus; [apply IHrmatch1; [exact Hpre|apply H2; exact Hpost]|apply IHrmatch2; [apply H1; exact Hpre|exact Hpost]].
  - eapply M_repeat; eauto.
  - apply M_cat_cons; [apply IHrmatch1; [exact Hpre|apply H2; exact Hpost]|apply IHrmatch2; [apply H1; exact Hpre|exact Hpost]].
  - eapply M_alt; eauto.
Qed.

(** ** A test that fails *)
Lemma no_match_string e s u v w : prog e = simplify (tree e) -> match_string e s = false ->
  glyphs s = u ++ v ++ w -> ~ rmatch (tree e) (runes_of u) (runes_of v) (runes_of w).
Proof.
  intros Hc Hm Eg H; unfold match_string in Hm.
  pose proof (glyphs_wide s) as Hw; rewrite Eg in Hw; apply wide_app in Hw; destruct Hw as [Hwu Hww].
  assert (at_start (@nil rune) 0) as A0 by (split; reflexivity).
  pose proof (at_start_app _ _ _ A0 Hwu) as A1; cbn [app] in A1.
  destruct (proj2 (means_simplify (tree e)) v w (0 + gwidth u)%nat (runes_of u) Hww A1 H []) as (c & Hr).
  rewrite <- Hc in Hr; destruct (search_leftmost (prog e) (glyphs s) 0 u v w _ _ Eg Hr) as (a & b & c' & Hs & _).
  rewrite Hs in Hm; discriminate.
Qed.

(** ** The expressions of negative lookaround *)
Lemma parse_nocap_any x r n k : parse_from 0 (nocap x) = Ok (r, n) ->
  n = O /\ recaps r = [] /\ parse_from k (nocap x) = Ok (r, k).
Proof.
  intros H; pose proof (parse_all_opens _ _ _ _ _ _ _ (nocap_opens x) H) as ->.
  pose proof (parse_from_caps _ _ _ _ H) as [_ Hc]; apply caps_in_none in Hc.
  split; [reflexivity|]; split; [exact Hc|].
  apply (parse_from_bump k) in H; rewrite bump_nocaps, Nat.add_0_r in H by exact Hc; exact H.
Qed.
Lemma parse_neg_ahead x r n : parse_from 0 (nocap x) = Ok (r, n) ->
  parse_from 0 (neg_ahead x) = Ok (RCat [RBegin; RCap 1 r], 1%nat).
Proof.
  intros H; destruct (parse_nocap_any x r n 1 H) as (_ & _ & H1).
  unfold neg_ahead; change (txt "^(") with [0x5E : rune; 0x28 : rune]%N; change (txt ")") with [0x29 : rune]%N.
  unfold parse_from; cbn [app]; rewrite parse_all_step; cbn [pstep N.eqb Pos.eqb bind].
  rewrite (parse_group 0 (nocap x) r 1%nat [] _ _ _ H1); reflexivity.
Qed.
Lemma parse_neg_behind x r n : parse_from 0 (nocap x) = Ok (r, n) ->
  parse_from 0 (neg_behind x) = Ok (RCat [RCap 1 r; REnd], 1%nat).
Proof.
  intros H; destruct (parse_nocap_any x r n 1 H) as (_ & _ & H1).
  unfold neg_behind; change (txt "(") with [0x28 : rune]%N; change (txt ")$") with [0x29 : rune; 0x24 : rune]%N.
  unfold parse_from; cbn [app].
  rewrite (parse_group 0 (nocap x) r 1%nat [0x24%N] _ _ _ H1); reflexivity.
Qed.

(** ** Cutting strings between bytes *)
Lemma glyphs_prefix s u v n : glyphs s = u ++ v -> (gwidth u <= n)%nat -> exists w, glyphs (firstn n s) = u ++ w.
Proof.
  revert s n; induction u as [|g u IH]; intros s n H Hn; [eexists; reflexivity|].
  assert (s <> []) as Hne by (intros ->; discriminate).
  pose proof (decode_width s Hne) as Hw.
  rewrite glyphs_step in H by exact Hne; cbn [app] in H; injection H as Hg H; rewrite gwidth_cons, <- Hg in Hn.
  destruct (IH _ (n - snd (decode_rune s))%nat H ltac:(lia)) as (w & E); exists w.
  assert (firstn n s <> []) as Hf by (destruct s; [congruence|]; destruct n; [lia|discriminate]).
  rewrite glyphs_step by exact Hf; rewrite decode_firstn by (auto; lia); cbn [app]; f_equal; [exact Hg|].
  rewrite skipn_firstn_comm; exact E.
Qed.

(** The bytes of a character after the first one decode to errors. *)
Lemma decode_conts s j : s <> [] -> (0 < j < snd (decode_rune s))%nat ->
  exists b, nth_error s j = Some b /\ is_cont b = true.
Proof.
  intros Hn; destruct s as [|b0 s]; [congruence|]; cbn [decode_rune].
  destruct (b0 <? 0x80)%N; [cbn; lia|].
  destruct ((b0 <? 0xC2)%N || (0xF4 <? b0)%N); [cbn; lia|].
  destruct s as [|b1 s]; [cbn; lia|].
  destruct (b0 <? 0xE0)%N.
  { destruct (is_cont b1) eqn:C1; cbn [snd]; [|lia]; intros Hj; assert (j = 1%nat) as -> by lia; eexists; split; [reflexivity|exact C1]. }
  destruct (b0 <? 0xF0)%N.
  { destruct (is_cont b1 && _ && _) eqn:C1; [|cbn; lia].
    apply andb_true_iff in C1; destruct C1 as [C1 _]; apply andb_true_iff in C1; destruct C1 as [C1 _].
    destruct s as [|b2 s]; [cbn; lia|]; destruct (is_cont b2) eqn:C2; cbn [snd]; [|lia]; intros Hj.
    assert (j = 1%nat \/ j = 2%nat) as [->| ->] by lia; eexists; (split; [reflexivity|assumption]). }
  destruct (is_cont b1 && _ && _) eqn:C1; [|cbn; lia].
  apply andb_true_iff in C1; destruct C1 as [C1 _]; apply andb_true_iff in C1; destruct C1 as [C1 _].
  destruct s as [|b2 [|b3 s]]; try (cbn; lia).
  destruct (is_cont b2 && is_cont b3) eqn:C2; cbn [snd]; [|lia]; apply andb_true_iff in C2; destruct C2 as [C2 C3]; intros Hj.
  assert (j = 1%nat \/ j = 2%nat \/ j = 3%nat) as [->|[->| ->]] by lia; eexists; (split; [reflexivity|assumption]).
Qed.
Lemma decode_cont b s : is_cont b = true -> decode_rune (b :: s) = (rune_error, 1%nat).
Proof.
  unfold is_cont; intros H; cbn [decode_rune]; replace (b <? 0x80)%N with false by lia.
  replace (b <? 0xC2)%N with true by lia; reflexivity.
Qed.
Lemma skipn_nth {A} (s : list A) j b : nth_error s j = Some b -> skipn j s = b :: skipn (S j) s.
Proof. revert s; induction j as [|j IH]; intros [|x s] H; try discriminate; [injection H as ->; reflexivity|apply IH; exact H]. Qed.

(** The characters after a cut are the characters of the string, once the cut character
    is over. *)
Lemma glyphs_cut s u v n : glyphs s = u ++ v -> (n <= gwidth u)%nat -> exists w, glyphs (skipn n s) = w ++ v.
Proof.
  revert s n; induction u as [|g u IH]; intros s n H Hn.
  { rewrite gwidth_nil in Hn; replace n with O by lia; exists []; exact H. }
  assert (s <> []) as Hne by (intros ->; discriminate).
  pose proof (decode_width s Hne) as Hw; pose proof H as H0.
  rewrite glyphs_step in H by exact Hne; cbn [app] in H; injection H as Hg H.
  destruct (Nat.le_gt_cases (snd (decode_rune s)) n) as [Hle|Hlt].
  - rewrite gwidth_cons, <- Hg in Hn.
    destruct (IH _ (n - snd (decode_rune s))%nat H ltac:(lia)) as (w & E); exists w.
    rewrite skipn_add in E; replace (snd (decode_rune s) + (n - snd (decode_rune s)))%nat with n in E by lia; exact E.
  - destruct n as [|n]; [exists (g :: u); exact H0|].
    assert (forall k, (S n + k = snd (decode_rune s))%nat -> forall m, (S n <= m)%nat -> (m <= snd (decode_rune s))%nat ->
      exists w, glyphs (skipn m s) = w ++ v) as Hk.
    { intros k Hk m Hm1 Hm2; remember (snd (decode_rune s) - m)%nat as d eqn:Ed.
      revert m Hm1 Hm2 Ed; induction d as [|d IHd]; intros m Hm1 Hm2 Ed.
      - assert (m = snd (decode_rune s)) as -> by lia; exists u; exact H.
      - destruct (decode_conts s m Hne ltac:(lia)) as (b & Hb & Hc).
        destruct (IHd (S m) ltac:(lia) ltac:(lia) ltac:(lia)) as (w & E).
        rewrite (skipn_nth _ _ _ Hb), glyphs_step by discriminate; rewrite (decode_cont _ _ Hc).
        change (skipn (snd (rune_error, 1%nat)) (b :: skipn (S m) s)) with (skipn (S m) s); rewrite E; eexists (_ :: w); reflexivity. }
    apply (Hk (snd (decode_rune s) - S n)%nat ltac:(lia) (S n)); lia.
Qed.

Lemma substr_take word a w : 0 <= a -> 0 <= w ->
  substr word a (a + w) = firstn (Z.to_nat w) (skipn (Z.to_nat a) word).
Proof.
  intros Ha Hw; unfold substr, len; replace (a <? 0) with false by lia; replace (a + w <? 0) with false by lia; cbn [orb]; cbv zeta.
  destruct (Z.of_nat (length word) <=? a) eqn:E1.
  { rewrite (skipn_all2 word) by lia; rewrite firstn_nil; reflexivity. }
  destruct (Z.of_nat (length word) <? a + w) eqn:E2.
  - replace (0 <? Z.of_nat (length word) - a) with true by lia.
    rewrite !firstn_all2 by (rewrite skipn_length; lia); reflexivity.
  - destruct (0 <? a + w - a) eqn:E3; [do 2 f_equal; lia|].
    replace (Z.to_nat w) with O by lia; reflexivity.
Qed.
Lemma substr_rest word a : 0 <= a <= len word -> substr word a (len word) = skipn (Z.to_nat a) word.
Proof.
  intros Ha; replace (len word) with (a + (len word - a)) at 1 by lia; rewrite substr_take by lia.
  apply firstn_all2; rewrite skipn_length; unfold len in *; lia.
Qed.

(** ** Bodies that are one sequence *)

(** The body has no alternation at its top. *)
Definition one_branch (s : src) : Prop := exists l m, parse_from 0 (edges (s_body s) ++ txt "()") = Ok (RCat l, m).

Lemma rmatch_pair r1 r2 a b d : rmatch (RCat [r1; r2]) a b d ->
  exists x y, b = x ++ y /\ rmatch r1 a x (y ++ d) /\ rmatch r2 (a ++ x) y d.
Proof.
  intros H; inversion H as [| | | | | | | | | | | | | | |r' l' pre' x y0 post' R1 R2|]; subst.
  inversion R2 as [| | | | | | | | | | | | | | |r' l' pre' y z post' R3 R4|]; subst; inversion R4; subst.
  exists x, y; rewrite !app_nil_r in *; auto.
Qed.
Lemma rmatch_begin a b d : rmatch RBegin a b d -> a = [] /\ b = [].
Proof. intros H; inversion H; auto. Qed.
Lemma rmatch_nothing a b d : rmatch REmpty a b d -> b = [].
Proof. intros H; inversion H; reflexivity. Qed.

Lemma ok_eq {A} (a b : A) : Ok a = Ok b -> a = b.
Proof. intros H; injection H; auto. Qed.

Lemma narrow_nil s u w : gwidth (glyphs s) = gwidth (u ++ w) -> wide w -> (length s <= gwidth u)%nat -> w = [].
Proof.
  intros E Hw Hl; rewrite gwidth_glyphs, gwidth_app in E.
  destruct w as [|g w]; [reflexivity|]; inversion Hw; subst; rewrite gwidth_cons in E; lia.
Qed.

(** Every match starts where the one before it stops. *)
Inductive adjoining : Z -> list (list Z) -> Prop :=
| adjoining_nil lo : adjoining lo []
| adjoining_cons lo stop core ms : adjoining stop ms -> adjoining lo ((lo :: stop :: core) :: ms).

Section Source.
  Context (e : bytes) (macros : macros_map) (vars : vars_map) (s : src) (used : list (list bytes)) (rb : re) (nb : nat)
    (p : pattern).
  Hypothesis He : e <> [].
  Hypothesis Hex : expand_vars (expand_macros e macros) vars = (encode (src_text s), used).
  Hypothesis Hbal : balanced s rb nb.
  Hypothesis Hone : one_branch s.
  Hypothesis Hp : new_pattern e macros vars = Ok p.

  (** All that is known of a match. *)
  Theorem source_match word n ms m : find p word n = Ok ms -> In m ms ->
    exists tb ta nbk nega P u0 u1 v w1 w2 core,
      look_parses (s_behind s) (s_left s) neg_behind tb nbk /\
      look_parses (s_ahead s) (s_right s) neg_ahead ta nega /\
      glyphs word = P ++ u0 ++ u1 ++ v ++ w1 ++ w2 /\ v <> [] /\
      let start := Z.of_nat (gwidth (P ++ u0 ++ u1)) in
      let stop := Z.of_nat (gwidth (P ++ u0 ++ u1 ++ v)) in
      m = start :: stop :: core /\
      rmatch (RCat [edge_tree 0x5E%N (s_left s); tb]) (runes_of u0) (runes_of u1) (runes_of (v ++ w1 ++ w2)) /\
      rmatch rb (runes_of (u0 ++ u1)) (runes_of v) (runes_of (w1 ++ w2)) /\
      rmatch (RCat [ta; edge_tree 0x24%N (s_right s)]) (runes_of (u0 ++ u1 ++ v)) (runes_of w1) (runes_of w2) /\
      passes (neg_regexp nega) word stop (if neg_width nega =? -1 then len word else stop + neg_width nega) /\
      passes (neg_regexp nbk) word (if neg_width nbk =? -1 then 0 else start - neg_width nbk) start.
  Proof.
    intros Hf Hin.
    destruct (contradictory (s_behind s) (s_left s) || contradictory (s_ahead s) (s_right s)) eqn:Hc.
    { rewrite (contradictory_find e macros vars s used rb nb p word n He Hex Hbal Hc Hp) in Hf.
      apply ok_eq in Hf; subst ms; contradiction. }
    destruct (balanced_accepted e macros vars s used rb nb He Hex Hbal Hc)
      as (p' & alts & tb & ta & nbk & nega & Hp' & _ & Lb & La & D & Hr & Halts).
    rewrite Hp in Hp'; apply ok_eq in Hp'; subst p'.
    destruct Hone as (l0 & m0 & Hl0); specialize (Halts l0 m0 Hl0); subst alts.
    destruct (described_match p s nb tb ta nbk nega _ D word n ms m Hf Hin)
      as (P & u0 & u1 & v & w1 & w2 & core & Eg & Hv & Em & R1 & R2 & R3 & PA & PB).
    exists tb, ta, nbk, nega, P, u0, u1, v, w1, w2, core.
    split; [exact Lb|]; split; [exact La|]; split; [exact Eg|]; split; [exact Hv|]; split; [exact Em|].
    split; [exact R1|]; split; [|split; [exact R3|]].
    - apply (rmatch_bump 2); rewrite Hr; eapply rmatch_alts; [left; reflexivity|exact R2].
    - rewrite <- (d_negA _ _ _ _ _ _ _ _ D), <- (d_negB _ _ _ _ _ _ _ _ D).
      rewrite <- (d_negAWidth _ _ _ _ _ _ _ _ D), <- (d_negBWidth _ _ _ _ _ _ _ _ D); split; assumption.
  Qed.

  (** *** Positive lookaround *)
  Theorem ahead_holds word n ms m x t k : s_ahead s = Pos x -> parse_from 0 (edges (nocap x)) = Ok (t, k) ->
    find p word n = Ok ms -> In m ms ->
    exists P V A Q core, glyphs word = P ++ V ++ A ++ Q /\
      m = Z.of_nat (gwidth P) :: Z.of_nat (gwidth (P ++ V)) :: core /\
      exists pre, rmatch t pre (runes_of A) (runes_of Q).
  Proof.
    intros Ea Ht Hf Hin; destruct (source_match word n ms m Hf Hin)
      as (tb & ta & nbk & nega & P & u0 & u1 & v & w1 & w2 & core & _ & La & Eg & _ & Em & _ & _ & R3 & _).
    exists (P ++ u0 ++ u1), v, w1, w2, core; rewrite <- !app_assoc; split; [exact Eg|]; split; [exact Em|].
    rewrite Ea in La; cbn [look_parses] in La; destruct (s_right s); [|contradiction]; destruct La as [La _].
    rewrite Ht in La; injection La as <- ->.
    exists (runes_of (u0 ++ u1 ++ v)).
    apply rmatch_pair in R3; destruct R3 as (a & b & -> & H1 & H2); apply rmatch_nothing in H2; subst b.
    rewrite app_nil_r; exact H1.
  Qed.
  Theorem behind_holds word n ms m x t k : s_behind s = Pos x -> parse_from 0 (edges (nocap x)) = Ok (t, k) ->
    find p word n = Ok ms -> In m ms ->
    exists P B V Q core, glyphs word = P ++ B ++ V ++ Q /\
      m = Z.of_nat (gwidth (P ++ B)) :: Z.of_nat (gwidth (P ++ B ++ V)) :: core /\
      exists pre, rmatch t pre (runes_of B) (runes_of (V ++ Q)).
  Proof.
    intros Ea Ht Hf Hin; destruct (source_match word n ms m Hf Hin)
      as (tb & ta & nbk & nega & P & u0 & u1 & v & w1 & w2 & core & Lb & _ & Eg & _ & Em & R1 & _ & _).
    exists (P ++ u0), u1, v, (w1 ++ w2), core; rewrite <- !app_assoc; split; [exact Eg|]; split; [exact Em|].
    rewrite Ea in Lb; cbn [look_parses] in Lb; destruct (s_left s); [|contradiction]; destruct Lb as [Lb _].
    rewrite Ht in Lb; injection Lb as <- ->.
    exists (runes_of u0).
    apply rmatch_pair in R1; destruct R1 as (a & b & -> & H1 & H2); apply rmatch_nothing in H1; subst a.
    rewrite app_nil_r in H2; exact H2.
  Qed.

  (** *** Negative lookaround *)
  Theorem ahead_respected word n ms start stop core x r k P A B :
    s_ahead s = Neg x -> s_right s = O -> parse_from 0 (nocap x) = Ok (r, k) ->
    find p word n = Ok ms -> In (start :: stop :: core) ms ->
    glyphs word = P ++ A ++ B -> Z.of_nat (gwidth P) = stop ->
    max_width r = -1 \/ Z.of_nat (gwidth A) <= max_width r ->
    ~ rmatch r (runes_of P) (runes_of A) (runes_of B).
  Proof.
    intros Ea Er Hx Hf Hin Eg Hstop Hw Hm.
    destruct (source_match word n ms _ Hf Hin)
      as (tb & ta & nbk & nega & P0 & u0 & u1 & v & w1 & w2 & core' & _ & La & _ & _ & Em & _ & _ & _ & PA & _).
    injection Em as _ Em _; rewrite <- Em in PA; clear Em.
    rewrite Ea, Er in La; cbn [look_parses] in La; destruct La as [_ (r' & n' & Hr' & ->)].
    rewrite (parse_neg_ahead _ _ _ Hx) in Hr'; injection Hr' as <- <-.
    cbn [neg_regexp option_map passes neg_width] in PA.
    assert (max_width (RCat [RBegin; RCap 1 r]) = max_width r) as Ew.
    { cbn [max_width]; change (0 =? -1) with false; destruct (max_width r =? -1) eqn:E; lia. }
    rewrite Ew in PA.
    assert (exists w, glyphs (substr word stop (if max_width r =? -1 then len word else stop + max_width r)) = A ++ w /\ (B = [] -> w = [])) as (w & Es & Hnil).
    { pose proof (boundary_skipn _ _ _ Eg) as Esk.
      assert (gwidth P <= length word)%nat as Hl by (rewrite <- gwidth_glyphs, Eg, gwidth_app; lia).
      destruct (max_width r =? -1) eqn:E.
      - rewrite substr_rest by (unfold len; lia); exists B; rewrite <- Hstop, Nat2Z.id; split; [exact Esk|auto].
      - destruct Hw as [Hw|Hw]; [lia|].
        rewrite substr_take by lia; rewrite <- Hstop, Nat2Z.id.
        destruct (glyphs_prefix _ A B (Z.to_nat (max_width r)) Esk ltac:(lia)) as (w & Es); exists w; split; [exact Es|].
        intros ->; apply narrow_nil with (s := firstn (Z.to_nat (max_width r)) (skipn (gwidth P) word)) (u := A); [rewrite Es; reflexivity| |].
        { pose proof (glyphs_wide (firstn (Z.to_nat (max_width r)) (skipn (gwidth P) word))) as Hwd; rewrite Es in Hwd; apply wide_app in Hwd; apply Hwd. }
        rewrite app_nil_r in Esk; rewrite firstn_length, <- (gwidth_glyphs (skipn _ _)), Esk; lia. }
    revert PA; match goal with |- match_string ?e ?sub = false -> _ => set (e0 := e); set (s0 := sub) in * end; intros PA.
    apply (no_match_string e0 s0 [] A w eq_refl PA Es).
    cbn [tree e0 runes_of map]; change (runes_of A) with ([] ++ runes_of A); apply M_cat_cons; [constructor|].
    rewrite <- (app_nil_r (runes_of A)); apply M_cat_cons; [|constructor].
    apply M_cap; eapply rmatch_context; [exact Hm|reflexivity|].
    intros EB; apply map_eq_nil in EB; rewrite (Hnil EB); reflexivity.
  Qed.

  Theorem behind_respected word n ms start stop core x r k P A B :
    s_behind s = Neg x -> s_left s = O -> parse_from 0 (nocap x) = Ok (r, k) ->
    find p word n = Ok ms -> In (start :: stop :: core) ms ->
    glyphs word = P ++ A ++ B -> Z.of_nat (gwidth (P ++ A)) = start ->
    max_width r = -1 \/ Z.of_nat (gwidth A) <= max_width r <= start ->
    ~ rmatch r (runes_of P) (runes_of A) (runes_of B).
  Proof.
    intros Ea Er Hx Hf Hin Eg Hstart Hw Hm.
    destruct (source_match word n ms _ Hf Hin)
      as (tb & ta & nbk & nega & P0 & u0 & u1 & v & w1 & w2 & core' & Lb & _ & _ & _ & Em & _ & _ & _ & _ & PB).
    injection Em as Em _ _; rewrite <- Em in PB; clear Em.
    rewrite Ea, Er in Lb; cbn [look_parses] in Lb; destruct Lb as [_ (r' & n' & Hr' & ->)].
    rewrite (parse_neg_behind _ _ _ Hx) in Hr'; injection Hr' as <- <-.
    cbn [neg_regexp option_map passes neg_width] in PB.
    assert (max_width (RCat [RCap 1 r; REnd]) = max_width r) as Ew.
    { cbn [max_width]; change (0 =? -1) with false; destruct (max_width r =? -1) eqn:E; lia. }
    rewrite Ew in PB.
    assert (gwidth (P ++ A) <= length word)%nat as Hl by (rewrite <- gwidth_glyphs, Eg, !gwidth_app; lia).
    rewrite app_assoc in Eg; pose proof (glyphs_firstn _ _ _ Eg) as Ef.
    assert (exists w, glyphs (substr word (if max_width r =? -1 then 0 else start - max_width r) start) = w ++ A /\ (P = [] -> w = [])) as (w & Es & Hnil).
    { destruct (max_width r =? -1) eqn:E.
      - exists P; replace start with (0 + start) by lia; rewrite substr_take by lia; cbn [Z.to_nat skipn].
        rewrite <- Hstart, Nat2Z.id; split; [exact Ef|auto].
      - destruct Hw as [Hw|Hw]; [lia|].
        assert (substr word (start - max_width r) start
                = firstn (Z.to_nat (max_width r)) (skipn (Z.to_nat (start - max_width r)) word)) as ->
          by (rewrite <- substr_take by lia; f_equal; lia).
        replace (firstn (Z.to_nat (max_width r)) (skipn (Z.to_nat (start - max_width r)) word))
          with (skipn (Z.to_nat (start - max_width r)) (firstn (gwidth (P ++ A)) word)).
        + destruct (glyphs_cut _ P A (Z.to_nat (start - max_width r)) Ef ltac:(rewrite gwidth_app in Hstart; lia)) as (w & Es).
          exists w; split; [exact Es|]; intros ->; cbn [app] in *.
          apply narrow_nil with (s := skipn (Z.to_nat (start - max_width r)) (firstn (gwidth A) word)) (u := A).
          * rewrite Es, !gwidth_app; lia.
          * pose proof (glyphs_wide (skipn (Z.to_nat (start - max_width r)) (firstn (gwidth A) word))) as Hwd.
            rewrite Es in Hwd; apply wide_app in Hwd; apply Hwd.
          * rewrite skipn_length, <- (gwidth_glyphs (firstn _ _)), Ef; lia.
        + rewrite skipn_firstn_comm; f_equal; lia. }
    revert PB; match goal with |- match_string ?e ?sub = false -> _ => set (e0 := e); set (s0 := sub) in * end; intros PB.
    apply (no_match_string e0 s0 w A [] eq_refl PB); [rewrite app_nil_r; exact Es|].
    cbn [tree e0]; rewrite <- (app_nil_r (runes_of A)); apply M_cat_cons.
    - apply M_cap; eapply rmatch_context; [exact Hm| |reflexivity].
      intros EP; apply map_eq_nil in EP; rewrite (Hnil EP); reflexivity.
    - refine (M_cat_cons _ _ _ [] [] _ _ _); constructor.
  Qed.

  (** A text of one-byte characters is not longer than the width of what it matches. *)
  Lemma narrow_text x r k A pre post : plain x -> parse_from 0 (nocap x) = Ok (r, k) ->
    Forall (fun g : rune * nat => snd g = 1%nat) A -> rmatch r pre (runes_of A) post ->
    max_width r = -1 \/ Z.of_nat (gwidth A) <= max_width r.
  Proof.
    intros Hpl Hx HA Hm.
    assert (tame r = true) as Ht.
    { apply uncounted_tame; eapply parse_from_unc; [|exact Hx]; unfold nocap; apply Forall_forall; intros y Hy ->.
      apply in_flat_map in Hy; destruct Hy as (z & Hz & Hy); destruct (z =? 0x28)%N; [cbn in Hy; intuition discriminate|].
      destruct Hy as [->|[]]; unfold plain in Hpl; rewrite Forall_forall in Hpl; destruct (Hpl _ Hz); congruence. }
    pose proof (tame_width r Ht) as Hw; destruct (unlimited r) eqn:Eu; [left; exact Hw|right].
    pose proof (tame_bound r _ _ _ Hm Ht Eu) as Hb.
    assert (gwidth A = length (runes_of A)) as ->; [|exact Hb].
    unfold runes_of; rewrite map_length; clear -HA; induction HA as [|g A Hg HA IH]; [reflexivity|].
    rewrite gwidth_cons, Hg, IH; reflexivity.
  Qed.

  (** *** Patterns that start with ^^ *)
  Theorem begin_adjoining word ms : (2 <= s_left s)%nat -> s_behind s = NoLook ->
    match s_ahead s with Neg _ => s_right s <> O | _ => True end ->
    find p word (-1) = Ok ms -> adjoining 0 ms.
  Proof.
    intros Hl Hnb Hna Hf.
    destruct (contradictory (s_behind s) (s_left s) || contradictory (s_ahead s) (s_right s)) eqn:Hc.
    { rewrite (contradictory_find e macros vars s used rb nb p word _ He Hex Hbal Hc Hp) in Hf.
      apply ok_eq in Hf; subst ms; constructor. }
    destruct (balanced_accepted e macros vars s used rb nb He Hex Hbal Hc)
      as (p' & alts & tb & ta & nbk & nega & Hp' & _ & Lb & La & D & Hr & Halts).
    rewrite Hp in Hp'; apply ok_eq in Hp'; subst p'.
    destruct Hone as (l0 & m0 & Hl0); specialize (Halts l0 m0 Hl0); subst alts.
    rewrite Hnb in Lb; cbn [look_parses] in Lb; destruct Lb as [-> ->].
    assert (nega = None) as ->.
    { destruct (s_ahead s); cbn [look_parses] in La; [apply La|destruct (s_right s); [apply La|contradiction]|].
      destruct (s_right s); [contradiction|apply La]. }
    pose proof (d_negA _ _ _ _ _ _ _ _ D) as NA; pose proof (d_negB _ _ _ _ _ _ _ _ D) as NB.
    cbn [neg_regexp option_map] in NA, NB.
    apply find_scan in Hf; [|lia].
    assert (boundary word 0) as Hb by (exists [], (glyphs word); split; [reflexivity|rewrite gwidth_nil; reflexivity]).
    revert Hb; induction Hf as [off Hle|off Hle Hraw|off start stop core ms Hle Hlen Hpick Hne Hneg Hcore Hs IH
                               |off start stop ms Hle Hlen Hpick Hne Hneg Hs IH]; intros Hb; try constructor.
    - destruct (described_raw _ _ _ _ _ _ _ _ D word off start stop Hb Hle Hpick)
        as (P & u0 & u1 & v & w1 & w2 & Ew & Eoff & Est & Esp & R1 & _).
      apply rmatch_pair in R1; destruct R1 as (a & b & Eab & H1 & H2).
      destruct (s_left s) as [|[|k]]; [lia|lia|]; cbn [edge_tree] in H1.
      change (0x5E =? 0x5E)%N with true in H1; apply rmatch_begin in H1; destruct H1 as [Eu ->].
      apply rmatch_nothing in H2; subst b.
      apply map_eq_nil in Eu; subst u0; apply map_eq_nil in Eab; subst u1.
      cbn [app] in *; rewrite app_nil_r in *; rewrite Eoff in Est; subst start.
      constructor; apply IH; exists (P ++ v), (w1 ++ w2); split; [rewrite Ew, <- app_assoc; reflexivity|symmetry; exact Esp].
    - unfold negatives_allow in Hneg; rewrite NA, NB in Hneg; discriminate.
  Qed.
End Source.
