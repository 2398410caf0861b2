(** What the variables of a pattern match, and what a replacement makes of it. *)
From Coq Require Import String.
From Verif Require Import GoBase Utf8 Utf8Facts Replacer Regex RegexSpec RegexFacts CaptureFacts RegexParse
  ParseFacts ReplaceFacts Hre FindFacts RuleFacts HslInv SourceFacts PatternFacts SrcFacts FindSrc LookFacts VarFacts VarParse.
Open Scope Z_scope.

(** ** The captured values *)
Lemma captured_core p word off a b c start stop core k :
  compiled p -> search (prog (p_re p)) (glyphs (skipn (Z.to_nat off) word)) 0 = Some (a, b, c) -> 0 <= off < len word ->
  slice (raw p word off) 6 (len (raw p word off) - 4) = Ok core -> (3 + k <= numcap (p_re p) - 2)%nat ->
  captured word (start :: stop :: core) (Z.of_nat k + 1) =
    Ok (match cap_lookup c (3 + k) with
        | Some (x, y) => sub (skipn (Z.to_nat off) word) x y
        | None => []
        end).
Proof.
  intros Hc Es Ho Hcore Hk.
  pose proof (raw_len p word off a b c Es) as Hl.
  unfold captured; rewrite !index_cons2 by lia.
  rewrite (index_skip (raw p word off) 0 _ core 6 (len (raw p word off) - 4) Hcore) by lia.
  rewrite (index_skip (raw p word off) 0 _ core 6 (len (raw p word off) - 4) Hcore) by lia.
  destruct (raw_index p word off a b c Es (3 + k) ltac:(lia)) as [H1 H2].
  replace (6 + ((Z.of_nat k + 1) * 2 - 2)) with (2 * Z.of_nat (3 + k)) by lia.
  replace (6 + ((Z.of_nat k + 1) * 2 + 1 - 2)) with (2 * Z.of_nat (3 + k) + 1) by lia.
  rewrite H1, H2; cbn [bind]; f_equal.
  change (group_at (a, b) c (3 + k)) with (cap_at c (3 + k)); unfold cap_at.
  destruct (cap_lookup c (3 + k)) as [[x y]|] eqn:El; cbn [fst snd].
  - rewrite Hc in Es; destruct (group_text _ _ _ _ _ _ _ _ Es El) as (r' & u & v & w & _ & Eg & -> & -> & _).
    rewrite !off_by_nat; eapply substr_group; [lia|exact Eg|unfold len in Ho; lia].
  - reflexivity.
Qed.

Section Filled.
  Context (p : pattern) (s : src) (slots : list slot) (t : list rune) (tb ta : re)
    (nbk nega : option (list rune * re * nat)) (l : list re).
  Hypothesis D : described p s (length slots) tb ta nbk nega [l].
  Hypothesis Hitems : body_items 2 slots t l.
  Hypothesis Hok : Forall slot_ok slots.

  Theorem described_filled word n ms m : find p word n = Ok ms -> In m ms ->
    exists P u v w core is_, glyphs word = P ++ u ++ v ++ w /\
      m = Z.of_nat (gwidth (P ++ u)) :: Z.of_nat (gwidth (P ++ u ++ v)) :: core /\
      filled slots t (runes_of u) (runes_of v) (runes_of w) is_ /\ length is_ = length slots /\
      forall j i sl y, nth_error is_ j = Some i -> nth_error slots j = Some sl -> nth_error (sl_all sl) i = Some y ->
        captured word m (Z.of_nat j + 1) = Ok (encode y).
  Proof.
    intros Hf Hin; pose proof (described_grouped _ _ _ _ _ _ _ _ D) as Hg.
    pose proof (d_compiled _ _ _ _ _ _ _ _ D) as Hc.
    pose proof (find_each p word Hc Hg n ms Hf) as Hall; rewrite Forall_forall in Hall.
    destruct (Hall m Hin) as (off & start & stop & core & Hb & Ho & Hp & Hne & Hneg & Hcore & ->).
    destruct (search (prog (p_re p)) (glyphs (skipn (Z.to_nat off) word)) 0) as [[[a b] c]|] eqn:Hs.
    2:{ rewrite (raw_miss _ _ _ Hs) in Hp; discriminate. }
    destruct (grouped_pick p word Hc Hg off a b c ltac:(lia) Hs)
      as (u & v & w & Eg & Hp' & r & u0 & u1 & w1 & w2 & c1 & c2 & Eu & Ew & Hr & _ & R1 & R2 & R3).
    rewrite Hp in Hp'; injection Hp' as Est Esp.
    pose proof (d_numcap _ _ _ _ _ _ _ _ D) as Hn.
    rewrite (d_tree _ _ _ _ _ _ _ _ D) in Hr.
    destruct (branches_whole (length slots) _ _ _ _ _ ltac:(apply D) ltac:(apply D) r Hr) as (i & l' & Hi & ->).
    assert (i = O /\ l' = l) as [-> ->].
    { destruct i as [|[|i]]; [injection Hi as ->; auto|discriminate|discriminate]. }
    destruct (branch_parts (length slots) (edge_tree 0x5E%N (s_left s)) tb ta (edge_tree 0x24%N (s_right s)) [l]
                (d_tb _ _ _ _ _ _ _ _ D) (d_ta _ _ _ _ _ _ _ _ D) (edge_caps _ _) (edge_caps _ _)
                (d_alts _ _ _ _ _ _ _ _ D) O l eq_refl) as (_ & _ & ER & _ & EC).
    rewrite Hn, EC in R2 by (left; reflexivity); rewrite Hn, ER in R3; clear ER EC.
    cbn [suffix_of length Nat.eqb] in R3.
    pose proof (glyphs_wide (skipn (Z.to_nat off) word)) as Hw; rewrite Eg in Hw.
    destruct (runs_filled 2 slots t l Hitems u (v ++ w) c1 w _ c2 Hw R2)
      as (v' & is_ & Ev & _ & Hfill & Hlen & _ & Hcaps).
    apply app_inv_tail in Ev; subst v'.
    destruct Hb as (P & R & EP & Eoff).
    assert (R = u ++ v ++ w) as ER.
    { rewrite Eoff, Nat2Z.id, (boundary_skipn _ _ _ EP) in Eg; exact Eg. }
    exists P, u, v, w, core, is_; split; [rewrite EP, ER; reflexivity|].
    split; [f_equal; [rewrite Est, Eoff, gwidth_app; lia|f_equal; rewrite Esp, Eoff, !gwidth_app; lia]|].
    split; [exact Hfill|]; split; [exact Hlen|].
    intros j i sl y Hj Hsl Hy.
    assert (j < length slots)%nat as Hlt by (apply nth_error_Some; congruence).
    rewrite (captured_core p word off a b c start stop core j Hc Hs Ho Hcore) by lia.
    destruct (Hcaps j i sl y Hj Hsl Hy) as (x1 & x2 & Hl2 & uu & vv & ww & E1 & -> & -> & <-).
    assert (cap_lookup c (3 + j) = cap_lookup c2 (3 + j)) as ->.
    { eapply (seq_unmentioned [3 + j]%nat); [|left; reflexivity|exact R3].
      unfold mentions, back; cbn [flat_map recaps].
      rewrite (d_ta _ _ _ _ _ _ _ _ D), edge_caps; cbn [app existsb fst].
      destruct (Nat.eqb_spec (3 + length slots) (3 + j)); [lia|].
      destruct (Nat.eqb_spec (4 + length slots) (3 + j)); [lia|reflexivity]. }
    change (3 + j)%nat with (S 2 + j)%nat; rewrite Hl2; f_equal.
    rewrite E1 in Eg.
    assert (runes (sub (skipn (Z.to_nat off) word) (gwidth uu) (gwidth uu + gwidth vv)) = runes_of vv) as Er.
    { unfold runes; rewrite (glyphs_sub _ _ _ _ Eg); reflexivity. }
    rewrite <- Er; symmetry; apply no_error_valid; rewrite Er; intros Herr.
    rewrite Forall_forall in Hok; specialize (Hok sl (nth_error_In _ _ Hsl)); unfold slot_ok in Hok.
    rewrite Forall_forall in Hok; specialize (Hok _ (nth_error_In _ _ Hy)).
    rewrite Forall_forall in Hok; destruct (Hok _ Herr) as (_ & Hx & _); exact (Hx eq_refl).
  Qed.
End Filled.

(** ** Replacements *)

(** What the replacement should be: the text of [l] and [t], and in place of its k-th variable
    the value number [i mod m], [i] being the k-th place and [m] the number of values.  None when
    the pattern has fewer variables than the replacement. *)
Fixpoint mapped (vars : vars_map) (l : list (list rune * list rune)) (t : list rune) (is_ : list nat) : option bytes :=
  match l, is_ with
  | [], _ => Some (encode t)
  | _ :: _, [] => None
  | (x, n) :: l', i :: is_' =>
    match nth_error (values vars n) (i mod length (values vars n)), mapped vars l' t is_' with
    | Some v, Some rest => Some (encode x ++ v ++ rest)
    | _, _ => None
    end
  end.

Lemma index_first vals i y : Forall scalars vals -> first_at vals i y -> index_of (encode y) (map encode vals) = Z.of_nat i.
Proof.
  intros Hs; revert i; induction Hs as [|v vals Hv Hs IH]; intros i (Hi & Hf); [destruct i; discriminate|].
  cbn [map index_of]; destruct i as [|i].
  - injection Hi as ->; rewrite beqb_refl; reflexivity.
  - destruct (beqb (encode v) (encode y)) eqn:E.
    + exfalso; apply beqb_eq in E.
      assert (scalars y) as Hy by (rewrite Forall_forall in Hs; apply Hs; cbn in Hi; exact (nth_error_In _ _ Hi)).
      apply (f_equal runes) in E; rewrite !runes_encode in E by assumption.
      apply (Hf O ltac:(lia)); subst; reflexivity.
    + rewrite (IH i).
      2:{ split; [exact Hi|intros j Hj; exact (Hf (S j) ltac:(lia))]. }
      destruct (Z.eqb_spec (Z.of_nat i) (-1)); [lia|]; lia.
Qed.

Lemma interpolate_mapped vars p word m slots : p_usedVars p = map (fun s => map encode (sl_all s)) slots ->
  Forall slot_ok slots -> forall l t is_ k,
  Forall (fun '(_, n) => values vars n <> []) l -> (length is_ + k = length slots)%nat ->
  (forall j i, nth_error is_ j = Some i -> exists sl y, nth_error slots (k + j) = Some sl /\ first_at (sl_all sl) i y /\
     captured word m (Z.of_nat (k + j) + 1) = Ok (encode y)) ->
  interpolate_parts
    (flat_map (fun '(t, n) => plain_part (encode t) ++ [ToVar (encode (var_text n)) (values vars n)]) l
     ++ plain_part (encode t)) (Z.of_nat k) p word m =
  match mapped vars l t is_ with Some out => Ok out | None => Err ErrMappedVars end.
Proof.
  intros Hused Hok l t; induction l as [|[x n] l IH]; intros is_ k Hne Hlen Hcap.
  - cbn [flat_map app mapped]; destruct (encode t); cbn; rewrite ?app_nil_r; reflexivity.
  - apply Forall_cons_iff in Hne; destruct Hne as [Hn Hne]; cbn [flat_map].
    assert (forall parts, interpolate_parts ((plain_part (encode x) ++ parts)) (Z.of_nat k) p word m =
      bind (interpolate_parts parts (Z.of_nat k) p word m) (fun r => Ok (encode x ++ r))) as Hplain.
    { intros parts; destruct (encode x) as [|b bs]; cbn [plain_part app interpolate_parts].
      - destruct (interpolate_parts parts _ _ _ _); reflexivity.
      - destruct (interpolate_parts parts _ _ _ _); reflexivity. }
    rewrite <- !app_assoc, Hplain; clear Hplain; cbn [app interpolate_parts].
    rewrite Hused; unfold len at 1; rewrite map_length.
    destruct is_ as [|i is_]; cbn [mapped].
    { cbn [length Nat.add] in Hlen; destruct (Z.ltb_spec (Z.of_nat (length slots) - 1) (Z.of_nat k)); [reflexivity|lia]. }
    cbn [length] in Hlen; destruct (Z.ltb_spec (Z.of_nat (length slots) - 1) (Z.of_nat k)) as [H|_]; [lia|].
    destruct (Hcap O i eq_refl) as (sl & y & Hsl & Hy & Hcy); rewrite Nat.add_0_r in Hsl, Hcy.
    unfold index at 1; destruct (Z.leb_spec 0 (Z.of_nat k)) as [_|H]; [|lia].
    rewrite Nat2Z.id, (map_nth_error _ _ _ Hsl); cbn [bind]; rewrite Hcy; cbn [bind].
    rewrite (index_first _ i y).
    2:{ rewrite Forall_forall in Hok; specialize (Hok sl (nth_error_In _ _ Hsl)).
        eapply Forall_impl; [|exact Hok]; intros z Hz; eapply Forall_impl; [|exact Hz]; intros r Hr; apply Hr. }
    2:{ exact Hy. }
    assert (0 < length (values vars n))%nat as Hpos by (destruct (values vars n); [contradiction|cbn; lia]).
    unfold go_mod, len; destruct (Z.eqb_spec (Z.of_nat (length (values vars n))) 0) as [H|_]; [lia|]; cbn [bind].
    rewrite Z.rem_mod_nonneg, <- Nat2Z.inj_mod by lia.
    assert (i mod length (values vars n) < length (values vars n))%nat as Hmod by (apply Nat.mod_upper_bound; lia).
    destruct (nth_error (values vars n) (i mod length (values vars n))) as [v|] eqn:Ev;
      [|apply nth_error_None in Ev; lia].
    unfold index; destruct (Z.leb_spec 0 (Z.of_nat (i mod length (values vars n)))) as [_|H]; [|lia].
    rewrite Nat2Z.id, Ev; cbn [bind].
    replace (Z.of_nat k + 1) with (Z.of_nat (S k)) by lia.
    rewrite (IH is_ (S k) Hne ltac:(lia)).
    2:{ intros j i' Hj; destruct (Hcap (S j) i' Hj) as (sl' & y' & H1 & H2 & H3).
        exists sl', y'; replace (S k + j)%nat with (k + S j)%nat by lia; auto. }
    destruct (mapped vars l t is_); reflexivity.
Qed.

(** ** Sources with variables *)
Record uses (e : bytes) (macros : macros_map) (vars : vars_map) (s : src)
       (ns : list (list rune * slot)) (t : list rune) : Prop := {
  u_expr : e <> [];
  u_text : expand_macros e macros =
    encode (repeat 0x5E%N (s_left s) ++ look_text (s_behind s)
            ++ vtext (map (fun '(n, sl) => (sl_text sl, n)) ns) t
            ++ look_text (s_ahead s) ++ repeat 0x24%N (s_right s));
  u_body : s_body s = body_text (map snd ns) t;
  u_vars : Forall (fun '(n, sl) => name_ok n /\ values vars n = map encode (sl_all sl) /\ slot_ok sl /\
                     no_var (sl_text sl) /\ scalars (sl_text sl) /\ exists r, piece (sl_text sl) r) ns;
  u_some : ns <> [];
  u_last : no_var t /\ scalars t /\ exists r, piece t r;
  u_front : no_var (look_text (s_behind s));
  u_back : no_var (look_text (s_ahead s));
  u_src : src_ok s;
  u_behind : look_balanced (s_behind s) neg_behind;
  u_ahead : look_balanced (s_ahead s) neg_ahead
}.

Lemma no_var_repeat c n : c <> 0x3C%N -> no_var (repeat c n).
Proof. intros H; apply Forall_forall; intros r Hr; apply repeat_spec in Hr; subst; exact H. Qed.

Lemma vars_expanded vars ns t f b :
  Forall (fun '(n, sl) => name_ok n /\ values vars n = map encode (sl_all sl) /\ slot_ok sl /\
            no_var (sl_text sl) /\ scalars (sl_text sl) /\ exists r, piece (sl_text sl) r) ns ->
  no_var t -> scalars t -> no_var f -> scalars f -> no_var b -> scalars b ->
  expand_vars (encode (f ++ vtext (map (fun '(n, sl) => (sl_text sl, n)) ns) t ++ b)) vars =
  (encode (f ++ body_text (map snd ns) t ++ b), map (fun sl => map encode (sl_all sl)) (map snd ns)).
Proof.
  intros Hns Ht Hst Hf Hsf Hb Hsb.
  assert (forall sl n, values vars n = map encode (sl_all sl) ->
            var_group (values vars n) = encode (0x28%N :: alts_text (sl_val sl) (sl_vals sl) ++ [0x29%N])) as Hgroup.
  { intros sl n E; unfold var_group; rewrite E; unfold sl_all; rewrite alts_join.
    change (0x28%N :: alts_text (sl_val sl) (sl_vals sl) ++ [0x29%N])
      with ([0x28%N] ++ alts_text (sl_val sl) (sl_vals sl) ++ [0x29%N]); rewrite !encode_app; reflexivity. }
  assert (forall ns, Forall (fun '(n, sl) => name_ok n /\ values vars n = map encode (sl_all sl) /\ slot_ok sl /\
            no_var (sl_text sl) /\ scalars (sl_text sl) /\ exists r, piece (sl_text sl) r) ns ->
            vtext_ok (map (fun '(n, sl) => (sl_text sl, n)) ns) (t ++ b)) as Hok.
  { intros ns0 H; split; [|split; [apply Forall_app; split; assumption|apply scalars_app; split; assumption]].
    induction H as [|[n sl] ns0 (H1 & _ & _ & H2 & H3 & _) H IH]; cbn [map]; constructor; auto. }
  assert (forall ns, Forall (fun '(n, sl) => name_ok n /\ values vars n = map encode (sl_all sl) /\ slot_ok sl /\
            no_var (sl_text sl) /\ scalars (sl_text sl) /\ exists r, piece (sl_text sl) r) ns ->
     flat_map (fun '(t, n) => encode t ++ var_group (values vars n)) (map (fun '(n, sl) => (sl_text sl, n)) ns)
     = encode (flat_map slot_text (map snd ns)) /\
     map (fun '(_, n) => values vars n) (map (fun '(n, sl) => (sl_text sl, n)) ns)
     = map (fun sl => map encode (sl_all sl)) (map snd ns)) as Hmap.
  { intros ns0; induction 1 as [|[n sl] ns0 (H1 & Hv & _ & H2 & H3 & _) H [IH1 IH2]]; [split; reflexivity|].
    cbn [map flat_map snd]; rewrite IH1, IH2, (Hgroup _ _ Hv), Hv; split; [|reflexivity].
    unfold slot_text at 2; rewrite !encode_app, <- !app_assoc; reflexivity. }
  destruct ns as [|[n1 sl1] ns].
  - change (f ++ vtext (map (fun '(n, sl) => (sl_text sl, n)) []) t ++ b) with (f ++ t ++ b).
    assert (f ++ t ++ b = vtext [] (f ++ t ++ b)) as E by reflexivity; rewrite E, expand_vars_text.
    + reflexivity.
    + split; [constructor|]; unfold no_var; rewrite !Forall_app, !scalars_app; auto.
  - apply Forall_cons_iff in Hns; destruct Hns as [(Hn1 & Hv1 & Hs1 & Hno1 & Hsc1 & _) Hns].
    assert (f ++ vtext (map (fun '(n, sl) => (sl_text sl, n)) ((n1, sl1) :: ns)) t ++ b =
            vtext ((f ++ sl_text sl1, n1) :: map (fun '(n, sl) => (sl_text sl, n)) ns) (t ++ b)) as ->.
    { unfold vtext; cbn [map flat_map]; rewrite <- !app_assoc; reflexivity. }
    rewrite expand_vars_text.
    2:{ destruct (Hok ns Hns) as [H1 H2]; split; [|exact H2]; constructor; [|exact H1].
        split; [apply Forall_app; split; assumption|]; split; [apply scalars_app; split; assumption|exact Hn1]. }
    destruct (Hmap ns Hns) as [E1 E2]; cbn [flat_map map snd]; rewrite E1, E2, Hv1; f_equal.
    rewrite <- Hv1, (Hgroup _ _ Hv1); unfold body_text; cbn [flat_map]; unfold slot_text at 2.
    rewrite !encode_app, <- !app_assoc; reflexivity.
Qed.

Theorem uses_described e macros vars s ns t p : uses e macros vars s ns t -> new_pattern e macros vars = Ok p ->
  (forall word n, find p word n = Ok []) \/
  exists its tb ta nbk nega, described p s (length (map snd ns)) tb ta nbk nega [its] /\
    body_items 2 (map snd ns) t its /\ p_usedVars p = map (fun sl => map encode (sl_all sl)) (map snd ns).
Proof.
  intros U Hp.
  assert (expand_vars (expand_macros e macros) vars =
          (encode (src_text s), map (fun sl => map encode (sl_all sl)) (map snd ns))) as Hx.
  { rewrite (u_text _ _ _ _ _ _ U).
    assert (forall (a b c d e0 : list rune), a ++ b ++ c ++ d ++ e0 = (a ++ b) ++ c ++ (d ++ e0)) as Eassoc.
    { intros; rewrite <- !app_assoc; reflexivity. }
    rewrite Eassoc, vars_expanded.
    - unfold src_text; rewrite (u_body _ _ _ _ _ _ U), <- !app_assoc; reflexivity.
    - exact (u_vars _ _ _ _ _ _ U).
    - apply (u_last _ _ _ _ _ _ U).
    - apply (u_last _ _ _ _ _ _ U).
    - apply Forall_app; split; [apply no_var_repeat; discriminate|exact (u_front _ _ _ _ _ _ U)].
    - apply scalars_app; split; [apply repeat_scalars; reflexivity|apply look_text_scalars; apply (u_src _ _ _ _ _ _ U)].
    - apply Forall_app; split; [exact (u_back _ _ _ _ _ _ U)|apply no_var_repeat; discriminate].
    - apply scalars_app; split; [apply look_text_scalars; apply (u_src _ _ _ _ _ _ U)|apply repeat_scalars; reflexivity]. }
  assert (Forall slot_ok (map snd ns)) as Hslots.
  { apply Forall_map; eapply Forall_impl; [|exact (u_vars _ _ _ _ _ _ U)]; intros [n sl] H; apply H. }
  assert (Forall (fun sl => exists r, piece (sl_text sl) r) (map snd ns)) as Hpieces.
  { apply Forall_map; eapply Forall_impl; [|exact (u_vars _ _ _ _ _ _ U)]; intros [n sl] H; apply H. }
  destruct (parse_body_text (map snd ns) t Hslots Hpieces) as (its & Hits & Hparse & Hparse1).
  { apply (u_last _ _ _ _ _ _ U). }
  rewrite <- (u_body _ _ _ _ _ _ U) in Hparse, Hparse1.
  assert (balanced s (seq_of its) (length (map snd ns))) as B.
  { split; [exact (u_src _ _ _ _ _ _ U)|exact Hparse|exact (u_behind _ _ _ _ _ _ U)|exact (u_ahead _ _ _ _ _ _ U)]. }
  destruct (contradictory (s_behind s) (s_left s) || contradictory (s_ahead s) (s_right s)) eqn:Hc.
  - left; intros word n; eapply contradictory_find; eauto using u_expr.
  - right; destruct (balanced_accepted e macros vars s _ _ _ (u_expr _ _ _ _ _ _ U) Hx B Hc)
      as (p' & alts & tb & ta & nbk & nega & Hp' & Hused & _ & _ & D & _ & Hone).
    rewrite Hp in Hp'; apply ok_eq in Hp'; subst p'.
    assert (its <> []) as Hne.
    { pose proof (u_some _ _ _ _ _ _ U) as Hs; inversion Hits as [k t' r its' H1 H2 H3 E1 E2|k sl l t' r its' rest H1 H2 H3 H4 E1 E2]; subst.
      - exfalso; apply Hs; apply map_eq_nil with (f := snd); congruence.
      - destruct its'; discriminate. }
    rewrite seq_of_cat in Hparse1.
    2:{ rewrite app_length; destruct its; [contradiction|cbn; lia]. }
    specialize (Hone _ _ Hparse1); rewrite removelast_last in Hone; subst alts.
    exists (map (bump 2) its), tb, ta, nbk, nega; split; [exact D|]; split; [|exact Hused].
    exact (body_items_bump 2 0 _ _ _ Hits).
Qed.
