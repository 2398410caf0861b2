(** Properties C13 (variables map by index) and C54 (literal patterns). *)
From Coq Require Import String.
From Verif Require Import GoBase Utf8 Utf8Facts Replacer ReplacerFacts Regex RegexSpec RegexFacts CaptureFacts RegexParse
  ParseFacts ReplaceFacts Hre FindFacts Subword Rule RuleFacts Hsl HslInv Scripts Spec PropFind SourceFacts PatternFacts SrcFacts
  FindSrc WidthFacts LookFacts PropPattern VarFacts VarParse VarMatch.
Open Scope Z_scope.

(** ** C13

    [uses e macros vars s ns t] (VarMatch.v): after macros, the expression [e] is the source
    [s] whose body is made of the pieces of [ns] and [t] with a variable after each piece of [ns]; a
    piece is a sequence without capturing groups which can be parsed on its own; the values
    of the variables have none of the characters ^ $ braces and U+FFFD.

    Then a match consists of texts matching the pieces and values of the variables in
    between ([filled]), and a replacement gets for its k-th variable the value whose number
    is that of the k-th value in the match, modulo the number of values ([mapped]). With more
    variables in the replacement than in the pattern there is an error and the match is
    left alone. *)
Theorem C13_partial : forall e macros vars s ns t p e' l t' word n ms m,
  uses e macros vars s ns t -> new_pattern e macros vars = Ok p ->
  expand_macros e' macros = encode (vtext l t') -> vtext_ok l t' ->
  Forall (fun '(_, name) => values vars name <> []) l ->
  find p word n = Ok ms -> In m ms ->
  exists P u v w core is_, glyphs word = P ++ u ++ v ++ w /\
    m = Z.of_nat (gwidth (P ++ u)) :: Z.of_nat (gwidth (P ++ u ++ v)) :: core /\
    filled (map snd ns) t (runes_of u) (runes_of v) (runes_of w) is_ /\
    interpolate (new_rpattern e' macros vars) p word m =
      match mapped vars l t' is_ with Some out => Ok out | None => Err ErrMappedVars end.
Proof.
  intros e macros vars s ns t p e' l t' word n ms m U Hp He' Hl Hne Hf Hin.
  destruct (uses_described _ _ _ _ _ _ _ U Hp) as [H0|(its & tb & ta & nbk & nega & D & Hits & Hused)].
  { rewrite H0 in Hf; apply ok_eq in Hf; subst ms; contradiction. }
  assert (Forall slot_ok (map snd ns)) as Hslots.
  { apply Forall_map; eapply Forall_impl; [|exact (u_vars _ _ _ _ _ _ U)]; intros [nm sl] H; apply H. }
  destruct (described_filled p s (map snd ns) t tb ta nbk nega its D Hits Hslots word n ms m Hf Hin)
    as (P & u & v & w & core & is_ & Ew & Em & Hfill & Hlen & Hcap).
  exists P, u, v, w, core, is_; split; [exact Ew|]; split; [exact Em|]; split; [exact Hfill|].
  unfold interpolate, new_rpattern; cbn [r_parts]; rewrite He', split_parts_text by exact Hl.
  change 0 with (Z.of_nat 0).
  apply (interpolate_mapped vars p word m (map snd ns) Hused Hslots); [exact Hne|lia|].
  intros j i Hj; cbn [Nat.add].
  assert (exists sl y, nth_error (map snd ns) j = Some sl /\ first_at (sl_all sl) i y) as (sl & y & Hsl & Hy).
  { clear -Hfill Hj; revert j Hj; induction Hfill as [|s l t r pre x y rest post i0 is_ H1 H2 H3 H4 IH]; intros [|j] Hj;
      try discriminate.
    - injection Hj as <-; exists s, y; split; [reflexivity|exact H3].
    - apply IH; exact Hj. }
  exists sl, y; split; [exact Hsl|]; split; [exact Hy|].
  eapply Hcap; [exact Hj|exact Hsl|apply Hy].
Qed.
Print Assumptions C13_partial.

(** With a variable without values in the replacement, the first one in [l], there is a panic
    instead, at every match. *)
Lemma interpolate_undefined vars p word m slots : p_usedVars p = map (fun s => map encode (sl_all s)) slots ->
  Forall slot_ok slots -> forall l x name l2 t is_ k,
  Forall (fun '(_, n) => values vars n <> []) l -> values vars name = [] ->
  (length is_ + k = length slots)%nat -> (length l < length is_)%nat ->
  (forall j i, nth_error is_ j = Some i -> exists sl y, nth_error slots (k + j) = Some sl /\ first_at (sl_all sl) i y /\
     captured word m (Z.of_nat (k + j) + 1) = Ok (encode y)) ->
  interpolate_parts
    (flat_map (fun '(t, n) => plain_part (encode t) ++ [ToVar (encode (var_text n)) (values vars n)]) (l ++ (x, name) :: l2)
     ++ plain_part (encode t)) (Z.of_nat k) p word m = Panic PDivZero.
Proof.
  intros Hused Hok l x name l2 t; induction l as [|[x0 n] l IH]; intros is_ k Hne Hun Hlen Hlt Hcap.
  - cbn [app flat_map].
    assert (forall parts, interpolate_parts parts (Z.of_nat k) p word m = Panic PDivZero ->
      interpolate_parts ((plain_part (encode x) ++ parts)) (Z.of_nat k) p word m = Panic PDivZero) as Hplain.
    { intros parts E; destruct (encode x) as [|b bs]; cbn [plain_part app interpolate_parts]; rewrite E; reflexivity. }
    rewrite <- !app_assoc; apply Hplain; clear Hplain; cbn [app interpolate_parts].
    rewrite Hused; unfold len at 1; rewrite map_length.
    destruct is_ as [|i is_]; cbn [length] in *; [lia|].
    destruct (Z.ltb_spec (Z.of_nat (length slots) - 1) (Z.of_nat k)) as [H|_]; [lia|].
    destruct (Hcap O i eq_refl) as (sl & y & Hsl & Hy & Hcy); rewrite Nat.add_0_r in Hsl, Hcy.
    unfold index at 1; destruct (Z.leb_spec 0 (Z.of_nat k)) as [_|H]; [|lia].
    rewrite Nat2Z.id, (map_nth_error _ _ _ Hsl); cbn [bind]; rewrite Hcy, Hun; reflexivity.
  - apply Forall_cons_iff in Hne; destruct Hne as [Hn Hne]; cbn [app flat_map].
    assert (forall parts, interpolate_parts parts (Z.of_nat k) p word m = Panic PDivZero ->
      interpolate_parts ((plain_part (encode x0) ++ parts)) (Z.of_nat k) p word m = Panic PDivZero) as Hplain.
    { intros parts E; destruct (encode x0) as [|b bs]; cbn [plain_part app interpolate_parts]; rewrite E; reflexivity. }
    rewrite <- !app_assoc; apply Hplain; clear Hplain; cbn [app interpolate_parts].
    rewrite Hused; unfold len at 1; rewrite map_length.
    destruct is_ as [|i is_]; cbn [length] in *; [lia|].
    destruct (Z.ltb_spec (Z.of_nat (length slots) - 1) (Z.of_nat k)) as [H|_]; [lia|].
    destruct (Hcap O i eq_refl) as (sl & y & Hsl & Hy & Hcy); rewrite Nat.add_0_r in Hsl, Hcy.
    unfold index at 1; destruct (Z.leb_spec 0 (Z.of_nat k)) as [_|H]; [|lia].
    rewrite Nat2Z.id, (map_nth_error _ _ _ Hsl); cbn [bind]; rewrite Hcy; cbn [bind].
    rewrite (index_first _ i y).
    2:{ rewrite Forall_forall in Hok; specialize (Hok sl (nth_error_In _ _ Hsl)).
        eapply Forall_impl; [|exact Hok]; intros z Hz; eapply Forall_impl; [|exact Hz]; intros r Hr; apply Hr. }
    2:{ exact Hy. }
    assert (0 < length (values vars n))%nat as Hpos by (destruct (values vars n); [contradiction|cbn; lia]).
    unfold go_mod, len; destruct (Z.eqb_spec (Z.of_nat (length (values vars n))) 0) as [H|_]; [lia|]; cbn [bind].
    rewrite Z.rem_mod_nonneg, <- Nat2Z.inj_mod by lia.
    assert (i mod length (values vars n) < length (values vars n))%nat as Hmod by (apply Nat.mod_upper_bound; lia).
    destruct (nth_error (values vars n) (i mod length (values vars n))) as [v|] eqn:Ev;
      [|apply nth_error_None in Ev; lia].
    unfold index; destruct (Z.leb_spec 0 (Z.of_nat (i mod length (values vars n)))) as [_|H]; [|lia].
    rewrite Nat2Z.id, Ev; cbn [bind].
    replace (Z.of_nat k + 1) with (Z.of_nat (S k)) by lia.
    rewrite (IH is_ (S k) Hne Hun ltac:(lia) ltac:(lia)); [reflexivity|].
    intros j i' Hj; destruct (Hcap (S j) i' Hj) as (sl' & y' & H1 & H2 & H3).
    exists sl', y'; replace (S k + j)%nat with (k + S j)%nat by lia; auto.
Qed.
Theorem C13_undefined_panics : forall e macros vars s ns t p e' l x name l2 t' word n ms,
  uses e macros vars s ns t -> new_pattern e macros vars = Ok p ->
  expand_macros e' macros = encode (vtext (l ++ (x, name) :: l2) t') -> vtext_ok (l ++ (x, name) :: l2) t' ->
  Forall (fun '(_, name) => values vars name <> []) l -> values vars name = [] -> (length l < length ns)%nat ->
  find p word n = Ok ms -> ms <> [] -> pattern_replace p word (new_rpattern e' macros vars) n = Panic PDivZero.
Proof.
  intros e macros vars s ns t p e' l x name l2 t' word n ms U Hp He' Hl Hne Hun Hlt Hf Hms.
  destruct ms as [|m ms]; [contradiction|].
  destruct (uses_described _ _ _ _ _ _ _ U Hp) as [H0|(its & tb & ta & nbk & nega & D & Hits & Hused)].
  { rewrite H0 in Hf; discriminate. }
  assert (Forall slot_ok (map snd ns)) as Hslots.
  { apply Forall_map; eapply Forall_impl; [|exact (u_vars _ _ _ _ _ _ U)]; intros [nm sl] H; apply H. }
  destruct (described_filled p s (map snd ns) t tb ta nbk nega its D Hits Hslots word n _ m Hf (or_introl eq_refl))
    as (P & u & v & w & core & is_ & Ew & Em & Hfill & Hlen & Hcap).
  unfold pattern_replace; rewrite Hf; cbn [bind replace_loop].
  assert (interpolate (new_rpattern e' macros vars) p word m = Panic PDivZero) as Hint.
  { unfold interpolate, new_rpattern; cbn [r_parts]; rewrite He', split_parts_text by exact Hl.
    change 0 with (Z.of_nat 0).
    apply (interpolate_undefined vars p word m (map snd ns) Hused Hslots _ _ _ _ _ is_);
      [exact Hne|exact Hun|lia|rewrite map_length in Hlen; lia|].
    intros j i Hj; cbn [Nat.add].
    assert (exists sl y, nth_error (map snd ns) j = Some sl /\ first_at (sl_all sl) i y) as (sl & y & Hsl & Hy).
    { clear -Hfill Hj; revert j Hj; induction Hfill as [|s l t r pre x y rest post i0 is_ H1 H2 H3 H4 IH]; intros [|j] Hj;
        try discriminate.
      - injection Hj as <-; exists s, y; split; [reflexivity|exact H3].
      - apply IH; exact Hj. }
    exists sl, y; split; [exact Hsl|]; split; [exact Hy|].
    eapply Hcap; [exact Hj|exact Hsl|apply Hy]. }
  rewrite Hint, Em; unfold index at 1 2; cbn [Z.leb Z.to_nat nth_error bind Pos.to_nat Z.compare]; cbn [bind].
  assert (gwidth (P ++ u) <= length word)%nat as Hle.
  { rewrite <- (gwidth_glyphs word), Ew, app_assoc, (gwidth_app (P ++ u)); lia. }
  unfold slice, len; destruct (Z.leb_spec 0 (Z.of_nat (gwidth (P ++ u)))) as [_|H]; [|lia].
  destruct (Z.leb_spec (Z.of_nat (gwidth (P ++ u))) (Z.of_nat (length word))) as [_|H]; [reflexivity|lia].
Qed.
Print Assumptions C13_undefined_panics.

(** {~h}a<c>[xy]*<d>e{f} with two variables. *)
Definition ex_var_map : vars_map :=
  [(lit "c", [lit "p"; lit "t."; lit "k"]); (lit "d", [lit "mm"; lit "n"]);
   (lit "C", [lit "P"; lit "T"]); (lit "D", [lit "M"; lit "N"; lit "NG"])].
Definition ex_slots : list (list rune * slot) :=
  [(txt "c", Slot (txt "a") (txt "p") [txt "t."; txt "k"]); (txt "d", Slot (txt "[xy]*") (txt "mm") [txt "n"])].
Definition ex_var_src : src := Src 0 (Neg (txt "h")) (txt "a(p|t\.|k)[xy]*(mm|n)e") (Pos (txt "f")) 0.
Lemma no_var_b t : forallb (fun r => negb (r =? 0x3C)%N) t = true -> no_var t.
Proof.
  intros H; apply Forall_forall; intros r Hr; rewrite forallb_forall in H; specialize (H r Hr).
  apply negb_true_iff in H; apply N.eqb_neq in H; exact H.
Qed.
Lemma name_ok_b n : n <> [] -> forallb (fun r => negb (r =? 0x3C)%N && negb (r =? 0x3E)%N && negb (r =? 10)%N && is_scalar r) n = true ->
  name_ok n.
Proof.
  intros Hn H; split; [exact Hn|]; split; apply Forall_forall; intros r Hr; rewrite forallb_forall in H; specialize (H r Hr);
    rewrite !andb_true_iff, !negb_true_iff, !N.eqb_neq in H; unfold name_char; tauto.
Qed.
Lemma slot_ok_b s : forallb (forallb (fun r => is_scalar r && negb (nmem r [rune_error; 0x5E; 0x24; 0x7B; 0x7D]%N))) (sl_all s) = true ->
  slot_ok s.
Proof.
  intros H; apply Forall_forall; intros v Hv; rewrite forallb_forall in H; specialize (H v Hv).
  apply Forall_forall; intros r Hr; rewrite forallb_forall in H; specialize (H r Hr).
  apply andb_true_iff in H; destruct H as [H1 H2]; apply negb_true_iff in H2.
  unfold nmem in H2; cbn [existsb] in H2; rewrite !orb_false_iff, !N.eqb_neq in H2; unfold val_char; tauto.
Qed.
Ltac a_piece := eexists; split; [vm_compute; reflexivity|].
Example C13_example :
  uses (lit "{~h}a<c>[xy]*<d>e{f}") [] ex_var_map ex_var_src ex_slots (txt "e") /\
  (exists p, new_pattern (lit "{~h}a<c>[xy]*<d>e{f}") [] ex_var_map = Ok p /\
     find p (lit "apxyxnef haknef akmmef") (-1) = Ok [[0; 7; 1; 2; 5; 6]; [16; 21; 17; 18; 18; 20]]
     /\ pattern_replace p (lit "apxyxnef haknef akmmef") (new_rpattern (lit "<C>-<D>") [] ex_var_map) (-1)
        = Ok (lit "P-Nf haknef P-Mf")) /\
  mapped ex_var_map [([], txt "C"); (txt "-", txt "D")] [] [2; 0]%nat = Some (lit "P-M").
Proof.
  split; [|split; [eexists; split; [vm_compute; reflexivity|split; vm_compute; reflexivity]|vm_compute; reflexivity]].
  split.
  - discriminate.
  - vm_compute; reflexivity.
  - vm_compute; reflexivity.
  - unfold ex_slots; repeat constructor; try discriminate; try (vm_compute; reflexivity);
      try (apply no_var_b; reflexivity); try (apply scalars_b; reflexivity).
    all: try (apply Forall_forall; intros ? ?; cbn in *; intuition (subst; discriminate)).
    all: try (a_piece; eexists (_ :: nil); vm_compute; reflexivity).
  - discriminate.
  - split; [apply no_var_b; reflexivity|]; split; [apply scalars_b; reflexivity|].
    a_piece; eexists (_ :: nil); vm_compute; reflexivity.
  - apply no_var_b; reflexivity.
  - apply no_var_b; reflexivity.
  - unfold ex_var_src; split; [read_look|read_look|apply scalars_b; reflexivity|vm_compute; congruence|apply paired_true; reflexivity
           |intros _; vm_compute; congruence|intros _; vm_compute; congruence].
  - unfold ex_var_src; read_balanced.
  - unfold ex_var_src; read_balanced.
Qed.

(** C13_undefined_panics for an example: D2 is not defined. *)
Example C13_undefined_example : exists p,
  new_pattern (lit "{~h}a<c>[xy]*<d>e{f}") [] ex_var_map = Ok p /\
  values ex_var_map (txt "D2") = [] /\
  find p (lit "apxyxnef") (-1) = Ok [[0; 7; 1; 2; 5; 6]] /\
  expand_macros (lit "<C>-<D2>") [] = encode (vtext ([([], txt "C")] ++ (txt "-", txt "D2") :: []) []) /\
  pattern_replace p (lit "apxyxnef") (new_rpattern (lit "<C>-<D2>") [] ex_var_map) (-1) = Panic PDivZero.
Proof. eexists; split; [vm_compute; reflexivity|repeat split; vm_compute; reflexivity]. Qed.

(** A variable that does not take part in the match indexes with -1, one without values in the
    pattern too. *)
Theorem C13_optional_refuted : exists e word p,
  new_pattern e [] ex_var_map = Ok p /\ find p word (-1) = Ok [[0; 1; -1; -1]] /\
  pattern_replace p word (new_rpattern (lit "<C>") [] ex_var_map) (-1) = Panic PIndex.
Proof. exists (lit "a<c>?"), (lit "a"); eexists; split; [vm_compute; reflexivity|split; vm_compute; reflexivity]. Qed.
Print Assumptions C13_optional_refuted.
Theorem C13_no_values_refuted : exists e word p,
  new_pattern e [] ex_var_map = Ok p /\ find p word (-1) = Ok [[0; 1; 1; 1]] /\
  pattern_replace p word (new_rpattern (lit "<C>") [] ex_var_map) (-1) = Panic PIndex.
Proof. exists (lit "a<none>"), (lit "a"); eexists; split; [vm_compute; reflexivity|split; vm_compute; reflexivity]. Qed.
Print Assumptions C13_no_values_refuted.

(** A capturing group in front of a variable takes its place: the property fails for
    (a|b)<v>, the first value of v being replaced by the second one of w. *)
Definition C13_vars : vars_map := [(lit "v", [lit "b"; lit "a"]); (lit "w", [lit "B"; lit "A"])].
Theorem C13_group_refuted : exists e p,
  new_pattern e [] C13_vars = Ok p /\ e = lit "(a|b)<v>" /\
  find p (lit "ab") (-1) = Ok [[0; 2; 0; 1; 1; 2]] /\
  values C13_vars (txt "v") = [lit "b"; lit "a"] /\ values C13_vars (txt "w") = [lit "B"; lit "A"] /\
  interpolate (new_rpattern (lit "<w>") [] C13_vars) p (lit "ab") [0; 2; 0; 1; 1; 2] = Ok (lit "A").
Proof.
  exists (lit "(a|b)<v>").
  destruct (new_pattern (lit "(a|b)<v>") [] C13_vars) as [p| | | | |] eqn:E; try (vm_compute in E; discriminate).
  exists p; split; [reflexivity|]; split; [reflexivity|].
  vm_compute in E; apply ok_eq in E; subst p; repeat split; vm_compute; reflexivity.
Qed.
Print Assumptions C13_group_refuted.

(** ** C54 *)

(** A character without meaning in an expression. *)
Definition ordinary (r : rune) : Prop := is_scalar r = true /\ is_meta r = false /\ r <> 0x3C%N.

(** The places of [x] in a text, from the left, each after the end of the one before:
    [lo] is the byte where the text starts. *)
Definition place (x : list rune) (s P v Q : text) : Prop := s = P ++ v ++ Q /\ runes_of v = x.
Inductive occurrences (x : list rune) : nat -> text -> list (list Z) -> Prop :=
| occ_none lo s : (forall P v Q, ~ place x s P v Q) -> occurrences x lo s []
| occ_next lo s P v Q ms :
    place x s P v Q -> (forall P' v' Q', place x s P' v' Q' -> (gwidth P <= gwidth P')%nat) ->
    occurrences x (lo + gwidth P + gwidth v) Q ms ->
    occurrences x lo s ([Z.of_nat (lo + gwidth P); Z.of_nat (lo + gwidth P + gwidth v)] :: ms).

Lemma ordinary_quote x : Forall ordinary x -> quote_text x = x.
Proof.
  induction 1 as [|r x (_ & Hr & _) Hx IH]; [reflexivity|].
  change (quote_text (r :: x)) with ((if is_meta r then [0x5C%N; r] else [r]) ++ quote_text x).
  rewrite Hr, IH; reflexivity.
Qed.
Lemma not_meta r c : is_meta r = false -> is_meta c = true -> r <> c.
Proof. intros H1 H2 ->; congruence. Qed.
Lemma ordinary_edges x : Forall ordinary x -> edges x = x.
Proof.
  intros H; unfold edges; rewrite !swap_runs_id; [reflexivity| |rewrite swap_runs_id];
    (eapply Forall_impl; [|exact H]); intros r (_ & Hr & _); apply (not_meta _ _ Hr); reflexivity.
Qed.
Lemma ordinary_parse x k : Forall ordinary x -> parse_from k x = Ok (seq_of (lits x), k) /\
  parse_from k (x ++ txt "()") = Ok (seq_of (lits x ++ [RCap (S k) REmpty]), S k).
Proof.
  intros H; split.
  - unfold parse_from; pose proof (parse_quoted x [] [] frame0 k) as E; rewrite ordinary_quote, app_nil_r in E by exact H.
    refine (eq_trans E _); cbn [f_cap f_alts f_cur frame0]; rewrite app_nil_r; reflexivity.
  - unfold parse_from; pose proof (parse_quoted x (txt "()") [] frame0 k) as E; rewrite ordinary_quote in E by exact H.
    refine (eq_trans E _); cbn [f_cap f_alts f_cur frame0]; rewrite app_nil_r.
    refine (eq_trans (parse_group k [] REmpty (S k) [] [] _ _ eq_refl) _); unfold seq_of; rewrite rev_app_distr; reflexivity.
Qed.

(** No macro: the expression is not changed when no macro occurs in it. *)
Definition no_macro (macros : macros_map) (e : bytes) : Prop :=
  forall k v a b, In (k, v) macros -> e <> a ++ k ++ b.
Lemma no_macro_lookup macros e : no_macro macros e -> rep_lookup macros e false = None.
Proof.
  intros H; destruct (rep_lookup macros e false) as [[v n]|] eqn:E; [exfalso|reflexivity].
  apply rep_lookup_some in E; destruct E as (k & Hin & Hm & _); apply matches_prefix in Hm; destruct Hm as (t & Et).
  apply (H k v [] t Hin Et).
Qed.
Lemma no_macro_expand macros e : no_macro macros e -> expand_macros e macros = e.
Proof.
  unfold expand_macros, replacer_replace; induction e as [|c e IH]; intros H;
    cbn [rep_from]; rewrite no_macro_lookup by exact H; [reflexivity|].
  cbn [app]; f_equal; apply IH; intros k v a b Hin Ee; apply (H k v (c :: a) b Hin); rewrite Ee; reflexivity.
Qed.

Definition lit_src (x : list rune) : src := Src 0 NoLook x NoLook 0.
Lemma lit_described x macros vars : Forall ordinary x -> x <> [] -> no_macro macros (encode x) ->
  reads (encode x) macros vars (lit_src x) (seq_of (lits x)) 0 /\
  exists p, new_pattern (encode x) macros vars = Ok p /\
    described p (lit_src x) 0 REmpty REmpty None None [lits x].
Proof.
  intros Hx Hne Hm.
  assert (encode x <> []) as He.
  { destruct x as [|r x]; [contradiction|]; intros H; apply (f_equal (@length _)) in H; cbn [encode flat_map] in H.
    rewrite app_length in H; pose proof (encode_rune_length r); cbn in H; lia. }
  assert (scalars x) as Hs by (eapply Forall_impl; [|exact Hx]; intros r Hr; apply Hr).
  assert (expand_vars (expand_macros (encode x) macros) vars = (encode (src_text (lit_src x)), [])) as Hexp.
  { rewrite no_macro_expand by exact Hm; pose proof (expand_vars_text vars [] x) as H.
    unfold src_text, lit_src; cbn [s_left s_right s_behind s_ahead s_body look_text repeat app]; rewrite app_nil_r.
    refine (eq_trans (H _) _); [|reflexivity]; split; [constructor|]; split; [|exact Hs].
    eapply Forall_impl; [|exact Hx]; intros r Hr; apply Hr. }
  assert (src_ok (lit_src x)) as Hok.
  { split; cbn; auto.
    - apply paired_none; eapply Forall_impl; [|exact Hx]; intros r (_ & Hr & _); apply (not_meta _ _ Hr); reflexivity.
    - intros _; destruct x as [|r x]; [contradiction|]; apply Forall_cons_iff in Hx; destruct Hx as [(_ & Hr & _) _].
      apply (not_meta _ _ Hr); reflexivity.
    - intros _; pose proof (last_in x 0%N Hne) as Hl; rewrite Forall_forall in Hx; destruct (Hx _ Hl) as (_ & Hr & _).
      apply (not_meta _ _ Hr); reflexivity. }
  destruct (ordinary_parse x 0 Hx) as [Hp1 Hp2].
  assert (parse_from 0 (edges (s_body (lit_src x))) = Ok (seq_of (lits x), O)) as Hpe.
  { cbn [s_body lit_src]; rewrite ordinary_edges by exact Hx; exact Hp1. }
  split.
  - split; [exact He|]; split; [exists []; exact Hexp|]; split; [exact Hok|exact Hpe|exact I|exact I].
  - destruct (new_pattern_described (encode x) macros vars (lit_src x) [] _ _ REmpty REmpty None None He Hexp Hok Hpe)
      as (p & alts & Hp & _ & D & _ & Hone).
    { split; reflexivity. }
    { split; reflexivity. }
    exists p; split; [exact Hp|].
    cbn [s_body lit_src] in Hone; rewrite ordinary_edges in Hone by exact Hx.
    rewrite seq_of_cat in Hp2.
    2:{ rewrite app_length; unfold lits; rewrite map_length; destruct x; [contradiction|cbn; lia]. }
    specialize (Hone _ _ Hp2); rewrite removelast_last in Hone.
    assert (map (bump 2) (lits x) = lits x) as E.
    { unfold lits; rewrite map_map; apply map_ext; reflexivity. }
    rewrite E in Hone; subst alts; exact D.
Qed.

Lemma runs_lits x s p c s' p' c' : runs_seq (lits x) s p c s' p' c' ->
  exists v, s = v ++ s' /\ runes_of v = x /\ p' = (p + gwidth v)%nat /\ c' = c.
Proof.
  revert s p c; induction x as [|r x IH]; intros s p c H.
  - inversion H; subst; exists []; rewrite gwidth_nil, Nat.add_0_r; auto.
  - cbn [lits map] in H; inversion H as [|r0 l0 s0 p0 c0 s1 p1 c1 s2 p2 c2 H1 H2]; subst.
    cbn [simplify] in H1; inversion H1 as [|ranges ch w s0 p0 c0 Hs| | | | | | | |]; subst.
    apply in_one in Hs; subst ch.
    destruct (IH _ _ _ H2) as (v & -> & <- & -> & ->); exists ((r, w) :: v); rewrite gwidth_cons; cbn [snd].
    split; [reflexivity|]; split; [reflexivity|]; split; [lia|reflexivity].
Qed.
Lemma runs_lits_intro v s p c : wide v -> runs_seq (lits (runes_of v)) (v ++ s) p c s (p + gwidth v) c.
Proof.
  intros _; revert p; induction v as [|[r w] v IH]; intros p.
  - rewrite gwidth_nil, Nat.add_0_r; constructor.
  - change (lits (runes_of ((r, w) :: v))) with (RLit [r] :: lits (runes_of v)); cbn [app]; econstructor.
    + cbn [simplify]; constructor; apply one_in.
    + rewrite gwidth_cons; cbn [snd]; rewrite Nat.add_assoc; apply IH.
Qed.

Section Literal.
  Context (x : list rune) (p : pattern).
  Hypothesis D : described p (lit_src x) 0 REmpty REmpty None None [lits x].
  Hypothesis Hne : x <> [].

  Lemma lit_tree : tree (p_re p) =
    RCat ([RCap 1 REmpty; RCap 2 REmpty] ++ lits x ++ [RCap 3 REmpty; RCap 4 REmpty]).
  Proof.
    rewrite (d_tree _ _ _ _ _ _ _ _ D); unfold whole, surround; cbn [append_last alt_of].
    rewrite seq_of_cat by (rewrite !app_length; cbn; lia); cbn [s_left s_right lit_src edge_tree front back].
    rewrite <- app_assoc; reflexivity.
  Qed.
  Lemma lit_prog : prog (p_re p) = simplify (RCat ([RCap 1 REmpty; RCap 2 REmpty] ++ lits x ++ [RCap 3 REmpty; RCap 4 REmpty])).
  Proof. rewrite <- lit_tree; apply (d_compiled _ _ _ _ _ _ _ _ D). Qed.

  Lemma lit_runs s q s' q' c' : runs (prog (p_re p)) s q [] s' q' c' ->
    exists v, s = v ++ s' /\ runes_of v = x /\ q' = (q + gwidth v)%nat /\
      c' = [(4, (q', q')); (3, (q', q')); (2, (q, q)); (1, (q, q))]%nat.
  Proof.
    rewrite lit_prog; intros H; apply runs_cat in H; cbn [app] in H.
    inversion H as [|r0 l0 s0 p0 c0 s1 p1 c1 s2 p2 c2 H1 H2]; subst; clear H.
    inversion H2 as [|r0 l0 s0 p0 c0 s2 p2 c2 s3 p3 c3 H3 H4]; subst; clear H2.
    cbn [simplify] in H1, H3.
    inversion H1 as [| | | |i0 r0 s0 p0 c0 s4 p4 c4 H5| | | | |]; subst; inversion H5; subst; clear H1 H5.
    inversion H3 as [| | | |i0 r0 s0 p0 c0 s4 p4 c4 H5| | | | |]; subst; inversion H5; subst; clear H3 H5.
    apply runs_seq_app in H4; destruct H4 as (s5 & p5 & c5 & H4 & H6).
    apply runs_lits in H4; destruct H4 as (v & -> & Hv & -> & ->); exists v.
    inversion H6 as [|r0 l0 s0 p0 c0 s6 p6 c6 s7 p7 c7 H7 H8]; subst; clear H6.
    inversion H8 as [|r0 l0 s0 p0 c0 s8 p8 c8 s9 p9 c9 H9 H10]; subst; clear H8; inversion H10; subst; clear H10.
    cbn [simplify] in H7, H9.
    inversion H7 as [| | | |i0 r0 s0 p0 c0 s4 p4 c4 H5| | | | |]; subst; inversion H5; subst; clear H7 H5.
    inversion H9 as [| | | |i0 r0 s0 p0 c0 s4 p4 c4 H5| | | | |]; subst; inversion H5; subst; clear H9 H5.
    repeat split; reflexivity.
  Qed.
  Lemma lit_runs_intro v s q : wide v -> runes_of v = x ->
    exists q' c', runs (prog (p_re p)) (v ++ s) q [] s q' c'.
  Proof.
    intros Hw Hv; exists (q + gwidth v)%nat; eexists; rewrite lit_prog; apply runs_cat; cbn [app].
    econstructor; [cbn [simplify]; constructor; constructor|].
    econstructor; [cbn [simplify]; constructor; constructor|].
    apply runs_seq_app; eexists; eexists; eexists; split; [rewrite <- Hv; apply runs_lits_intro; exact Hw|].
    econstructor; [cbn [simplify]; constructor; constructor|].
    econstructor; [cbn [simplify]; constructor; constructor|constructor].
  Qed.

  Lemma lit_search s : wide s ->
    match search (prog (p_re p)) s 0 with
    | None => forall P v Q, ~ place x s P v Q
    | Some (a, b, c) => exists P v Q, place x s P v Q /\ a = gwidth P /\ b = (a + gwidth v)%nat /\
        c = [(4, (b, b)); (3, (b, b)); (2, (a, a)); (1, (a, a))]%nat /\
        forall P' v' Q', place x s P' v' Q' -> (gwidth P <= gwidth P')%nat
    end.
  Proof.
    intros Hw.
    assert (forall P v Q, place x s P v Q -> exists a b c, search (prog (p_re p)) s 0 = Some (a, b, c) /\ (a <= gwidth P)%nat) as Hl.
    { intros P v Q (Es & Hv); rewrite Es in Hw; apply wide_app in Hw; destruct Hw as [_ Hw]; apply wide_app in Hw.
      destruct (lit_runs_intro v Q (0 + gwidth P) (proj1 Hw) Hv) as (q' & c' & Hr).
      exact (search_leftmost _ s 0 P v Q q' c' Es Hr). }
    destruct (search (prog (p_re p)) s 0) as [[[a b] c]|] eqn:Es.
    - destruct (search_sound _ _ _ _ _ _ Es) as (u & v & s' & E & Ea & Eb & Hr).
      apply lit_runs in Hr; destruct Hr as (v' & Ev & Hv & _ & Hc); apply app_inv_tail in Ev; subst v'.
      exists u, v, s'; split; [split; assumption|]; split; [exact Ea|]; split; [exact Eb|]; split; [exact Hc|].
      intros P' v' Q' Hp; destruct (Hl _ _ _ Hp) as (a' & b' & c' & E' & Hle); injection E' as -> _ _; lia.
    - intros P v Q Hp; destruct (Hl _ _ _ Hp) as (a' & b' & c' & E' & _); discriminate.
  Qed.

  Lemma lit_scan word off ms : FindFacts.scan p word off ms -> boundary word off ->
    occurrences x (Z.to_nat off) (glyphs (skipn (Z.to_nat off) word)) ms.
  Proof.
    assert (p_negA p = None /\ p_negB p = None) as [HA HB].
    { split; [rewrite (d_negA _ _ _ _ _ _ _ _ D)|rewrite (d_negB _ _ _ _ _ _ _ _ D)]; reflexivity. }
    assert (forall word m, negatives_allow p word m = Ok true) as Hneg.
    { intros w m; unfold negatives_allow; rewrite HA, HB; reflexivity. }
    induction 1 as [off H|off H Hr|off start stop core ms H1 H2 H3 H4 H5 H6 H7 IH|off start stop ms H1 H2 H3 H4 H5 H7 IH]; intros Hb.
    - apply occ_none; intros P v Q (E & Hv).
      rewrite skipn_all2 in E by (unfold len in H; lia); cbn in E.
      destruct P; [|discriminate]; destruct v; [|discriminate]; subst x; apply Hne; reflexivity.
    - pose proof (lit_search _ (glyphs_wide (skipn (Z.to_nat off) word))) as Hs.
      unfold raw, find_submatch_index in Hr; destruct (search _ _ 0) as [[[a b] c]|]; [discriminate|].
      apply occ_none; exact Hs.
    - pose proof (lit_search _ (glyphs_wide (skipn (Z.to_nat off) word))) as Hs.
      assert (numcap (p_re p) = 4%nat) as Hn by exact (d_numcap _ _ _ _ _ _ _ _ D).
      unfold raw, find_submatch_index in H2, H3, H6; rewrite Hn in *.
      destruct (search _ _ 0) as [[[a b] c]|]; [|cbn in H2; lia].
      destruct Hs as (P & v & Q & (E & Hv) & Ea & Eb & Ec & Hleft).
      assert (exists m, m = shift off (Z.of_nat a :: Z.of_nat b :: cap_array c 1 4) /\
        m = [Z.of_nat a + off; Z.of_nat b + off; Z.of_nat a + off; Z.of_nat a + off; Z.of_nat a + off; Z.of_nat a + off;
             Z.of_nat b + off; Z.of_nat b + off; Z.of_nat b + off; Z.of_nat b + off]) as (m & Em & Em').
      { eexists; split; [reflexivity|]; rewrite Ec; cbn [cap_array cap_lookup Nat.eqb app shift map].
        assert (forall z, (Z.of_nat z =? -1) = false) as Hz by (intros z; destruct (Z.eqb_spec (Z.of_nat z) (-1)); [lia|reflexivity]).
        rewrite !Hz; reflexivity. }
      rewrite <- Em, Em' in H3, H6; clear Em Em' H2 m.
      assert (forall z, (Z.of_nat z + off =? -1) = false) as Hz by (intros z; destruct (Z.eqb_spec (Z.of_nat z + off) (-1)); [lia|reflexivity]).
      unfold pick_start_stop in H3.
      change (bind (if Z.of_nat a + off =? -1 then Ok (Z.of_nat a + off) else Ok (Z.of_nat a + off)) (fun st =>
        bind (if Z.of_nat b + off =? -1 then Ok (Z.of_nat b + off) else Ok (Z.of_nat b + off)) (fun sp => Ok (st, sp)))
        = Ok (start, stop)) in H3.
      rewrite !Hz in H3; cbn [bind] in H3; injection H3 as <- <-.
      unfold slice, len in H6; cbn in H6; injection H6 as <-.
      assert (boundary word (Z.of_nat b + off)) as Hb'.
      { replace (Z.of_nat b + off) with (off + Z.of_nat (gwidth P) + Z.of_nat (gwidth v)) by lia.
        eapply boundary_step; [exact Hb|exact E]. }
      specialize (IH Hb').
      assert (Z.to_nat (Z.of_nat b + off) = (Z.to_nat off + gwidth P + gwidth v)%nat) as Eoff by lia.
      rewrite Eoff in IH.
      assert (glyphs (skipn (Z.to_nat off + gwidth P + gwidth v) word) = Q) as EQ.
      { rewrite <- Nat.add_assoc, <- skipn_add, <- gwidth_app; apply boundary_skipn; rewrite <- app_assoc; exact E. }
      rewrite EQ in IH.
      replace (Z.of_nat a + off) with (Z.of_nat (Z.to_nat off + gwidth P)) by lia.
      replace (Z.of_nat b + off) with (Z.of_nat (Z.to_nat off + gwidth P + gwidth v)) by lia.
      eapply occ_next; [split; eassumption|exact Hleft|exact IH].
    - rewrite Hneg in H5; discriminate.
  Qed.
End Literal.

(** A non-empty text of ordinary characters, in which no macro occurs, is a pattern; Find
    gives the occurrences of the text, from the left, without overlap, and nothing else. *)
Theorem C54_literal : forall x macros vars word,
  Forall ordinary x -> x <> [] -> no_macro macros (encode x) ->
  exists p ms, new_pattern (encode x) macros vars = Ok p /\ find p word (-1) = Ok ms /\
    occurrences x 0 (glyphs word) ms.
Proof.
  intros x macros vars word Hx Hne Hm.
  destruct (lit_described x macros vars Hx Hne Hm) as [Hreads (p & Hp & D)].
  exists p; destruct Hreads as (He & (used & Hex) & B).
  destruct (balanced_find _ _ _ _ _ _ _ _ word (-1) He Hex B Hp) as [(ms & Hf & _)|[_ (pre & post & Hmt)]].
  - exists ms; split; [exact Hp|]; split; [exact Hf|].
    apply (lit_scan x p D Hne word 0 ms (find_scan p word (-1) ms eq_refl Hf)).
    exists [], (glyphs word); split; reflexivity.
  - exfalso; apply rmatch_seq, lits_match in Hmt; apply Hne; symmetry; exact Hmt.
Qed.
Print Assumptions C54_literal.

Example C54_example :
  Forall ordinary (txt "aba") /\ no_macro [(lit "@", lit "[aeiou]")] (lit "aba") /\
  find (pat "aba") (lit "xababaabay") (-1) = Ok [[1; 4]; [6; 9]].
Proof.
  split; [repeat constructor; discriminate|]; split; [|vm_compute; reflexivity].
  intros k v a b [E|[]]; injection E as <- <-; intros E.
  assert (In 0x40%N (lit "aba")) as H by (rewrite E; apply in_or_app; right; left; reflexivity).
  cbn in H; intuition discriminate.
Qed.
