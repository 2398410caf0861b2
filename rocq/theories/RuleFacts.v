(** Interpolation and rules. *)
From Verif Require Import GoBase Utf8 Utf8Facts Regex RegexSpec RegexFacts CaptureFacts RegexParse Hre
  FindFacts Subword Rule SubwordFacts.
Open Scope Z_scope.

(** ** Text without the replacement character is well-formed UTF-8 *)
Lemma decode_valid s :
  s <> [] -> fst (decode_rune s) <> rune_error ->
  s = encode_rune (fst (decode_rune s)) ++ skipn (snd (decode_rune s)) s.
Proof.
  intros Hn; destruct s as [|b0 s1]; [contradiction|]; clear Hn; cbn [decode_rune].
  destruct (b0 <? 0x80)%N eqn:E1.
  { intros _; cbn [fst snd skipn]; unfold encode_rune.
    destruct (b0 <=? 0x7F)%N eqn:E; [reflexivity|lia]. }
  destruct ((b0 <? 0xC2)%N || (0xF4 <? b0)%N) eqn:E2; [intros H; exfalso; apply H; reflexivity|].
  destruct s1 as [|b1 s2]; [intros H; exfalso; apply H; reflexivity|].
  destruct (b0 <? 0xE0)%N eqn:E3.
  { unfold is_cont; destruct ((0x80 <=? b1)%N && (b1 <=? 0xBF)%N) eqn:C1;
      [|intros H; exfalso; apply H; reflexivity].
    intros _; cbn [fst snd skipn].
    set (r := ((b0 - 0xC0) * 64 + (b1 - 0x80))%N).
    assert (r / 64 = b0 - 0xC0)%N as D1 by (symmetry; apply (N.div_unique _ _ _ (b1 - 0x80)%N); unfold r; lia).
    assert (r mod 64 = b1 - 0x80)%N as M1 by (symmetry; apply (N.mod_unique _ _ (b0 - 0xC0)%N); unfold r; lia).
    unfold encode_rune; replace (r <=? 0x7F)%N with false by (unfold r; lia).
    replace (r <=? 0x7FF)%N with true by (unfold r; lia).
    rewrite D1, M1; cbn [app]; do 2 f_equal; lia. }
  destruct (b0 <? 0xF0)%N eqn:E4.
  { destruct (is_cont b1 && _ && _) eqn:C1; [|intros H; exfalso; apply H; reflexivity].
    destruct s2 as [|b2 s3]; [intros H; exfalso; apply H; reflexivity|].
    destruct (is_cont b2) eqn:C2; [|intros H; exfalso; apply H; reflexivity].
    intros _; cbn [fst snd skipn]; unfold is_cont in *.
    set (r := ((b0 - 0xE0) * 4096 + (b1 - 0x80) * 64 + (b2 - 0x80))%N).
    assert (r / 64 = (b0 - 0xE0) * 64 + (b1 - 0x80))%N as D1
      by (symmetry; apply (N.div_unique _ _ _ (b2 - 0x80)%N); unfold r; lia).
    assert (r mod 64 = b2 - 0x80)%N as M1
      by (symmetry; apply (N.mod_unique _ _ ((b0 - 0xE0) * 64 + (b1 - 0x80))%N); unfold r; lia).
    assert ((r / 64) mod 64 = b1 - 0x80)%N as M2
      by (rewrite D1; symmetry; apply (N.mod_unique _ _ (b0 - 0xE0)%N); lia).
    assert (r / 4096 = b0 - 0xE0)%N as D2
      by (symmetry; apply (N.div_unique _ _ _ ((b1 - 0x80) * 64 + (b2 - 0x80))%N); unfold r; lia).
    unfold encode_rune, is_scalar.
    destruct (b0 =? 0xE0)%N eqn:Ea; destruct (b0 =? 0xED)%N eqn:Eb; try lia;
    (replace (r <=? 0x7F)%N with false by (unfold r; lia);
     replace (r <=? 0x7FF)%N with false by (unfold r; lia);
     replace (negb ((r <? 0xD800)%N || ((0xDFFF <? r)%N && (r <=? 0x10FFFF)%N))) with false by (unfold r; lia);
     replace (r <=? 0xFFFF)%N with true by (unfold r; lia);
     rewrite M1, M2, D2; cbn [app]; repeat (f_equal; try lia)). }
  destruct (is_cont b1 && _ && _) eqn:C1; [|intros H; exfalso; apply H; reflexivity].
  destruct s2 as [|b2 [|b3 s3]]; [intros H; exfalso; apply H; reflexivity ..|].
  destruct (is_cont b2 && is_cont b3) eqn:C2; [|intros H; exfalso; apply H; reflexivity].
  intros _; cbn [fst snd skipn]; unfold is_cont in *.
  set (r := ((b0 - 0xF0) * 262144 + (b1 - 0x80) * 4096 + (b2 - 0x80) * 64 + (b3 - 0x80))%N).
  assert (r / 64 = (b0 - 0xF0) * 4096 + (b1 - 0x80) * 64 + (b2 - 0x80))%N as D1
    by (symmetry; apply (N.div_unique _ _ _ (b3 - 0x80)%N); unfold r; lia).
  assert (r mod 64 = b3 - 0x80)%N as M1
    by (symmetry; apply (N.mod_unique _ _ ((b0 - 0xF0) * 4096 + (b1 - 0x80) * 64 + (b2 - 0x80))%N); unfold r; lia).
  assert ((r / 64) mod 64 = b2 - 0x80)%N as M2
    by (rewrite D1; symmetry; apply (N.mod_unique _ _ ((b0 - 0xF0) * 64 + (b1 - 0x80))%N); lia).
  assert (r / 4096 = (b0 - 0xF0) * 64 + (b1 - 0x80))%N as D2
    by (symmetry; apply (N.div_unique _ _ _ ((b2 - 0x80) * 64 + (b3 - 0x80))%N); unfold r; lia).
  assert ((r / 4096) mod 64 = b1 - 0x80)%N as M3
    by (rewrite D2; symmetry; apply (N.mod_unique _ _ (b0 - 0xF0)%N); lia).
  assert (r / 262144 = b0 - 0xF0)%N as D3
    by (symmetry; apply (N.div_unique _ _ _ ((b1 - 0x80) * 4096 + (b2 - 0x80) * 64 + (b3 - 0x80))%N); unfold r; lia).
  unfold encode_rune, is_scalar.
  destruct (b0 =? 0xF0)%N eqn:Ea; destruct (b0 =? 0xF4)%N eqn:Eb; try lia;
  (replace (r <=? 0x7F)%N with false by (unfold r; lia);
   replace (r <=? 0x7FF)%N with false by (unfold r; lia);
   replace (negb ((r <? 0xD800)%N || ((0xDFFF <? r)%N && (r <=? 0x10FFFF)%N))) with false by (unfold r; lia);
   replace (r <=? 0xFFFF)%N with false by (unfold r; lia);
   rewrite M1, M2, M3, D3; cbn [app]; repeat (f_equal; try lia)).
Qed.

Lemma no_error_valid s : ~ In rune_error (runes s) -> encode (runes s) = s.
Proof.
  unfold runes; induction s as [|s Hn IH] using glyphs_ind; [reflexivity|].
  rewrite glyphs_step by exact Hn; cbn [map In]; intros H.
  unfold encode in *; cbn [flat_map]; rewrite IH by tauto.
  symmetry; apply decode_valid; [exact Hn|]; intros E; apply H; left; exact E.
Qed.

(** ** Expressions with finitely many texts *)
Definition products (a b : list (list rune)) : list (list rune) :=
  flat_map (fun x => map (fun y => x ++ y) b) a.
Fixpoint finite_lang (r : re) : option (list (list rune)) :=
  match r with
  | RNoMatch => Some []
  | REmpty => Some [[]]
  | RLit rs => Some [rs]
  | RCap _ r => finite_lang r
  | RQuest _ r => match finite_lang r with Some l => Some ([] :: l) | None => None end
  | RCat l => (fix go (l : list re) : option (list (list rune)) :=
                 match l with
                 | [] => Some [[]]
                 | r :: l' => match finite_lang r, go l' with
                              | Some a, Some b => Some (products a b)
                              | _, _ => None
                              end
                 end) l
  | RAlt l => (fix go (l : list re) : option (list (list rune)) :=
                 match l with
                 | [] => Some []
                 | r :: l' => match finite_lang r, go l' with
                              | Some a, Some b => Some (a ++ b)
                              | _, _ => None
                              end
                 end) l
  | _ => None
  end.

Lemma finite_lang_sound r : forall L pre mid post,
  finite_lang r = Some L -> rmatch r pre mid post -> In mid L.
Proof.
  induction r as [| |rs|ranges| | | | |i r IH|g r IH|g r IH|g r IH|g mn mx r IH|l IH|l IH] using re_ind';
    intros L pre mid post HL Hm; cbn [finite_lang] in HL; try discriminate.
  - inversion Hm.
  - injection HL as <-; inversion Hm; left; reflexivity.
  - injection HL as <-; inversion Hm; left; reflexivity.
  - inversion Hm; subst; eapply IH; eassumption.
  - destruct (finite_lang r) as [l|]; [|discriminate]; injection HL as <-.
    inversion Hm; subst; [left; reflexivity|right; eapply IH; [reflexivity|eassumption]].
  - revert L pre mid post HL Hm; induction IH as [|r l Hr Hl IHl]; intros L pre mid post HL Hm.
    + injection HL as <-; inversion Hm; left; reflexivity.
    + destruct (finite_lang r) as [a|]; [|discriminate].
      match type of HL with context [match ?X with _ => _ end] => destruct X as [b|] eqn:Eb; [|discriminate] end.
      injection HL as <-; inversion Hm as [| | | | | | | | | | | | | | |r0 l0 pre0 a0 b0 post0 H1 H2|]; subst.
      apply in_flat_map; exists a0; split; [eapply Hr; [reflexivity|exact H1]|].
      apply in_map; eapply IHl; [reflexivity|exact H2].
  - revert L pre mid post HL Hm; induction IH as [|r l Hr Hl IHl]; intros L pre mid post HL Hm.
    + inversion Hm; contradiction.
    + destruct (finite_lang r) as [a|]; [|discriminate].
      match type of HL with context [match ?X with _ => _ end] => destruct X as [b|] eqn:Eb; [|discriminate] end.
      injection HL as <-; inversion Hm as [| | | | | | | | | | | | | | | |r0 l0 pre0 mid0 post0 Hin H1]; subst.
      apply in_or_app; destruct Hin as [<-|Hin]; [left; eapply Hr; [reflexivity|exact H1]|right].
      eapply IHl; [reflexivity|econstructor; eassumption].
Qed.

(** ** Groups that take part in every match *)
Fixpoint must_cap (i : nat) (r : re) : bool :=
  match r with
  | RNoMatch => true
  | RCap j r => (j =? i)%nat || must_cap i r
  | RPlus _ r => must_cap i r
  | RRepeat _ (S _) _ r => must_cap i r
  | RCat l => existsb (must_cap i) l
  | RAlt l => forallb (must_cap i) l
  | _ => false
  end.

Lemma lookup_keep new c i : cap_lookup c i <> None -> cap_lookup (new ++ c) i <> None.
Proof.
  intros H; induction new as [|[j ab] new IH]; [exact H|]; cbn [app cap_lookup].
  destruct (j =? i)%nat; [discriminate|exact IH].
Qed.
Lemma runs_keep x s p c s' p' c' i :
  runs x s p c s' p' c' -> cap_lookup c i <> None -> cap_lookup c' i <> None.
Proof. intros H Hc; destruct (runs_caps _ _ _ _ _ _ _ H) as (new & -> & _); apply lookup_keep; exact Hc. Qed.

Lemma xpow_first n x t s p c s' p' c' :
  runs (xpow (S n) x t) s p c s' p' c' ->
  exists s1 p1 c1, runs x s p c s1 p1 c1 /\ runs (xpow n x t) s1 p1 c1 s' p' c'.
Proof. intros H; cbn [xpow] in H; inversion H; subst; do 3 eexists; split; eassumption. Qed.

Lemma must_cap_sound i r : forall s p c s' p' c',
  must_cap i r = true -> runs (simplify r) s p c s' p' c' -> cap_lookup c' i <> None.
Proof.
  induction r as [| |rs|ranges| | | | |j r IH|g r IH|g r IH|g r IH|g mn mx r IH|l IH|l IH] using re_ind';
    intros s p c s' p' c' Hm H; cbn [must_cap] in Hm; try discriminate.
  - inversion H.
  - cbn [simplify] in H; inversion H as [| | | |i0 x0 a0 a1 a2 a3 a4 c3' Ha'| | | | |]; subst.
    cbn [cap_lookup]; destruct (j =? i)%nat; [discriminate|]; cbn [orb] in Hm; eapply IH; eassumption.
  - cbn [simplify xplus] in H; inversion H as [| | | | |x0 y0 s0 p0 c0 s1 p1 c1 s2 p2 c2 H1 H2| | | |]; subst.
    eapply runs_keep; [exact H2|]; eapply IH; eassumption.
  - destruct mn as [|mn]; [discriminate|]; cbn [simplify] in H; destruct mx as [m|].
    + apply xpow_first in H; destruct H as (s1 & p1 & c1 & H1 & H2).
      eapply runs_keep; [exact H2|]; eapply IH; eassumption.
    + destruct mn as [|mn].
      * cbn [xpow] in H; inversion H as [| | | | |x0 y0 s0 p0 c0 s1 p1 c1 s2 p2 c2 H1 H2| | | |]; subst.
        eapply runs_keep; [exact H2|]; eapply IH; eassumption.
      * apply xpow_first in H; destruct H as (s1 & p1 & c1 & H1 & H2).
        eapply runs_keep; [exact H2|]; eapply IH; eassumption.
  - apply runs_cat in H; revert Hm; induction H as [s p c|r l s p c s1 p1 c1 s2 p2 c2 H1 H2 IH2];
      intros Hm; [discriminate|]; cbn [existsb] in Hm; inversion IH as [|r0 l0 Hr Hl]; subst.
    apply orb_true_iff in Hm; destruct Hm as [Hm|Hm]; [|apply IH2; assumption].
    apply runs_cat in H2; eapply runs_keep; [exact H2|]; eapply Hr; eassumption.
  - apply runs_alt in H; destruct H as (r & Hin & H); rewrite Forall_forall in IH.
    rewrite forallb_forall in Hm; eapply IH; [exact Hin|apply Hm; exact Hin|exact H].
Qed.

(** ** Rules whose replacements can always be computed *)

(** The values group [i] can have in a match of [r], all among [vals]. *)
Definition group_within (r : re) (i : nat) (vals : list bytes) : bool :=
  forallb (fun e => negb (fst e =? i)%nat ||
    match finite_lang (snd e) with
    | Some L => forallb (fun l => negb (nmem rune_error l) && existsb (beqb (encode l)) vals) L
    | None => false
    end) (recaps r)
  && (must_cap i r || existsb (beqb []) vals).

Fixpoint parts_ok (r : re) (n : nat) (parts : list rpart) (k : nat) (used : list (list bytes)) : bool :=
  match parts with
  | [] => true
  | Plain _ :: parts' => parts_ok r n parts' k used
  | ToVar _ to :: parts' =>
    match nth_error used k with
    | None => true (* too many variables: the match is skipped *)
    | Some from =>
      (3 + k <=? n - 2)%nat &&
      (match to with [] => false | [_] => true | _ => group_within r (3 + k) from end) &&
      parts_ok r n parts' (S k) used
    end
  end.

Definition rule_ok (r : rule) : bool :=
  safe_pattern (rule_from r) &&
  parts_ok (tree (p_re (rule_from r))) (numcap (p_re (rule_from r))) (r_parts (rule_to r)) 0
           (p_usedVars (rule_from r)).

Lemma index_of_range v vals : -1 <= index_of v vals < len vals \/ (vals = [] /\ index_of v vals = -1).
Proof.
  induction vals as [|x vals IH]; [right; split; reflexivity|left].
  cbn [index_of]; unfold len in *; cbn [length]; destruct (beqb x v); [lia|].
  destruct IH as [IH|[-> IH]]; [|rewrite IH; cbn; lia].
  destruct (index_of v vals =? -1) eqn:E; lia.
Qed.
Lemma index_of_in v vals : existsb (beqb v) vals = true -> 0 <= index_of v vals < len vals.
Proof.
  induction vals as [|x vals IH]; [discriminate|]; cbn [existsb index_of]; intros H.
  unfold len in *; cbn [length].
  destruct (beqb x v) eqn:E; [lia|].
  assert (beqb v x = false) as E' by (apply beqb_neq; apply beqb_neq in E; congruence).
  rewrite E' in H; cbn [orb] in H; specialize (IH H).
  destruct (index_of v vals =? -1) eqn:E1; lia.
Qed.

Lemma index_ok {A} (l : list A) i : 0 <= i < len l -> exists x, index l i = Ok x.
Proof.
  intros H; unfold index; replace (0 <=? i) with true by lia.
  destruct (nth_error l (Z.to_nat i)) eqn:E; [eexists; reflexivity|].
  apply nth_error_None in E; unfold len in H; lia.
Qed.
Lemma index_skip {A} (l : list A) (k i : Z) r lo hi :
  slice l lo hi = Ok r -> 0 <= i < hi - lo -> index r i = index l (lo + i).
Proof.
  unfold slice; destruct ((0 <=? lo) && (lo <=? hi) && (hi <=? len l)) eqn:E; [|discriminate].
  intros H Hi; injection H as <-; unfold index.
  replace (0 <=? i) with true by lia; replace (0 <=? lo + i) with true by lia.
  replace (nth_error (firstn (Z.to_nat (hi - lo)) (skipn (Z.to_nat lo) l)) (Z.to_nat i))
    with (nth_error l (Z.to_nat (lo + i))); [reflexivity|].
  replace (Z.to_nat (lo + i)) with (Z.to_nat lo + Z.to_nat i)%nat by lia.
  assert (Z.to_nat i < Z.to_nat (hi - lo))%nat as Hlt by lia.
  generalize (Z.to_nat (hi - lo)) (Z.to_nat i) Hlt; clear; intros m j Hlt.
  assert (nth_error l (Z.to_nat lo + j) = nth_error (skipn (Z.to_nat lo) l) j) as ->.
  { generalize (Z.to_nat lo) as q; intros q; revert l; induction q as [|q IH]; intros l; [reflexivity|].
    destruct l as [|x l]; [cbn; destruct j; reflexivity|apply IH]. }
  generalize (skipn (Z.to_nat lo) l); clear l; intros l; revert m j Hlt.
  induction l as [|x l IH]; intros m j Hlt; [rewrite firstn_nil; reflexivity|].
  destruct m as [|m]; [lia|]; destruct j as [|j]; [reflexivity|]; cbn [firstn nth_error]; apply IH; lia.
Qed.

(** A recorded group captured a text of one of the expressions under that number. *)
Lemma lookup_in c i ab : cap_lookup c i = Some ab -> In (i, ab) c.
Proof.
  induction c as [|[j x] c IH]; [discriminate|]; cbn [cap_lookup].
  destruct (Nat.eqb_spec j i) as [->|_]; [intros H; injection H as ->; left; reflexivity|].
  intros H; right; apply IH; exact H.
Qed.
Lemma group_text r s a b c i x y :
  search (simplify r) (glyphs s) 0 = Some (a, b, c) -> cap_lookup c i = Some (x, y) ->
  exists r' u v w, In (i, r') (recaps r) /\ glyphs s = u ++ v ++ w /\
    x = gwidth u /\ y = (gwidth u + gwidth v)%nat /\
    rmatch r' (map fst u) (map fst v) (map fst w).
Proof.
  intros Hs Hl; destruct (search_sound _ _ _ _ _ _ Hs) as (u0 & v0 & s' & Es & Ea & Eb & Hr).
  destruct (runs_caps _ _ _ _ _ _ _ Hr) as (new & Ec & Hn); rewrite app_nil_r in Ec; subst new.
  rewrite Forall_forall in Hn; specialize (Hn _ (lookup_in _ _ _ Hl)).
  destruct Hn as (xx & u & v & w & c0 & c1 & Hin & Ev & Ex & Ey & Hr').
  apply xcaps_simplify in Hin; destruct Hin as (r' & Hin & ->).
  exists r', (u0 ++ u), v, (w ++ s'); split; [exact Hin|].
  split; [rewrite Es, Ev, <- app_assoc; reflexivity|].
  rewrite gwidth_app; split; [lia|]; split; [lia|].
  pose proof (glyphs_width_pos s) as Hw; rewrite Es, Ev in Hw.
  apply Forall_app in Hw; destruct Hw as [Hw0 Hw]; apply Forall_app in Hw; destruct Hw as [Hwu Hw].
  rewrite map_app; eapply (proj1 (means_simplify r')); [exact Hw| |exact Hr'].
  subst x a; cbn [Nat.add].
  assert (at_start [] 0) as H0 by (split; reflexivity).
  pose proof (at_start_app _ _ _ (at_start_app _ _ _ H0 Hw0) Hwu) as H1.
  cbn [app Nat.add] in H1; exact H1.
Qed.

Lemma substr_group word off u v w :
  0 <= off -> glyphs (skipn (Z.to_nat off) word) = u ++ v ++ w -> (Z.to_nat off <= length word)%nat ->
  substr word (Z.of_nat (gwidth u) + off) (Z.of_nat (gwidth u + gwidth v) + off)
  = sub (skipn (Z.to_nat off) word) (gwidth u) (gwidth u + gwidth v).
Proof.
  intros Hoff Hg Hle.
  assert (gwidth u + gwidth v + gwidth w = length word - Z.to_nat off)%nat as Hlen.
  { rewrite <- skipn_length, <- gwidth_glyphs, Hg, !gwidth_app; lia. }
  unfold substr; match goal with |- context [if ?x then [] else _] => replace x with false by lia end.
  cbv zeta; unfold len, sub.
  destruct (Z.of_nat (length word) <=? Z.of_nat (gwidth u) + off) eqn:E1.
  - replace (gwidth u + gwidth v - gwidth u)%nat with 0%nat by lia; reflexivity.
  - destruct (Z.of_nat (length word) <? Z.of_nat (gwidth u + gwidth v) + off) eqn:E2; [lia|].
    destruct (0 <? Z.of_nat (gwidth u + gwidth v) + off - (Z.of_nat (gwidth u) + off)) eqn:E3.
    + rewrite skipn_add; f_equal; [lia|]; f_equal; lia.
    + replace (gwidth u + gwidth v - gwidth u)%nat with 0%nat by lia; reflexivity.
Qed.

(** The core of an accepted match: group [3 + k] is its [k]-th pair. *)
Definition match_of (p : pattern) (word : bytes) (m : list Z) : Prop :=
  exists off start stop core, 0 <= off < len word /\
    pick_start_stop (raw p word off) = Ok (start, stop) /\ 10 <= len (raw p word off) /\
    slice (raw p word off) 6 (len (raw p word off) - 4) = Ok core /\
    negatives_allow p word (raw p word off) = Ok true /\
    m = start :: stop :: core.

Lemma scan_matches p word off ms : scan p word off ms -> Forall (match_of p word) ms.
Proof.
  induction 1 as [off H|off H Hr|off start stop core ms H1 H2 H3 H4 H5 H6 H7 IH|off start stop ms H1 H2 H3 H4 H5 H7 IH];
    try constructor; auto.
  exists off, start, stop, core; auto 8.
Qed.

Lemma index_cons2 {A} (a b : A) l i : 2 <= i -> index (a :: b :: l) i = index l (i - 2).
Proof.
  intros H; unfold index; replace (0 <=? i) with true by lia; replace (0 <=? i - 2) with true by lia.
  replace (Z.to_nat i) with (S (S (Z.to_nat (i - 2)))) by lia; reflexivity.
Qed.

Lemma captured_group p word m k :
  compiled p -> match_of p word m -> (3 + k <= numcap (p_re p) - 2)%nat ->
  exists off a b c,
    search (simplify (tree (p_re p))) (glyphs (skipn (Z.to_nat off) word)) 0 = Some (a, b, c) /\
    0 <= off < len word /\
    captured word m (Z.of_nat k + 1) =
      Ok (match cap_lookup c (3 + k) with
          | Some (x, y) => sub (skipn (Z.to_nat off) word) x y
          | None => []
          end).
Proof.
  intros Hc (off & start & stop & core & Ho & Hp & Hlen & Hcore & _ & ->) Hk.
  destruct (search (prog (p_re p)) (glyphs (skipn (Z.to_nat off) word)) 0) as [[[a b] c]|] eqn:Es.
  2:{ rewrite (raw_miss _ _ _ Es) in Hlen; unfold len in Hlen; cbn in Hlen; lia. }
  pose proof (raw_len p word off a b c Es) as Hl.
  exists off, a, b, c; split; [rewrite <- Hc; exact Es|]; split; [exact Ho|].
  unfold captured; rewrite !index_cons2 by lia.
  rewrite (index_skip (raw p word off) 0 _ core 6 (len (raw p word off) - 4) Hcore) by lia.
  rewrite (index_skip (raw p word off) 0 _ core 6 (len (raw p word off) - 4) Hcore) by lia.
  destruct (raw_index p word off a b c Es (3 + k) ltac:(lia)) as [H1 H2].
  replace (6 + ((Z.of_nat k + 1) * 2 - 2)) with (2 * Z.of_nat (3 + k)) by lia.
  replace (6 + ((Z.of_nat k + 1) * 2 + 1 - 2)) with (2 * Z.of_nat (3 + k) + 1) by lia.
  rewrite H1, H2; cbn [bind]; f_equal.
  change (group_at (a, b) c (3 + k)) with (cap_at c (3 + k)); unfold cap_at.
  destruct (cap_lookup c (3 + k)) as [[x y]|] eqn:El; cbn [fst snd].
  - rewrite Hc in Es; destruct (group_text _ _ _ _ _ _ _ _ Es El) as (r' & u & v & w & _ & Eg & -> & -> & _).
    rewrite !off_by_nat; eapply substr_group; [lia|exact Eg|unfold len in Ho; lia].
  - reflexivity.
Qed.

(** A result that is a value or an error, neither a panic nor a hang. *)
Definition fine {A} (r : res A) : Prop :=
  match r with Ok _ | Err _ => True | _ => False end.

Lemma interpolate_parts_ok p word m parts k :
  compiled p -> match_of p word m ->
  parts_ok (tree (p_re p)) (numcap (p_re p)) parts k (p_usedVars p) = true ->
  fine (interpolate_parts parts (Z.of_nat k) p word m).
Proof.
  intros Hc Hm; revert k; induction parts as [|[s|s to] parts IH]; intros k Hok; cbn [interpolate_parts].
  - exact I.
  - cbn [parts_ok] in Hok; specialize (IH k Hok); destruct (interpolate_parts parts _ _ _ _); cbn; auto.
  - cbn [parts_ok] in Hok; destruct (nth_error (p_usedVars p) k) as [from|] eqn:Ef.
    2:{ apply nth_error_None in Ef; unfold len.
        replace (Z.of_nat (length (p_usedVars p)) - 1 <? Z.of_nat k) with true by lia; exact I. }
    assert (k < length (p_usedVars p))%nat as Hkl by (apply nth_error_Some; congruence).
    unfold len at 1; replace (Z.of_nat (length (p_usedVars p)) - 1 <? Z.of_nat k) with false by lia.
    unfold index at 1; replace (0 <=? Z.of_nat k) with true by lia; rewrite Nat2Z.id, Ef; cbn [bind].
    apply andb_true_iff in Hok; destruct Hok as [Hok Hrest].
    apply andb_true_iff in Hok; destruct Hok as [Hk Hto]; apply Nat.leb_le in Hk.
    destruct (captured_group p word m k Hc Hm Hk) as (off & a & b & c & Es & Ho & Ecap).
    rewrite Ecap; cbn [bind].
    set (val := match cap_lookup c (3 + k) with
                | Some (x, y) => sub (skipn (Z.to_nat off) word) x y
                | None => []
                end).
    replace (Z.of_nat k + 1) with (Z.of_nat (S k)) by lia.
    assert (exists i, go_mod (index_of val from) (len to) = Ok i /\ 0 <= i < len to) as (i & Ei & Hi).
    { destruct to as [|t0 to]; [discriminate|]; unfold go_mod.
      replace (len (t0 :: to) =? 0) with false by (unfold len; cbn [length]; lia).
      eexists; split; [reflexivity|].
      destruct to as [|t1 to].
      { change (len [t0]) with 1; rewrite Z.rem_1_r; lia. }
      assert (existsb (beqb val) from = true) as Hin.
      { unfold group_within in Hto; apply andb_true_iff in Hto; destruct Hto as [Hall Hmust].
        unfold val; destruct (cap_lookup c (3 + k)) as [[x y]|] eqn:El.
        - destruct (group_text _ _ _ _ _ _ _ _ Es El) as (r' & u & v & w & Hr' & Eg & -> & -> & Hmt).
          rewrite forallb_forall in Hall; specialize (Hall _ Hr'); cbn [fst snd] in Hall.
          rewrite Nat.eqb_refl in Hall; cbn [negb orb] in Hall.
          destruct (finite_lang r') as [L|] eqn:EL; [|discriminate].
          pose proof (finite_lang_sound r' L _ _ _ EL Hmt) as HinL.
          rewrite forallb_forall in Hall; specialize (Hall _ HinL).
          apply andb_true_iff in Hall; destruct Hall as [Hne Hex].
          assert (runes (sub (skipn (Z.to_nat off) word) (gwidth u) (gwidth u + gwidth v)) = map fst v) as Er.
          { unfold runes; rewrite (glyphs_sub _ _ _ _ Eg); reflexivity. }
          rewrite <- (no_error_valid (sub _ _ _)); rewrite Er; [exact Hex|].
          intros Hin; apply negb_true_iff in Hne.
          assert (nmem rune_error (map fst v) = true) as Ht; [|congruence].
          apply existsb_exists; exists rune_error; split; [exact Hin|reflexivity].
        - destruct (must_cap (3 + k) (tree (p_re p))) eqn:Emc; [|exact Hmust].
          exfalso; destruct (search_sound _ _ _ _ _ _ Es) as (u0 & v0 & s' & _ & _ & _ & Hr).
          eapply must_cap_sound; [exact Emc|exact Hr|exact El]. }
      apply index_of_in in Hin; apply Z.rem_bound_pos; [lia|unfold len; cbn [length]; lia]. }
    rewrite Ei; cbn [bind]; destruct (index_ok to i Hi) as (toVal & ->); cbn [bind].
    specialize (IH (S k) Hrest); destruct (interpolate_parts parts _ _ _ _); cbn; auto.
Qed.

(** ** Rules *)

(** What replacing the matches [ms], from byte [lo] on, should give. *)
Inductive edited (r : rule) (word : bytes) : nat -> list (list Z) -> bytes -> Prop :=
| edited_end lo : (lo <= length word)%nat -> edited r word lo [] (skipn lo word)
| edited_match lo start stop core ms text out :
    (lo <= start)%nat -> (start <= stop)%nat -> (stop <= length word)%nat ->
    interpolate (rule_to r) (rule_from r) word (Z.of_nat start :: Z.of_nat stop :: core) = Ok text ->
    edited r word stop ms out ->
    edited r word lo ((Z.of_nat start :: Z.of_nat stop :: core) :: ms)
           (sub word lo start ++ text ++ out)
| edited_fail lo start stop core ms e out :
    (lo <= start)%nat -> (start <= stop)%nat -> (stop <= length word)%nat ->
    interpolate (rule_to r) (rule_from r) word (Z.of_nat start :: Z.of_nat stop :: core) = Err e ->
    edited r word stop ms out ->
    edited r word lo ((Z.of_nat start :: Z.of_nat stop :: core) :: ms)
           (sub word lo start ++ sub word start stop ++ out).

Lemma index_0 {A} (a : A) l : index (a :: l) 0 = Ok a. Proof. reflexivity. Qed.
Lemma index_1 {A} (a b : A) l : index (a :: b :: l) 1 = Ok b. Proof. reflexivity. Qed.
Lemma slice_sub (word : bytes) a b :
  (a <= b)%nat -> (b <= length word)%nat -> slice word (Z.of_nat a) (Z.of_nat b) = Ok (sub word a b).
Proof.
  intros H1 H2; rewrite slice_ok by (unfold len; lia); unfold sub.
  replace (Z.to_nat (Z.of_nat b - Z.of_nat a)) with (b - a)%nat by lia; rewrite Nat2Z.id; reflexivity.
Qed.
Lemma slice_skip (word : bytes) a :
  (a <= length word)%nat -> slice word (Z.of_nat a) (len word) = Ok (skipn a word).
Proof.
  intros H; unfold len; rewrite slice_sub by lia; unfold sub; f_equal; apply firstn_all2.
  rewrite skipn_length; lia.
Qed.

Lemma ordered_edited r word lo ms :
  ordered word (Z.of_nat lo) ms -> (lo <= length word)%nat ->
  Forall (fun m => fine (interpolate (rule_to r) (rule_from r) word m)) ms ->
  exists out, edited r word lo ms out.
Proof.
  intros H; remember (Z.of_nat lo) as z eqn:Ez; revert lo Ez.
  induction H as [z|z start stop core ms Hle Hb1 Hb2 H IH]; intros lo Ez Hlo Hf.
  - eexists; apply edited_end; exact Hlo.
  - inversion Hf as [|? ? Hm Hms]; subst.
    pose proof (boundary_le _ _ Hb1) as B1; pose proof (boundary_le _ _ Hb2) as B2; unfold len in B1, B2.
    destruct (IH (Z.to_nat stop) ltac:(lia) ltac:(lia) Hms) as (out & Hout).
    rewrite <- (Z2Nat.id start), <- (Z2Nat.id stop) in * by lia.
    rewrite !Nat2Z.id in *.
    destruct (interpolate (rule_to r) (rule_from r) word _) as [text|e| | | |] eqn:Ei; try contradiction.
    + eexists; eapply edited_match; [lia|lia|lia|exact Ei|exact Hout].
    + eexists; eapply edited_fail; [lia|lia|lia|exact Ei|exact Hout].
Qed.

Lemma edited_le r word lo ms out : edited r word lo ms out -> (lo <= length word)%nat.
Proof. destruct 1; lia. Qed.

Lemma edited_pattern r word lo ms out buf :
  edited r word lo ms out ->
  replace_loop ms (rule_from r) (rule_to r) word (Z.of_nat lo) buf = Ok (buf ++ out).
Proof.
  intros H; revert buf; induction H as [lo H|lo start stop core ms text out H1 H2 H3 Hi H IH|lo start stop core ms e out H1 H2 H3 Hi H IH];
    intros buf; cbn [replace_loop].
  - rewrite slice_skip by exact H; reflexivity.
  - rewrite index_0, index_1; cbn [bind].
    rewrite slice_sub by lia; cbn [bind]; rewrite Hi; cbn [bind]; rewrite IH, <- !app_assoc; reflexivity.
  - rewrite index_0, index_1; cbn [bind].
    rewrite slice_sub by lia; cbn [bind]; rewrite Hi, slice_sub by lia; cbn [bind].
    rewrite IH, <- !app_assoc; reflexivity.
Qed.

Lemma sub_app (word : bytes) a b c : (a <= b)%nat -> (b <= c)%nat -> sub word a c = sub word a b ++ sub word b c.
Proof.
  intros H1 H2; unfold sub.
  rewrite <- (firstn_skipn (b - a) (firstn (c - a) (skipn a word))) at 1; f_equal.
  - rewrite firstn_firstn; f_equal; lia.
  - rewrite skipn_firstn_comm, skipn_add; f_equal; [lia|f_equal; lia].
Qed.
Lemma sub_skipn (word : bytes) a b : (a <= b)%nat -> skipn a word = sub word a b ++ skipn b word.
Proof.
  intros H; unfold sub; rewrite <- (firstn_skipn (b - a) (skipn a word)) at 1; f_equal.
  rewrite skipn_add; f_equal; lia.
Qed.

Lemma edited_rule r word lo ms out :
  edited r word lo ms out ->
  exists repls, rule_repls r word ms = Ok repls /\ ordered_repls (len word) (Z.of_nat lo) repls /\
    forall k, (k <= lo)%nat -> forall lv next, length lv = length word ->
      exists l, commit_loop repls {| rr_word := word; rr_repls := repls; rr_levels := lv; rr_next := next |}
                            (Z.of_nat k) = Ok (sub word k lo ++ out, l).
Proof.
  intros H.
  assert (exists repls, rule_repls r word ms = Ok repls /\ ordered_repls (len word) (Z.of_nat lo) repls /\
    forall k, (k <= lo)%nat -> forall lv next rs, length lv = length word ->
      exists l, commit_loop repls {| rr_word := word; rr_repls := rs; rr_levels := lv; rr_next := next |}
                            (Z.of_nat k) = Ok (sub word k lo ++ out, l)) as (repls & E1 & E2 & E3).
  { induction H as [lo H|lo start stop core ms text out H1 H2 H3 Hi H IH|lo start stop core ms e out H1 H2 H3 Hi H IH];
      cbn [rule_repls].
    - exists []; split; [reflexivity|]; split; [cbn; unfold len; lia|].
      intros k Hk lv next rs Hl; cbn [commit_loop rr_word rr_levels].
      rewrite slice_skip by lia; cbn [bind]; rewrite slice_ok by (unfold len; lia); cbn [bind].
      eexists; rewrite <- (sub_skipn word k lo) by lia; reflexivity.
    - rewrite index_0, index_1; cbn [bind].
      rewrite Hi; destruct IH as (repls & -> & Ho & Hc); cbn [bind].
      eexists; split; [reflexivity|]; split; [cbn; unfold len; repeat split; try lia; exact Ho|].
      intros k Hk lv next rs Hl; cbn [commit_loop rr_word rr_levels rp_start rp_stop rp_word].
      rewrite slice_sub by lia; cbn [bind]; rewrite slice_ok by (unfold len; lia); cbn [bind].
      destruct (Hc stop (Nat.le_refl _) lv next rs Hl) as (l & ->); cbn [bind].
      eexists; unfold sub at 2; rewrite Nat.sub_diag; cbn [firstn app].
      rewrite (sub_app word k lo start) by lia; rewrite <- !app_assoc; reflexivity.
    - rewrite index_0, index_1; cbn [bind].
      rewrite Hi; destruct IH as (repls & -> & Ho & Hc).
      eexists; split; [reflexivity|]; split.
      + destruct repls as [|x repls]; cbn [ordered_repls] in *; [unfold len in *; lia|].
        repeat split; try tauto; lia.
      + intros k Hk lv next rs Hl; destruct (Hc k ltac:(lia) lv next rs Hl) as (l & ->).
        eexists; rewrite (sub_app word k lo stop), (sub_app word lo start stop) by lia.
        rewrite <- !app_assoc; reflexivity. }
  exists repls; split; [exact E1|]; split; [exact E2|]; intros; apply E3; assumption.
Qed.

Lemma replace_agree r word ms out :
  find (rule_from r) word (-1) = Ok ms -> edited r word 0 ms out ->
  rule_replace r word = Ok out /\ pattern_replace (rule_from r) word (rule_to r) (-1) = Ok out.
Proof.
  intros Hf H; split.
  - unfold rule_replace, replacements; rewrite Hf; cbn [bind].
    destruct (edited_rule _ _ _ _ _ H) as (repls & -> & _ & Hc); cbn [bind].
    unfold replacer_string, commit, replace_by, new_replacer; cbn [rr_repls rr_word rr_levels rr_next app].
    destruct (Hc 0%nat (Nat.le_refl _) (repeat 0 (length word)) 0 (repeat_length _ _)) as (l & E).
    change (Z.of_nat 0) with 0 in E; rewrite E; reflexivity.
  - unfold pattern_replace; rewrite Hf; cbn [bind].
    exact (edited_pattern _ _ _ _ _ [] H).
Qed.

Lemma safe_matches p word ms :
  compiled p -> safe_pattern p = true -> find p word (-1) = Ok ms ->
  ordered word 0 ms /\ Forall (match_of p word) ms.
Proof.
  intros Hc Hs Hf; destruct (find_safe p word Hc Hs (-1)) as (ms' & E & Ho).
  rewrite Hf in E; injection E as <-; split; [exact Ho|].
  eapply scan_matches; eapply find_scan; [|exact Hf]; lia.
Qed.

(** A rule that passes [rule_ok] works on every word. *)
Lemma rule_ok_edited r word :
  compiled (rule_from r) -> rule_ok r = true ->
  exists ms out, find (rule_from r) word (-1) = Ok ms /\ ordered word 0 ms /\ edited r word 0 ms out.
Proof.
  intros Hc Hok; unfold rule_ok in Hok; apply andb_true_iff in Hok; destruct Hok as [Hs Hp].
  destruct (find_safe (rule_from r) word Hc Hs (-1)) as (ms & Ef & Ho).
  destruct (safe_matches _ _ _ Hc Hs Ef) as [_ Hm].
  exists ms; destruct (ordered_edited r word 0 ms Ho ltac:(lia)) as (out & He).
  { eapply Forall_impl; [|exact Hm]; intros m Hmm.
    exact (interpolate_parts_ok _ _ _ _ 0 Hc Hmm Hp). }
  exists out; auto.
Qed.

Lemma rule_ok_repls r word :
  compiled (rule_from r) -> rule_ok r = true ->
  exists repls, replacements r word = Ok repls /\ ordered_repls (len word) 0 repls.
Proof.
  intros Hc Hok; destruct (rule_ok_edited r word Hc Hok) as (ms & out & Ef & _ & He).
  destruct (edited_rule _ _ _ _ _ He) as (repls & Er & Ho & _).
  exists repls; unfold replacements; rewrite Ef; cbn [bind]; auto.
Qed.

(** Whatever the rule: when Pattern.Replace gives a result, so does Rule.Replace, the same. *)
Lemma replace_loop_rule r word ms cur buf out :
  (cur <= length word)%nat ->
  replace_loop ms (rule_from r) (rule_to r) word (Z.of_nat cur) buf = Ok out ->
  exists repls t, rule_repls r word ms = Ok repls /\ out = buf ++ t /\
    forall k lv next rs, (k <= cur)%nat -> length lv = length word ->
      exists l, commit_loop repls {| rr_word := word; rr_repls := rs; rr_levels := lv; rr_next := next |}
                            (Z.of_nat k) = Ok (sub word k cur ++ t, l).
Proof.
  revert cur buf; induction ms as [|m ms IH]; intros cur buf Hc H; cbn [replace_loop rule_repls] in *.
  - rewrite slice_skip in H by exact Hc; cbn [bind] in H; injection H as <-.
    exists [], (skipn cur word); split; [reflexivity|]; split; [reflexivity|].
    intros k lv next rs Hk Hl; cbn [commit_loop rr_word rr_levels].
    rewrite slice_skip by lia; cbn [bind]; rewrite slice_ok by (unfold len; lia); cbn [bind].
    eexists; rewrite <- (sub_skipn word k cur) by lia; reflexivity.
  - destruct (index m 0) as [start| | | | |]; try discriminate; cbn [bind] in *.
    destruct (index m 1) as [stop| | | | |]; try discriminate; cbn [bind] in *.
    destruct (slice word (Z.of_nat cur) start) as [before_| | | | |] eqn:Eb; try discriminate; cbn [bind] in H.
    pose proof (slice_bounds _ _ _ _ Eb) as Bb; unfold len in Bb.
    destruct (Z_of_nat_complete start ltac:(lia)) as (st & ->).
    rewrite slice_sub in Eb by lia; injection Eb as <-.
    destruct (interpolate (rule_to r) (rule_from r) word m) as [text|e| | | |]; try discriminate; cbn [bind] in H.
    + assert (0 <= stop <= Z.of_nat (length word)) as Bs.
      { destruct ms as [|m2 ms2]; cbn [replace_loop] in H.
        - destruct (slice word stop (len word)) eqn:E; try discriminate.
          apply slice_bounds in E; unfold len in E; lia.
        - destruct (index m2 0) as [s2| | | | |]; try discriminate; cbn [bind] in H.
          destruct (index m2 1) as [t2| | | | |]; try discriminate; cbn [bind] in H.
          destruct (slice word stop s2) eqn:E; try discriminate.
          apply slice_bounds in E; unfold len in E; lia. }
      destruct (Z_of_nat_complete stop ltac:(lia)) as (sp & ->).
      destruct (IH sp _ ltac:(lia) H) as (repls & t & -> & -> & Hcm); cbn [bind].
      eexists _, (sub word cur st ++ text ++ t); split; [reflexivity|].
      split; [rewrite <- !app_assoc; reflexivity|].
      intros k lv next rs Hk Hl; cbn [commit_loop rr_word rr_levels rp_start rp_stop rp_word].
      rewrite slice_sub by lia; cbn [bind]; rewrite slice_ok by (unfold len; lia); cbn [bind].
      destruct (Hcm sp lv next rs (Nat.le_refl _) Hl) as (l & ->); cbn [bind].
      eexists; unfold sub at 2; rewrite Nat.sub_diag; cbn [firstn app].
      rewrite (sub_app word k cur st) by lia; rewrite <- !app_assoc; reflexivity.
    + destruct (slice word (Z.of_nat st) stop) as [mid| | | | |] eqn:Em; try discriminate; cbn [bind] in H.
      pose proof (slice_bounds _ _ _ _ Em) as Bm; unfold len in Bm.
      destruct (Z_of_nat_complete stop ltac:(lia)) as (sp & ->).
      rewrite slice_sub in Em by lia; injection Em as <-.
      destruct (IH sp _ ltac:(lia) H) as (repls & t & -> & -> & Hcm).
      eexists _, (sub word cur st ++ sub word st sp ++ t).
      split; [reflexivity|]; split; [rewrite <- !app_assoc; reflexivity|].
      intros k lv next rs Hk Hl; destruct (Hcm k lv next rs ltac:(lia) Hl) as (l & ->).
      eexists; rewrite (sub_app word k cur sp), (sub_app word cur st sp) by lia.
      rewrite <- !app_assoc; reflexivity.
Qed.

Lemma replace_same r word out :
  pattern_replace (rule_from r) word (rule_to r) (-1) = Ok out -> rule_replace r word = Ok out.
Proof.
  unfold pattern_replace, rule_replace, replacements.
  destruct (find (rule_from r) word (-1)) as [ms| | | | |]; try discriminate; cbn [bind]; intros H.
  change 0 with (Z.of_nat 0) in H.
  destruct (replace_loop_rule r word ms 0 [] out ltac:(lia) H) as (repls & t & -> & -> & Hc); cbn [bind].
  unfold replacer_string, commit, replace_by, new_replacer; cbn [rr_repls rr_word rr_levels rr_next app].
  destruct (Hc 0%nat (repeat 0 (length word)) 0 repls (Nat.le_refl _) (repeat_length _ _)) as (l & E).
  change (Z.of_nat 0) with 0 in E; rewrite E; reflexivity.
Qed.
