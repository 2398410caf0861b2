(** Facts about the UTF-8 model. *)
From Verif Require Import GoBase Utf8.
Open Scope N_scope.
Ltac Zify.zify_post_hook ::= Z.div_mod_to_equations.

Lemma beqb_eq a b : beqb a b = true <-> a = b.
Proof.
  revert b; induction a as [|x a IH]; destruct b as [|y b]; cbn [beqb]; split; intros H;
    try discriminate; try reflexivity.
  - apply andb_true_iff in H; destruct H as [H1 H2].
    apply N.eqb_eq in H1; apply IH in H2; subst; reflexivity.
  - injection H as -> ->; rewrite N.eqb_refl; cbn [andb]; apply IH; reflexivity.
Qed.
Lemma beqb_refl a : beqb a a = true. Proof. apply beqb_eq; reflexivity. Qed.
Lemma beqb_neq a b : beqb a b = false <-> a <> b.
Proof.
  split; intros H.
  - intros E; apply beqb_eq in E; congruence.
  - destruct (beqb a b) eqn:E; [apply beqb_eq in E; contradiction | reflexivity].
Qed.

Lemma skipn_add {A} (a b : nat) (l : list A) : skipn a (skipn b l) = skipn (b + a) l.
Proof.
  revert l; induction b as [|b IH]; intros l; [reflexivity|].
  destruct l as [|x l]; [rewrite !skipn_nil; reflexivity|].
  cbn [skipn Nat.add]; apply IH.
Qed.

Lemma rune_error_scalar : is_scalar rune_error = true. Proof. reflexivity. Qed.

(** Bytes produced by [encode_rune]. *)
Lemma encode_rune_nonnil r : encode_rune r <> [].
Proof.
  unfold encode_rune; destruct (r <=? 0x7F); [discriminate|].
  destruct (r <=? 0x7FF); [discriminate|].
  destruct (negb (is_scalar r)); [discriminate|].
  destruct (r <=? 0xFFFF); discriminate.
Qed.

Lemma encode_rune_length r : (1 <= length (encode_rune r) <= 4)%nat.
Proof.
  unfold encode_rune; destruct (r <=? 0x7F); [cbn; lia|].
  destruct (r <=? 0x7FF); [cbn; lia|].
  destruct (negb (is_scalar r)); [cbn; lia|].
  destruct (r <=? 0xFFFF); cbn; lia.
Qed.

Lemma encode_rune_invalid r : is_scalar r = false -> encode_rune r = encode_rune rune_error.
Proof.
  intros H; unfold encode_rune at 1.
  assert (r <=? 0x7F = false) as -> by (unfold is_scalar in H; lia).
  assert (r <=? 0x7FF = false) as -> by (unfold is_scalar in H; lia).
  rewrite H; reflexivity.
Qed.

Lemma decode_encode r s :
  is_scalar r = true -> decode_rune (encode_rune r ++ s) = (r, length (encode_rune r)).
Proof.
  intros Hs; unfold encode_rune.
  destruct (r <=? 0x7F) eqn:E1.
  { cbn [app decode_rune length].
    assert (r <? 0x80 = true) as -> by lia; reflexivity. }
  destruct (r <=? 0x7FF) eqn:E2.
  { cbn [app decode_rune length].
    assert (0xC0 + r / 64 <? 0x80 = false) as -> by lia.
    assert ((0xC0 + r / 64 <? 0xC2) || (0xF4 <? 0xC0 + r / 64) = false) as -> by lia.
    assert (0xC0 + r / 64 <? 0xE0 = true) as -> by lia.
    unfold is_cont.
    assert ((0x80 <=? 0x80 + r mod 64) && (0x80 + r mod 64 <=? 0xBF) = true) as -> by lia.
    f_equal; lia. }
  rewrite Hs; cbn [negb].
  destruct (r <=? 0xFFFF) eqn:E3.
  { cbn [app decode_rune length].
    assert (0xE0 + r / 4096 <? 0x80 = false) as -> by lia.
    assert ((0xE0 + r / 4096 <? 0xC2) || (0xF4 <? 0xE0 + r / 4096) = false) as -> by lia.
    assert (0xE0 + r / 4096 <? 0xE0 = false) as -> by lia.
    assert (0xE0 + r / 4096 <? 0xF0 = true) as -> by lia.
    assert (is_cont (0x80 + (r / 64) mod 64) = true) as -> by (unfold is_cont; lia).
    assert ((if 0xE0 + r / 4096 =? 0xE0 then 0xA0 <=? 0x80 + (r / 64) mod 64 else true)
            = true) as ->
      by (destruct (0xE0 + r / 4096 =? 0xE0) eqn:E4; [lia|reflexivity]).
    assert ((if 0xE0 + r / 4096 =? 0xED then 0x80 + (r / 64) mod 64 <=? 0x9F else true)
            = true) as ->
      by (destruct (0xE0 + r / 4096 =? 0xED) eqn:E4; [unfold is_scalar in Hs; lia|reflexivity]).
    cbn [andb].
    assert (is_cont (0x80 + r mod 64) = true) as -> by (unfold is_cont; lia).
    f_equal; lia. }
  cbn [app decode_rune length].
  assert (Hr : 0xFFFF < r <= 0x10FFFF) by (unfold is_scalar in Hs; lia).
  clear Hs E1 E2 E3.
  assert (0xF0 + r / 262144 <? 0x80 = false) as -> by lia.
  assert ((0xF0 + r / 262144 <? 0xC2) || (0xF4 <? 0xF0 + r / 262144) = false) as -> by lia.
  assert (0xF0 + r / 262144 <? 0xE0 = false) as -> by lia.
  assert (0xF0 + r / 262144 <? 0xF0 = false) as -> by lia.
  assert (is_cont (0x80 + (r / 4096) mod 64) = true) as -> by (unfold is_cont; lia).
  assert ((if 0xF0 + r / 262144 =? 0xF0 then 0x90 <=? 0x80 + (r / 4096) mod 64 else true)
          = true) as ->
    by (destruct (0xF0 + r / 262144 =? 0xF0) eqn:E4; [lia|reflexivity]).
  assert ((if 0xF0 + r / 262144 =? 0xF4 then 0x80 + (r / 4096) mod 64 <=? 0x8F else true)
          = true) as ->
    by (destruct (0xF0 + r / 262144 =? 0xF4) eqn:E4; [lia|reflexivity]).
  cbn [andb].
  assert (is_cont (0x80 + (r / 64) mod 64) = true) as -> by (unfold is_cont; lia).
  assert (is_cont (0x80 + r mod 64) = true) as -> by (unfold is_cont; lia).
  cbn [andb]; f_equal; lia.
Qed.

Lemma decode_scalar s : is_scalar (fst (decode_rune s)) = true.
Proof.
  destruct s as [|b0 s1]; [reflexivity|]; cbn [decode_rune].
  destruct (b0 <? 0x80) eqn:E1; [cbn [fst]; unfold is_scalar; lia|].
  destruct ((b0 <? 0xC2) || (0xF4 <? b0)) eqn:E2; [reflexivity|].
  destruct s1 as [|b1 s2]; [reflexivity|].
  destruct (b0 <? 0xE0) eqn:E3.
  { destruct (is_cont b1) eqn:E4; [|reflexivity].
    cbn [fst]; unfold is_scalar, is_cont in *; lia. }
  destruct (b0 <? 0xF0) eqn:E5.
  { destruct (is_cont b1) eqn:E6; cbn [andb]; [|reflexivity].
    destruct (if b0 =? 0xE0 then 0xA0 <=? b1 else true) eqn:E7; cbn [andb]; [|reflexivity].
    destruct (if b0 =? 0xED then b1 <=? 0x9F else true) eqn:E8; [|reflexivity].
    destruct s2 as [|b2 s3]; [reflexivity|].
    destruct (is_cont b2) eqn:E9; [|reflexivity].
    cbn [fst]; unfold is_scalar, is_cont in *.
    destruct (b0 =? 0xED) eqn:E10; lia. }
  destruct (is_cont b1) eqn:E6; cbn [andb]; [|reflexivity].
  destruct (if b0 =? 0xF0 then 0x90 <=? b1 else true) eqn:E7; cbn [andb]; [|reflexivity].
  destruct (if b0 =? 0xF4 then b1 <=? 0x8F else true) eqn:E8; [|reflexivity].
  destruct s2 as [|b2 [|b3 s3]]; [reflexivity|reflexivity|].
  destruct (is_cont b2) eqn:E9; cbn [andb]; [|reflexivity].
  destruct (is_cont b3) eqn:E10; [|reflexivity].
  cbn [fst]; unfold is_scalar, is_cont in *.
  destruct (b0 =? 0xF0) eqn:E11, (b0 =? 0xF4) eqn:E12; lia.
Qed.

Lemma decode_width s : s <> [] -> (1 <= snd (decode_rune s) <= length s)%nat.
Proof.
  intros Hn; destruct s as [|b0 s1]; [contradiction|]; cbn [decode_rune].
  destruct (b0 <? 0x80); [cbn [snd length]; lia|].
  destruct ((b0 <? 0xC2) || (0xF4 <? b0)); [cbn [snd length]; lia|].
  destruct s1 as [|b1 s2]; [cbn [snd length]; lia|].
  destruct (b0 <? 0xE0).
  { destruct (is_cont b1); cbn [snd length]; lia. }
  destruct (b0 <? 0xF0).
  { destruct (is_cont b1 && _ && _); [|cbn [snd length]; lia].
    destruct s2 as [|b2 s3]; [cbn [snd length]; lia|].
    destruct (is_cont b2); cbn [snd length]; lia. }
  destruct (is_cont b1 && _ && _); [|cbn [snd length]; lia].
  destruct s2 as [|b2 [|b3 s3]]; [cbn [snd length]; lia|cbn [snd length]; lia|].
  destruct (is_cont b2 && is_cont b3); cbn [snd length]; lia.
Qed.

Lemma decode_width_le4 s : (snd (decode_rune s) <= 4)%nat.
Proof.
  destruct s as [|b0 s1]; [cbn; lia|]; cbn [decode_rune].
  destruct (b0 <? 0x80); [cbn [snd length]; lia|].
  destruct ((b0 <? 0xC2) || (0xF4 <? b0)); [cbn [snd length]; lia|].
  destruct s1 as [|b1 s2]; [cbn [snd length]; lia|].
  destruct (b0 <? 0xE0).
  { destruct (is_cont b1); cbn [snd length]; lia. }
  destruct (b0 <? 0xF0).
  { destruct (is_cont b1 && _ && _); [|cbn [snd length]; lia].
    destruct s2 as [|b2 s3]; [cbn [snd length]; lia|].
    destruct (is_cont b2); cbn [snd length]; lia. }
  destruct (is_cont b1 && _ && _); [|cbn [snd length]; lia].
  destruct s2 as [|b2 [|b3 s3]]; [cbn [snd length]; lia|cbn [snd length]; lia|].
  destruct (is_cont b2 && is_cont b3); cbn [snd length]; lia.
Qed.

Lemma glyphs_from_skip k s : glyphs_from k s = glyphs (skipn k s).
Proof.
  revert k; induction s as [|b s IH]; intros k.
  - rewrite skipn_nil; reflexivity.
  - destruct k as [|k]; [reflexivity|]; cbn [glyphs_from skipn]; apply IH.
Qed.

Lemma glyphs_nil : glyphs [] = []. Proof. reflexivity. Qed.

Lemma glyphs_step s :
  s <> [] -> glyphs s = decode_rune s :: glyphs (skipn (snd (decode_rune s)) s).
Proof.
  intros Hn; destruct s as [|b s]; [contradiction|].
  assert (Hw := decode_width (b :: s) Hn).
  unfold glyphs at 1; cbn [glyphs_from]; f_equal.
  rewrite glyphs_from_skip.
  destruct (snd (decode_rune (b :: s))) as [|w] eqn:E; [lia|].
  cbn [skipn Nat.sub]; rewrite Nat.sub_0_r; reflexivity.
Qed.

(** Induction along the characters of a string. *)
Lemma glyphs_ind (P : bytes -> Prop) :
  P [] ->
  (forall s, s <> [] -> P (skipn (snd (decode_rune s)) s) -> P s) ->
  forall s, P s.
Proof.
  intros H0 Hs s.
  remember (length s) as n eqn:En.
  revert s En; induction n as [n IH] using lt_wf_ind; intros s En.
  destruct s as [|b s]; [exact H0|].
  assert (Hne : b :: s <> []) by discriminate.
  apply Hs; [exact Hne|].
  assert (Hw := decode_width _ Hne).
  eapply IH; [|reflexivity].
  rewrite skipn_length; subst n; lia.
Qed.

Lemma glyphs_encode_cons r s :
  is_scalar r = true ->
  glyphs (encode_rune r ++ s) = (r, length (encode_rune r)) :: glyphs s.
Proof.
  intros Hr.
  rewrite glyphs_step.
  - rewrite decode_encode by exact Hr; cbn [snd].
    rewrite skipn_app, skipn_all, Nat.sub_diag; reflexivity.
  - destruct (encode_rune r) eqn:E; [exfalso; eapply encode_rune_nonnil; exact E|discriminate].
Qed.

Definition scalars (rs : list rune) : Prop := Forall (fun r => is_scalar r = true) rs.

Lemma glyphs_encode_app rs s :
  scalars rs ->
  glyphs (encode rs ++ s) = map (fun r => (r, length (encode_rune r))) rs ++ glyphs s.
Proof.
  induction rs as [|r rs IH]; intros H; [reflexivity|].
  inversion H as [|? ? Hr Hrs]; subst.
  cbn [encode flat_map map app]; rewrite <- app_assoc.
  rewrite glyphs_encode_cons by exact Hr.
  fold (encode rs); rewrite IH by exact Hrs; reflexivity.
Qed.

Lemma runes_encode_app rs s : scalars rs -> runes (encode rs ++ s) = rs ++ runes s.
Proof.
  intros H; unfold runes; rewrite glyphs_encode_app by exact H.
  rewrite map_app, map_map; cbn [fst]; rewrite map_id; reflexivity.
Qed.

Lemma runes_encode rs : scalars rs -> runes (encode rs) = rs.
Proof.
  intros H; rewrite <- (app_nil_r (encode rs)), runes_encode_app by exact H.
  cbn; apply app_nil_r.
Qed.

Lemma runes_scalar s : scalars (runes s).
Proof.
  unfold scalars, runes; induction s as [|s Hn IH] using glyphs_ind; [constructor|].
  rewrite glyphs_step by exact Hn; cbn [map]; constructor; [apply decode_scalar|exact IH].
Qed.

Lemma encode_app a b : encode (a ++ b) = encode a ++ encode b.
Proof. apply flat_map_app. Qed.

(** Replace ill-formed runes as WriteRune does. *)
Definition fix_rune (r : rune) : rune := if is_scalar r then r else rune_error.
Lemma fix_rune_scalar r : is_scalar (fix_rune r) = true.
Proof. unfold fix_rune; destruct (is_scalar r) eqn:E; [exact E|reflexivity]. Qed.
Lemma encode_fix_rune r : encode_rune (fix_rune r) = encode_rune r.
Proof.
  unfold fix_rune; destruct (is_scalar r) eqn:E; [reflexivity|].
  symmetry; apply encode_rune_invalid; exact E.
Qed.
Lemma encode_fix rs : encode (map fix_rune rs) = encode rs.
Proof.
  induction rs as [|r rs IH]; [reflexivity|].
  cbn [map]; unfold encode in *; cbn [flat_map]; rewrite encode_fix_rune, IH; reflexivity.
Qed.
Lemma scalars_fix rs : scalars (map fix_rune rs).
Proof.
  unfold scalars; apply Forall_forall; intros x Hx; apply in_map_iff in Hx.
  destruct Hx as (r & <- & _); apply fix_rune_scalar.
Qed.
Lemma runes_encode_fix rs : runes (encode rs) = map fix_rune rs.
Proof. rewrite <- encode_fix; apply runes_encode, scalars_fix. Qed.

(** Well-formed UTF-8 text, stated without the decoder. *)
Definition utf8_text (s : bytes) : Prop := exists rs, scalars rs /\ s = encode rs.

Lemma encode_utf8_text rs : utf8_text (encode rs).
Proof.
  exists (map fix_rune rs); split; [apply scalars_fix|symmetry; apply encode_fix].
Qed.

Lemma utf8_text_runes s : utf8_text s -> encode (runes s) = s.
Proof. intros (rs & Hrs & ->); rewrite runes_encode by exact Hrs; reflexivity. Qed.

Lemma valid_utf8_text s : valid_utf8 s = true <-> utf8_text s.
Proof.
  unfold valid_utf8; rewrite beqb_eq; split; intros H.
  - exists (runes s); split; [apply runes_scalar|symmetry; exact H].
  - apply utf8_text_runes; exact H.
Qed.

Lemma utf8_text_nil : utf8_text []. Proof. exists []; split; [constructor|reflexivity]. Qed.
Lemma utf8_text_app a b : utf8_text a -> utf8_text b -> utf8_text (a ++ b).
Proof.
  intros (ra & Ha & ->) (rb & Hb & ->); exists (ra ++ rb); split.
  - apply Forall_app; split; assumption.
  - symmetry; apply encode_app.
Qed.
Lemma utf8_text_rune r : utf8_text (encode_rune r).
Proof.
  exists [fix_rune r]; split.
  - constructor; [apply fix_rune_scalar|constructor].
  - cbn; rewrite app_nil_r; symmetry; apply encode_fix_rune.
Qed.

Lemma runes_app_text a b : utf8_text a -> runes (a ++ b) = runes a ++ runes b.
Proof.
  intros (ra & Ha & ->); rewrite runes_encode_app by exact Ha.
  rewrite runes_encode by exact Ha; reflexivity.
Qed.
Lemma glyphs_app_text a b : utf8_text a -> glyphs (a ++ b) = glyphs a ++ glyphs b.
Proof.
  intros (ra & Ha & ->); rewrite glyphs_encode_app by exact Ha.
  rewrite <- (app_nil_r (encode ra)); rewrite glyphs_encode_app by exact Ha.
  rewrite glyphs_nil, app_nil_r; reflexivity.
Qed.

(** Total width of a list of glyphs. *)
Definition gwidth (gs : list (rune * nat)) : nat := list_sum (map snd gs).

Lemma gwidth_nil : gwidth [] = O. Proof. reflexivity. Qed.
Lemma gwidth_cons g gs : gwidth (g :: gs) = (snd g + gwidth gs)%nat. Proof. reflexivity. Qed.
Lemma gwidth_app a b : gwidth (a ++ b) = (gwidth a + gwidth b)%nat.
Proof. unfold gwidth; rewrite map_app, list_sum_app; reflexivity. Qed.

Lemma gwidth_glyphs s : gwidth (glyphs s) = length s.
Proof.
  induction s as [|s Hn IH] using glyphs_ind; [reflexivity|].
  rewrite glyphs_step by exact Hn; rewrite gwidth_cons, IH, skipn_length.
  assert (Hw := decode_width s Hn); lia.
Qed.

Lemma glyphs_width_pos s : Forall (fun g => (1 <= snd g)%nat) (glyphs s).
Proof.
  induction s as [|s Hn IH] using glyphs_ind; [constructor|].
  rewrite glyphs_step by exact Hn; constructor; [|exact IH].
  assert (Hw := decode_width s Hn); lia.
Qed.

(** A suffix of the glyph list is the glyph list of the suffix. *)
Lemma glyphs_split s pre post :
  glyphs s = pre ++ post -> glyphs (skipn (gwidth pre) s) = post.
Proof.
  revert s; induction pre as [|g pre IH]; intros s H.
  - rewrite gwidth_nil; exact H.
  - destruct s as [|b s0]; [cbn in H; discriminate|].
    assert (Hn : b :: s0 <> []) by discriminate.
    rewrite glyphs_step in H by exact Hn; cbn [app] in H.
    injection H as Hg Hrest; subst g.
    rewrite gwidth_cons.
    rewrite <- (IH _ Hrest).
    rewrite skipn_add; reflexivity.
Qed.

Lemma runes_nil_inv s : runes s = [] -> s = [].
Proof.
  intros H; destruct s as [|b s]; [reflexivity|].
  unfold runes in H; rewrite glyphs_step in H by discriminate; discriminate.
Qed.

Lemma encode_nil_inv rs : encode rs = [] -> rs = [].
Proof.
  destruct rs as [|r rs]; [reflexivity|]; cbn; intros H.
  apply app_eq_nil in H; destruct H as [H _]; exfalso; eapply encode_rune_nonnil; exact H.
Qed.
