(** Strings between JavaScript and Go: C72. *)
From Coq Require Import String Lia.
From Verif Require Import GoBase Utf8 Utf8Facts Web JsText.
Open Scope N_scope.

(** ** C72 Text crosses the border

    What a string of JavaScript is the text of (Unicode, UTF-16): the characters of the
    basic plane are units other than surrogates, the others are pairs. A string with
    surrogates that are not in pairs is no text. *)
Inductive utf16 : jstring -> list rune -> Prop :=
| utf16_nil : utf16 [] []
| utf16_basic u s rs : u < 0xD800 \/ 0xDFFF < u <= 0xFFFF -> utf16 s rs -> utf16 (u :: s) (u :: rs)
| utf16_pair h l s rs : h < 0x400 -> l < 0x400 -> utf16 s rs ->
    utf16 (0xD800 + h :: 0xDC00 + l :: s) (0x10000 + h * 0x400 + l :: rs).

Lemma usv_utf16 j rs : utf16 j rs -> usv j = rs.
Proof.
  induction 1 as [|u s rs Hu H IH|h l s rs Hh Hl H IH]; [reflexivity|..]; cbn [usv].
  - assert (is_high u = false) as -> by (unfold is_high; lia); assert (is_low u = false) as -> by (unfold is_low; lia).
    rewrite IH; reflexivity.
  - assert (is_high (0xD800 + h) = true) as -> by (unfold is_high; lia); assert (is_low (0xDC00 + l) = true) as -> by (unfold is_low; lia).
    rewrite IH; f_equal; lia.
Qed.
Lemma utf16_scalars j rs : utf16 j rs -> scalars rs.
Proof. induction 1; constructor; try assumption; unfold is_scalar; lia. Qed.
Lemma utf16_exists rs : scalars rs -> utf16 (flat_map units rs) rs.
Proof.
  induction 1 as [|r rs Hr H IH]; [constructor|]; cbn [flat_map]; unfold units, is_scalar in *.
  destruct (r <=? 0xFFFF) eqn:E; cbn [app]; [constructor; [lia|exact IH]|].
  replace r with (0x10000 + ((r - 0x10000) / 0x400) * 0x400 + (r - 0x10000) mod 0x400) at 3
    by (pose proof (N.div_mod' (r - 0x10000) 0x400); lia).
  constructor; [|apply N.mod_lt; lia|exact IH]; apply N.div_lt_upper_bound; lia.
Qed.
Lemma utf16_units j rs : utf16 j rs -> j = flat_map units rs.
Proof.
  induction 1 as [|u s rs Hu H IH|h l s rs Hh Hl H IH]; [reflexivity|..]; cbn [flat_map]; rewrite <- IH; unfold units.
  - assert (u <=? 0xFFFF = true) as -> by lia; reflexivity.
  - assert (0x10000 + h * 0x400 + l <=? 0xFFFF = false) as -> by lia; cbn [app].
    replace (0x10000 + h * 0x400 + l - 0x10000) with (h * 0x400 + l) by lia.
    rewrite N.div_add_l, N.div_small by lia; rewrite N.add_comm with (n := h * 0x400), N.mod_add, N.mod_small by lia.
    rewrite N.add_0_r; reflexivity.
Qed.

(** *** The decoder *)
Lemma low_bits (b : N) n : N.land b (N.ones n) = b mod 2 ^ n. Proof. apply N.land_ones. Qed.
Lemma join_bits cp b : N.lor (N.shiftl cp 6) (N.land b 0x3F) = cp * 64 + b mod 64.
Proof.
  change 0x3F with (N.ones 6); rewrite <- N.lxor_lor, <- N.add_nocarry_lxor.
  - rewrite N.shiftl_mul_pow2, N.land_ones; reflexivity.
  - rewrite (N.land_comm b), N.land_assoc, N.land_ones, N.shiftl_mul_pow2, N.mod_mul by discriminate; reflexivity.
  - rewrite (N.land_comm b), N.land_assoc, N.land_ones, N.shiftl_mul_pow2, N.mod_mul by discriminate; reflexivity.
Qed.
Lemma cont_bits cp b : 0x80 <= b <= 0xBF -> N.lor (N.shiftl cp 6) (N.land b 0x3F) = cp * 64 + (b - 0x80).
Proof.
  intros H; rewrite join_bits; f_equal; replace b with (2 * 64 + (b - 0x80)) at 1 by lia.
  rewrite N.add_comm, N.mod_add by lia; apply N.mod_small; lia.
Qed.
Lemma head_bits b n a x : 2 ^ n * a + x = b -> x < 2 ^ n -> N.land b (N.ones n) = x.
Proof.
  intros <- Hx; rewrite N.land_ones, N.add_comm, N.mul_comm, N.mod_add by (apply N.pow_nonzero; discriminate).
  apply N.mod_small, Hx.
Qed.
Lemma decoder_more cp n lo hi b s : (n <> 0)%nat -> 0x80 <= lo -> hi <= 0xBF -> lo <= b <= hi ->
  utf8_decoder {| ud_cp := cp; ud_needed := S n; ud_lower := lo; ud_upper := hi |} (b :: s) =
  utf8_decoder {| ud_cp := cp * 64 + (b - 0x80); ud_needed := n; ud_lower := 0x80; ud_upper := 0xBF |} s.
Proof.
  intros Hn H1 H2 Hb; cbn [utf8_decoder ud_needed ud_lower ud_upper ud_cp].
  assert ((lo <=? b) && (b <=? hi) = true) as -> by lia; rewrite cont_bits by lia; destruct n; [contradiction|reflexivity].
Qed.
Lemma decoder_last cp lo hi b s : 0x80 <= lo -> hi <= 0xBF -> lo <= b <= hi ->
  utf8_decoder {| ud_cp := cp; ud_needed := 1; ud_lower := lo; ud_upper := hi |} (b :: s) =
  cp * 64 + (b - 0x80) :: utf8_decoder utf8_start s.
Proof.
  intros H1 H2 Hb; cbn [utf8_decoder ud_needed ud_lower ud_upper ud_cp].
  assert ((lo <=? b) && (b <=? hi) = true) as -> by lia; rewrite cont_bits by lia; reflexivity.
Qed.
Lemma decoder_first b s : utf8_decoder utf8_start (b :: s) = fst (utf8_first b) ++ utf8_decoder (snd (utf8_first b)) s.
Proof. cbn [utf8_decoder ud_needed utf8_start]; destruct (utf8_first b); reflexivity. Qed.

Lemma decoder_rune r s : is_scalar r = true -> utf8_decoder utf8_start (encode_rune r ++ s) = r :: utf8_decoder utf8_start s.
Proof.
  intros Hs; unfold encode_rune; destruct (r <=? 0x7F) eqn:E1.
  { cbn [app]; rewrite decoder_first; unfold utf8_first; rewrite E1; reflexivity. }
  destruct (r <=? 0x7FF) eqn:E2.
  { cbn [app]; rewrite decoder_first; unfold utf8_first.
    assert (0xC0 + r / 64 <=? 0x7F = false) as -> by lia.
    assert ((0xC2 <=? 0xC0 + r / 64) && (0xC0 + r / 64 <=? 0xDF) = true) as -> by lia.
    change 0x1F with (N.ones 5); rewrite (head_bits _ 5 6 (r / 64)) by lia.
    cbn [fst snd app]; rewrite decoder_last by lia; f_equal; lia. }
  rewrite Hs; cbn [negb]; destruct (r <=? 0xFFFF) eqn:E3.
  { cbn [app]; rewrite decoder_first; unfold utf8_first.
    assert (0xE0 + r / 4096 <=? 0x7F = false) as -> by lia.
    assert ((0xC2 <=? 0xE0 + r / 4096) && (0xE0 + r / 4096 <=? 0xDF) = false) as -> by lia.
    assert ((0xE0 <=? 0xE0 + r / 4096) && (0xE0 + r / 4096 <=? 0xEF) = true) as -> by lia.
    change 0xF with (N.ones 4); rewrite (head_bits _ 4 14 (r / 4096)) by lia.
    cbn [fst snd app].
    rewrite decoder_more; [|discriminate|destruct (_ =? _); lia|destruct (_ =? _); lia|].
    - rewrite decoder_last by lia; f_equal; lia.
    - unfold is_scalar in Hs; destruct (0xE0 + r / 4096 =? 0xE0) eqn:Ea, (0xE0 + r / 4096 =? 0xED) eqn:Eb; lia. }
  assert (Hr : 0xFFFF < r <= 0x10FFFF) by (unfold is_scalar in Hs; lia); clear Hs E1 E2 E3.
  cbn [app]; rewrite decoder_first; unfold utf8_first.
  assert (0xF0 + r / 262144 <=? 0x7F = false) as -> by lia.
  assert ((0xC2 <=? 0xF0 + r / 262144) && (0xF0 + r / 262144 <=? 0xDF) = false) as -> by lia.
  assert ((0xE0 <=? 0xF0 + r / 262144) && (0xF0 + r / 262144 <=? 0xEF) = false) as -> by lia.
  assert ((0xF0 <=? 0xF0 + r / 262144) && (0xF0 + r / 262144 <=? 0xF4) = true) as -> by lia.
  change 0x7 with (N.ones 3); rewrite (head_bits _ 3 30 (r / 262144)) by lia.
  cbn [fst snd app].
  rewrite decoder_more; [|discriminate|destruct (_ =? _); lia|destruct (_ =? _); lia|].
  - rewrite decoder_more by (discriminate || lia); rewrite decoder_last by lia; f_equal; lia.
  - destruct (0xF0 + r / 262144 =? 0xF0) eqn:Ea, (0xF0 + r / 262144 =? 0xF4) eqn:Eb; lia.
Qed.
Lemma decoder_encode rs : scalars rs -> utf8_decoder utf8_start (encode rs) = rs.
Proof.
  induction 1 as [|r rs Hr H IH]; [reflexivity|]; cbn [encode flat_map]; rewrite decoder_rune by exact Hr.
  f_equal; exact IH.
Qed.
Lemma decode_text rs : scalars rs ->
  text_decode (encode rs) = match rs with [] => [] | r :: rs' => if r =? 0xFEFF then flat_map units rs' else flat_map units rs end.
Proof. intros Hs; unfold text_decode; rewrite decoder_encode by exact Hs; destruct rs; reflexivity. Qed.

(** Text goes to Go as the same text. *)
Theorem C72_to_go : forall j rs, utf16 j rs -> text_encode j = encode rs /\ runes (text_encode j) = rs.
Proof.
  intros j rs H; unfold text_encode; rewrite (usv_utf16 j rs H); split; [reflexivity|].
  apply runes_encode; exact (utf16_scalars _ _ H).
Qed.
Print Assumptions C72_to_go.

(** What is no text goes to Go as text where U+FFFD stands for every surrogate without a
    partner, and nothing else is another. *)
Inductive repaired : jstring -> list rune -> Prop :=
| repaired_nil : repaired [] []
| repaired_basic u s rs : u < 0xD800 \/ 0xDFFF < u <= 0xFFFF -> repaired s rs -> repaired (u :: s) (u :: rs)
| repaired_pair h l s rs : h < 0x400 -> l < 0x400 -> repaired s rs ->
    repaired (0xD800 + h :: 0xDC00 + l :: s) (0x10000 + h * 0x400 + l :: rs)
| repaired_high h s rs : h < 0x400 -> (forall l s', s = 0xDC00 + l :: s' -> 0x400 <= l) -> repaired s rs ->
    repaired (0xD800 + h :: s) (0xFFFD :: rs)
| repaired_low l s rs : l < 0x400 -> repaired s rs -> repaired (0xDC00 + l :: s) (0xFFFD :: rs).
Theorem C72_repaired : forall j, Forall (fun u => u <= 0xFFFF) j ->
  exists rs, repaired j rs /\ text_encode j = encode rs /\ runes (text_encode j) = rs.
Proof.
  intros j Hj; exists (usv j); split; [|split; [reflexivity|]].
  - remember (length j) as n eqn:En; assert (length j <= n)%nat as Hn by lia; clear En; revert j Hj Hn.
    induction n as [|n IH]; intros [|u s] Hj Hn; [constructor|cbn in Hn; lia|constructor|].
    cbn [usv length] in *; inversion Hj as [|? ? Hu Hs]; subst; unfold is_high at 1.
    destruct ((0xD800 <=? u) && (u <=? 0xDBFF)) eqn:Eh.
    + destruct s as [|v s2].
      * replace u with (0xD800 + (u - 0xD800)) by lia; apply repaired_high; [lia|discriminate|constructor].
      * destruct (is_low v) eqn:El; unfold is_low in El.
        -- replace u with (0xD800 + (u - 0xD800)) at 1 by lia; replace v with (0xDC00 + (v - 0xDC00)) at 1 by lia.
           apply repaired_pair; [lia|lia|]; apply IH; [inversion Hs; assumption|cbn in Hn; lia].
        -- replace u with (0xD800 + (u - 0xD800)) by lia; apply repaired_high; [lia| |apply IH; [exact Hs|lia]].
           intros l s' E; apply (f_equal (hd 0)) in E; cbn [hd] in E; clear - El E; lia.
    + unfold is_low at 1; destruct ((0xDC00 <=? u) && (u <=? 0xDFFF)) eqn:El.
      * replace u with (0xDC00 + (u - 0xDC00)) by lia; apply repaired_low; [lia|apply IH; [exact Hs|lia]].
      * apply repaired_basic; [lia|apply IH; [exact Hs|lia]].
  - unfold text_encode; rewrite runes_encode; [reflexivity|].
    remember (length j) as n eqn:En; assert (length j <= n)%nat as Hn by lia; clear En; revert j Hj Hn.
    induction n as [|n IH]; intros [|u s] Hj Hn; [constructor|cbn in Hn; lia|constructor|].
    cbn [usv length] in *; inversion Hj as [|? ? Hu Hs]; subst.
    destruct (is_high u) eqn:Eh; unfold is_high in Eh.
    + destruct s as [|v s2]; [repeat constructor|]; destruct (is_low v) eqn:El; unfold is_low in El.
      * constructor; [unfold is_scalar; lia|]; apply IH; [inversion Hs; assumption|cbn in Hn; lia].
      * constructor; [reflexivity|apply IH; [exact Hs|lia]].
    + destruct (is_low u) eqn:El; unfold is_low in El.
      * constructor; [reflexivity|apply IH; [exact Hs|lia]].
      * constructor; [unfold is_scalar; lia|apply IH; [exact Hs|lia]].
Qed.
Print Assumptions C72_repaired.

(** Text comes from Go as the same text, unless it begins with a byte order mark, U+FEFF.
    Missing for C72 is that text: it loses the mark. *)
Theorem C72_from_go_partial : forall rs, scalars rs ->
  (hd_error rs <> Some 0xFEFF -> utf16 (text_decode (encode rs)) rs) /\ utf16 (text_decode (encode (0xFEFF :: rs))) rs.
Proof.
  intros rs Hs; split.
  - intros Hb; rewrite decode_text by exact Hs; destruct rs as [|r rs']; [constructor|].
    destruct (r =? 0xFEFF) eqn:E; [apply N.eqb_eq in E; subst r; contradiction Hb; reflexivity|apply utf16_exists; exact Hs].
  - rewrite decode_text; [apply utf16_exists; exact Hs|constructor; [reflexivity|exact Hs]].
Qed.
Print Assumptions C72_from_go_partial.
Theorem C72_mark_refuted : exists rs, scalars rs /\ ~ utf16 (text_decode (encode rs)) rs.
Proof.
  exists [0xFEFF; 0x61]; split; [repeat constructor|]; intros H; apply utf16_units in H; vm_compute in H; discriminate.
Qed.
Print Assumptions C72_mark_refuted.

(** There and back: nothing is lost of text that does not begin with the mark. *)
Theorem C72_round : forall j rs, utf16 j rs -> hd_error rs <> Some 0xFEFF -> text_decode (text_encode j) = j.
Proof.
  intros j rs H Hb; destruct (C72_to_go j rs H) as [-> _].
  pose proof (proj1 (C72_from_go_partial rs (utf16_scalars _ _ H)) Hb) as H'.
  rewrite (utf16_units _ _ H'), (utf16_units _ _ H); reflexivity.
Qed.
Print Assumptions C72_round.
Theorem C72_round_go : forall s, utf8_text s -> hd_error (runes s) <> Some 0xFEFF -> text_encode (text_decode s) = s.
Proof.
  intros s Ht Hb; pose proof (utf8_text_runes s Ht) as E; rewrite <- E at 1.
  pose proof (proj1 (C72_from_go_partial (runes s) (runes_scalar s)) Hb) as H'.
  rewrite (proj1 (C72_to_go _ _ H')); exact E.
Qed.
Print Assumptions C72_round_go.

(** Whatever the bytes are, JavaScript gets text. *)
Fixpoint needs_scalar (n : nat) (lo hi cp : N) : Prop :=
  match n with
  | O => is_scalar cp = true
  | S n' => 0x80 <= lo /\ hi <= 0xBF /\ forall b, lo <= b <= hi -> needs_scalar n' 0x80 0xBF (cp * 64 + (b - 0x80))
  end.
Definition state_ok (st : utf8_state) : Prop :=
  ud_needed st = O \/ needs_scalar (ud_needed st) (ud_lower st) (ud_upper st) (ud_cp st).
Lemma first_ok b : scalars (fst (utf8_first b)) /\ state_ok (snd (utf8_first b)).
Proof.
  unfold utf8_first; destruct (b <=? 0x7F) eqn:E1; [split; [repeat constructor; unfold is_scalar; lia|left; reflexivity]|].
  destruct ((0xC2 <=? b) && (b <=? 0xDF)) eqn:E2; [|destruct ((0xE0 <=? b) && (b <=? 0xEF)) eqn:E3;
    [|destruct ((0xF0 <=? b) && (b <=? 0xF4)) eqn:E4; [|split; [repeat constructor|left; reflexivity]]]]; (split; [constructor|right]).
  - cbn [snd ud_needed ud_lower ud_upper ud_cp]; change 0x1F with (N.ones 5); rewrite (head_bits b 5 6 (b - 0xC0)) by lia.
    split; [lia|]; split; [lia|]; intros c Hc; cbn [needs_scalar]; unfold is_scalar; lia.
  - cbn [snd ud_needed ud_lower ud_upper ud_cp]; change 0xF with (N.ones 4); rewrite (head_bits b 4 14 (b - 0xE0)) by lia.
    destruct (b =? 0xE0) eqn:Ea, (b =? 0xED) eqn:Eb; (split; [lia|]; split; [lia|]; intros c Hc;
      split; [lia|]; split; [lia|]; intros d Hd; cbn [needs_scalar]; unfold is_scalar; lia).
  - cbn [snd ud_needed ud_lower ud_upper ud_cp]; change 0x7 with (N.ones 3); rewrite (head_bits b 3 30 (b - 0xF0)) by lia.
    destruct (b =? 0xF0) eqn:Ea, (b =? 0xF4) eqn:Eb; (split; [lia|]; split; [lia|]; intros c Hc;
      split; [lia|]; split; [lia|]; intros d Hd; split; [lia|]; split; [lia|]; intros e He; cbn [needs_scalar]; unfold is_scalar; lia).
Qed.
Lemma decoder_scalars s : forall st, state_ok st -> scalars (utf8_decoder st s).
Proof.
  induction s as [|b s IH]; intros [cp n lo hi] Hst; cbn [utf8_decoder ud_needed ud_lower ud_upper ud_cp].
  - destruct n; repeat constructor.
  - pose proof (first_ok b) as [F1 F2]; destruct n as [|n].
    + destruct (utf8_first b) as [out st']; cbn [fst snd] in *; apply Forall_app; split; [exact F1|apply IH; exact F2].
    + destruct Hst as [Hst|(H1 & H2 & H3)]; [discriminate|]; cbn [ud_needed ud_lower ud_upper ud_cp] in *.
      destruct ((lo <=? b) && (b <=? hi)) eqn:E.
      * rewrite cont_bits by lia; specialize (H3 b ltac:(lia)); destruct n; [constructor; [exact H3|apply IH; left; reflexivity]|].
        apply IH; right; exact H3.
      * destruct (utf8_first b) as [out st']; cbn [fst snd] in *; constructor; [reflexivity|].
        apply Forall_app; split; [exact F1|apply IH; exact F2].
Qed.
Theorem C72_always_text : forall s, exists rs, utf16 (text_decode s) rs.
Proof.
  intros s; unfold text_decode; pose proof (decoder_scalars s utf8_start (or_introl eq_refl)) as H.
  set (l := utf8_decoder utf8_start s) in *; clearbody l.
  destruct l as [|r l]; [exists []; constructor|]; destruct (r =? 0xFEFF).
  - exists l; apply utf16_exists; inversion H; assumption.
  - exists (r :: l); apply utf16_exists; exact H.
Qed.
Print Assumptions C72_always_text.

(** What the text is (Unicode, section 3.9, and the Encoding Standard): every character that is
    there is kept; of a character that breaks off, the longest beginning that is there becomes
    one U+FFFD; so does a byte with which no character begins. *)
Definition breaks_off (p : bytes) : Prop := exists r q, is_scalar r = true /\ encode_rune r = p ++ q /\ q <> [].
Definition no_character (p : bytes) : Prop := forall r q, is_scalar r = true -> encode_rune r <> p ++ q.
Inductive mended : bytes -> list rune -> Prop :=
| mended_nil : mended [] []
| mended_char r s rs : is_scalar r = true -> mended s rs -> mended (encode_rune r ++ s) (r :: rs)
| mended_cut p s rs : p <> [] -> breaks_off p -> (forall b s', s = b :: s' -> no_character (p ++ [b])) -> mended s rs ->
    mended (p ++ s) (0xFFFD :: rs)
| mended_byte b s rs : no_character [b] -> mended s rs -> mended (b :: s) (0xFFFD :: rs).

Fixpoint tracks (n : nat) (lo hi cp : N) (p : bytes) : Prop :=
  match n with
  | O => is_scalar cp = true /\ encode_rune cp = p
  | S n' =>
    (0x80 <= lo /\ hi <= 0xBF /\ lo <= hi) /\ (forall b, ~ lo <= b <= hi -> no_character (p ++ [b])) /\
    forall b, lo <= b <= hi -> tracks n' 0x80 0xBF (cp * 64 + (b - 0x80)) (p ++ [b])
  end.
Lemma tracks_begins n : forall lo hi cp p, tracks n lo hi cp p -> exists r q, is_scalar r = true /\ encode_rune r = p ++ q /\ length q = n.
Proof.
  induction n as [|n IH]; intros lo hi cp p; cbn [tracks].
  - intros [Hs E]; exists cp, []; rewrite app_nil_r; auto.
  - intros (Hb & _ & H); destruct (IH _ _ _ _ (H lo ltac:(lia))) as (r & q & Hr & E & Hl).
    exists r, (lo :: q); rewrite <- app_assoc in E; cbn [length]; auto.
Qed.
Lemma encode_cases r p : is_scalar r = true -> encode_rune r = p ->
  (r <= 0x7F /\ p = [r]) \/
  (0x7F < r <= 0x7FF /\ p = [0xC0 + r / 64; 0x80 + r mod 64]) \/
  (0x7FF < r <= 0xFFFF /\ ~ 0xD800 <= r <= 0xDFFF /\ p = [0xE0 + r / 4096; 0x80 + (r / 64) mod 64; 0x80 + r mod 64]) \/
  (0xFFFF < r <= 0x10FFFF /\ p = [0xF0 + r / 262144; 0x80 + (r / 4096) mod 64; 0x80 + (r / 64) mod 64; 0x80 + r mod 64]).
Proof.
  intros Hs <-; unfold encode_rune; destruct (r <=? 0x7F) eqn:E1; [left; split; [lia|reflexivity]|].
  destruct (r <=? 0x7FF) eqn:E2; [right; left; split; [lia|reflexivity]|]; rewrite Hs; unfold is_scalar in Hs; cbn [negb].
  destruct (r <=? 0xFFFF) eqn:E3; [right; right; left; split; [lia|]; split; [lia|reflexivity]|].
  right; right; right; split; [lia|reflexivity].
Qed.
Ltac no_chars := intros r q Hr Er; apply encode_cases in Er; [|exact Hr];
  destruct Er as [(H1 & H2)|[(H1 & H2)|[(H1 & H3 & H2)|(H1 & H2)]]]; cbn [app] in H2;
  pose proof (f_equal (@length N) H2) as L; pose proof (f_equal (hd 0) H2) as L0;
  pose proof (f_equal (fun l => hd 0 (tl l)) H2) as L1; pose proof (f_equal (fun l => hd 0 (tl (tl l))) H2) as L2;
  pose proof (f_equal (fun l => hd 0 (tl (tl (tl l)))) H2) as L3; cbn [length hd tl] in L, L0, L1, L2, L3; clear H2; lia.
Lemma first_tracks b : fst (utf8_first b) = [] /\ (exists n, ud_needed (snd (utf8_first b)) = S n) /\
    tracks (ud_needed (snd (utf8_first b))) (ud_lower (snd (utf8_first b))) (ud_upper (snd (utf8_first b))) (ud_cp (snd (utf8_first b))) [b] \/
  snd (utf8_first b) = utf8_start /\
    (b <= 0x7F /\ fst (utf8_first b) = [b] \/ no_character [b] /\ fst (utf8_first b) = [0xFFFD]).
Proof.
  unfold utf8_first; destruct (b <=? 0x7F) eqn:E1; [right; split; [reflexivity|left; split; [lia|reflexivity]]|].
  destruct ((0xC2 <=? b) && (b <=? 0xDF)) eqn:E2; [left|destruct ((0xE0 <=? b) && (b <=? 0xEF)) eqn:E3;
    [left|destruct ((0xF0 <=? b) && (b <=? 0xF4)) eqn:E4; [left|]]]; cbn [fst snd ud_needed ud_lower ud_upper ud_cp].
  - split; [reflexivity|]; split; [eexists; reflexivity|]; change 0x1F with (N.ones 5); rewrite (head_bits b 5 6 (b - 0xC0)) by lia.
    cbn [tracks app]; split; [lia|]; split; [intros c Hc; no_chars|]; intros c Hc; split; [unfold is_scalar; lia|].
    unfold encode_rune; assert ((b - 0xC0) * 64 + (c - 0x80) <=? 0x7F = false) as -> by lia.
    assert ((b - 0xC0) * 64 + (c - 0x80) <=? 0x7FF = true) as -> by lia; repeat f_equal; lia.
  - split; [reflexivity|]; split; [eexists; reflexivity|]; change 0xF with (N.ones 4); rewrite (head_bits b 4 14 (b - 0xE0)) by lia.
    destruct (b =? 0xE0) eqn:Ea, (b =? 0xED) eqn:Eb; [lia|..]; (cbn [tracks app]; split; [lia|]; split; [intros c Hc; no_chars|]; intros c Hc;
      split; [lia|]; split; [intros d Hd; no_chars|]; intros d Hd;
      assert (is_scalar (((b - 0xE0) * 64 + (c - 0x80)) * 64 + (d - 0x80)) = true) as Es by (unfold is_scalar; lia); split; [exact Es|];
      unfold encode_rune; rewrite Es; cbn [negb];
      assert (((b - 0xE0) * 64 + (c - 0x80)) * 64 + (d - 0x80) <=? 0x7F = false) as -> by lia;
      assert (((b - 0xE0) * 64 + (c - 0x80)) * 64 + (d - 0x80) <=? 0x7FF = false) as -> by lia;
      assert (((b - 0xE0) * 64 + (c - 0x80)) * 64 + (d - 0x80) <=? 0xFFFF = true) as -> by lia;
      f_equal; [lia|f_equal; [lia|f_equal; lia]]).
  - split; [reflexivity|]; split; [eexists; reflexivity|]; change 0x7 with (N.ones 3); rewrite (head_bits b 3 30 (b - 0xF0)) by lia.
    destruct (b =? 0xF0) eqn:Ea, (b =? 0xF4) eqn:Eb; [lia|..]; (cbn [tracks app]; split; [lia|]; split; [intros c Hc; no_chars|]; intros c Hc;
      split; [lia|]; split; [intros d Hd; no_chars|]; intros d Hd; split; [lia|]; split; [intros e He; no_chars|]; intros e He;
      set (v := (((b - 0xF0) * 64 + (c - 0x80)) * 64 + (d - 0x80)) * 64 + (e - 0x80));
      assert (0xFFFF < v <= 0x10FFFF) as Hv by (subst v; lia);
      assert (is_scalar v = true) as Es by (unfold is_scalar; lia); split; [exact Es|];
      unfold encode_rune; rewrite Es; cbn [negb];
      assert (v <=? 0x7F = false) as -> by lia; assert (v <=? 0x7FF = false) as -> by lia; assert (v <=? 0xFFFF = false) as -> by lia;
      subst v; clear Es Hv; f_equal; [lia|f_equal; [lia|f_equal; [lia|f_equal; lia]]]).
  - right; split; [reflexivity|]; right; split; [|reflexivity]; no_chars.
Qed.
Lemma encode_single b : b <= 0x7F -> is_scalar b = true /\ encode_rune b = [b].
Proof. intros H; unfold encode_rune, is_scalar; assert (b <=? 0x7F = true) as -> by lia; split; [lia|reflexivity]. Qed.
Lemma encode_some r : encode_rune r <> [].
Proof. unfold encode_rune; destruct (r <=? 0x7F), (r <=? 0x7FF), (negb (is_scalar r)), (r <=? 0xFFFF); discriminate. Qed.

Lemma decoder_mends s :
  mended s (utf8_decoder utf8_start s) /\
  forall cp n lo hi p, p <> [] -> tracks (S n) lo hi cp p ->
  mended (p ++ s) (utf8_decoder {| ud_cp := cp; ud_needed := S n; ud_lower := lo; ud_upper := hi |} s).
Proof.
  induction s as [|b s [IH0 IH]]; split.
  - constructor.
  - intros cp n lo hi p Hp Ht; cbn [utf8_decoder ud_needed]; apply mended_cut; [exact Hp| |discriminate|constructor].
    destruct (tracks_begins _ _ _ _ _ Ht) as (r & q & Hr & E & Hl); exists r, q; split; [exact Hr|]; split; [exact E|].
    intros ->; discriminate.
  - rewrite decoder_first; destruct (first_tracks b) as [(Ef & (n & En) & Ht)|(Es & Hb)].
    + rewrite Ef; cbn [app]; destruct (utf8_first b) as [out [cp n0 lo hi]]; cbn [fst snd ud_needed ud_lower ud_upper ud_cp] in *; subst n0.
      apply (IH _ _ _ _ [b]); [discriminate|exact Ht].
    + rewrite Es; destruct Hb as [[Hb ->]|[Hb ->]]; cbn [app]; [|apply mended_byte; assumption].
      destruct (encode_single b Hb) as [Hs E]; change (b :: s) with ([b] ++ s); rewrite <- E; apply mended_char; assumption.
  - intros cp n lo hi p Hp Ht; pose proof Ht as (Hlo & Hno & Hyes); cbn [utf8_decoder ud_needed ud_lower ud_upper ud_cp].
    destruct ((lo <=? b) && (b <=? hi)) eqn:E.
    + rewrite cont_bits by lia; specialize (Hyes b ltac:(lia)); change (b :: s) with ([b] ++ s); rewrite app_assoc; destruct n as [|n].
      * destruct Hyes as [Hs <-]; apply mended_char; [exact Hs|exact IH0].
      * apply IH; [destruct p; discriminate|exact Hyes].
    + assert (mended (b :: s) (fst (utf8_first b) ++ utf8_decoder (snd (utf8_first b)) s)) as Hm.
      { destruct (first_tracks b) as [(Ef & (m & Em) & Ht')|(Es & Hb)].
        - rewrite Ef; cbn [app]; destruct (utf8_first b) as [out [cp' n0 lo' hi']]; cbn [fst snd ud_needed ud_lower ud_upper ud_cp] in *; subst n0.
          apply (IH _ _ _ _ [b]); [discriminate|exact Ht'].
        - rewrite Es; destruct Hb as [[Hb ->]|[Hb ->]]; cbn [app]; [|apply mended_byte; assumption].
          destruct (encode_single b Hb) as [Hs E']; change (b :: s) with ([b] ++ s); rewrite <- E'; apply mended_char; assumption. }
      destruct (utf8_first b) as [out st']; cbn [fst snd] in Hm; apply mended_cut; [exact Hp| | |exact Hm].
      * destruct (tracks_begins _ _ _ _ _ Ht) as (r & q & Hr & Er & Hl); exists r, q; split; [exact Hr|]; split; [exact Er|].
        intros ->; discriminate.
      * intros b' s' Eb; injection Eb as <- <-; apply Hno; lia.
Qed.
Lemma mended_nil_only s : mended s [] -> s = [].
Proof. inversion 1; reflexivity. Qed.
Lemma prefix_free r r' q : is_scalar r = true -> is_scalar r' = true -> encode_rune r' = encode_rune r ++ q -> q = [].
Proof.
  intros Hr Hr' E; pose proof (decoder_rune r' [] Hr') as D; rewrite app_nil_r, E, decoder_rune in D by exact Hr.
  injection D as _ D; cbn [utf8_decoder ud_needed utf8_start] in D; apply mended_nil_only.
  pose proof (proj1 (decoder_mends q)) as M; rewrite D in M; exact M.
Qed.
Lemma decoder_begins p : p <> [] -> breaks_off p -> exists cp n lo hi, tracks (S n) lo hi cp p /\
  forall s, utf8_decoder utf8_start (p ++ s) = utf8_decoder {| ud_cp := cp; ud_needed := S n; ud_lower := lo; ud_upper := hi |} s.
Proof.
  induction p as [|b p IH] using rev_ind; [contradiction|]; intros _ (r & q & Hr & Er & Hq).
  destruct p as [|a p].
  - destruct (first_tracks b) as [(Ef & (n & En) & Ht)|(Es & [[Hb _]|[Hb _]])].
    + destruct (utf8_first b) as [out [cp n0 lo hi]] eqn:Eb; cbn [fst snd ud_needed ud_lower ud_upper ud_cp] in *; subst n0 out.
      exists cp, n, lo, hi; split; [exact Ht|]; intros s; cbn [app]; rewrite decoder_first, Eb; reflexivity.
    + destruct (encode_single b Hb) as [Hs E]; contradiction Hq; apply (prefix_free b r); [exact Hs|exact Hr|]; rewrite E; exact Er.
    + exfalso; apply (Hb r q Hr); exact Er.
  - destruct IH as (cp & n & lo & hi & Ht & Hd); [discriminate| |].
    { exists r, (b :: q); rewrite <- app_assoc in Er; split; [exact Hr|]; split; [exact Er|discriminate]. }
    destruct Ht as (Hlo & Hno & Hyes); destruct ((lo <=? b) && (b <=? hi)) eqn:Eb; [|exfalso; apply (Hno b ltac:(lia) r q Hr); exact Er].
    specialize (Hyes b ltac:(lia)); destruct n as [|n].
    + destruct Hyes as [Hs Ec]; contradiction Hq; apply (prefix_free (cp * 64 + (b - 0x80)) r); [exact Hs|exact Hr|]; rewrite Ec; exact Er.
    + exists (cp * 64 + (b - 0x80)), n, 0x80, 0xBF; split; [exact Hyes|]; intros s; rewrite <- app_assoc, Hd; cbn [app].
      apply decoder_more; [discriminate|lia|lia|lia].
Qed.
Lemma decoder_restart cp n lo hi b s : ~ lo <= b <= hi ->
  utf8_decoder {| ud_cp := cp; ud_needed := S n; ud_lower := lo; ud_upper := hi |} (b :: s) = 0xFFFD :: utf8_decoder utf8_start (b :: s).
Proof.
  intros H; rewrite decoder_first; cbn [utf8_decoder ud_needed ud_lower ud_upper].
  assert ((lo <=? b) && (b <=? hi) = false) as -> by lia; destruct (utf8_first b); reflexivity.
Qed.
Lemma mended_decoder s rs : mended s rs -> utf8_decoder utf8_start s = rs.
Proof.
  induction 1 as [|r s rs Hr H IH|p s rs Hp Hb Hn H IH|b s rs Hb H IH]; [reflexivity|..].
  - rewrite decoder_rune by exact Hr; rewrite IH; reflexivity.
  - destruct (decoder_begins p Hp Hb) as (cp & n & lo & hi & Ht & Hd); rewrite Hd; destruct s as [|b s].
    + cbn [utf8_decoder ud_needed] in *; rewrite <- IH; reflexivity.
    + rewrite decoder_restart, IH; [reflexivity|]; intros Hi; destruct Ht as (_ & _ & Hyes).
      destruct (tracks_begins _ _ _ _ _ (Hyes b Hi)) as (r & q & Hr & E & _); apply (Hn b s eq_refl r q Hr E).
  - rewrite decoder_first; destruct (first_tracks b) as [(_ & _ & Ht)|(Es & [[Hb' _]|[_ Ef]])].
    + destruct (tracks_begins _ _ _ _ _ Ht) as (r & q & Hr & E & _); destruct (Hb r q Hr E).
    + destruct (encode_single b Hb') as [Hs E]; destruct (Hb b [] Hs); rewrite E; reflexivity.
    + rewrite Es, Ef, IH; reflexivity.
Qed.
Definition without_mark (rs : list rune) : list rune := match rs with r :: rs' => if r =? 0xFEFF then rs' else rs | [] => [] end.
Theorem C72_mended : forall s, exists rs, mended s rs /\ (forall rs', mended s rs' -> rs' = rs) /\ utf16 (text_decode s) (without_mark rs).
Proof.
  intros s; exists (utf8_decoder utf8_start s); split; [apply decoder_mends|]; split; [intros rs' H; symmetry; apply mended_decoder, H|].
  unfold text_decode, without_mark; pose proof (decoder_scalars s utf8_start (or_introl eq_refl)) as H.
  set (l := utf8_decoder utf8_start s) in *; clearbody l; destruct l as [|r l]; [constructor|]; destruct (r =? 0xFEFF).
  - apply utf16_exists; inversion H; assumption.
  - apply utf16_exists; exact H.
Qed.
Print Assumptions C72_mended.

(** U+1F600 and 한 there and back; a surrogate alone; bytes that are no text, where a browser
    writes one U+FFFD for F0 9F 98. *)
Example C72_example :
  text_encode [0xD83D; 0xDE00; 0xD55C] = [0xF0; 0x9F; 0x98; 0x80; 0xED; 0x95; 0x9C] /\
  utf16 [0xD83D; 0xDE00; 0xD55C] [0x1F600; 0xD55C] /\
  text_decode [0xF0; 0x9F; 0x98; 0x80; 0xED; 0x95; 0x9C] = [0xD83D; 0xDE00; 0xD55C] /\
  text_encode [0xD83D; 0x61] = [0xEF; 0xBF; 0xBD; 0x61] /\
  text_decode [0xF0; 0x9F; 0x98; 0x61; 0xFF] = [0xFFFD; 0x61; 0xFFFD] /\
  mended [0xF0; 0x9F; 0x98; 0x61; 0xFF; 0xE1; 0x80] [0xFFFD; 0x61; 0xFFFD; 0xFFFD].
Proof.
  split; [reflexivity|]; split; [|split; [reflexivity|split; [reflexivity|split; [reflexivity|apply decoder_mends]]]].
  apply (utf16_pair 0x3D 0x200); [lia|lia|]; apply utf16_basic; [lia|constructor].
Qed.
