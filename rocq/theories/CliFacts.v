(** Facts about the command: trimming, reading lines, and the steps of the process. *)
From Coq Require Import String.
From Verif Require Import GoBase Utf8 Utf8Facts Unicode RuleFacts HslInv TranslitFacts Hre Spec Jamo Procedure Api
  Tracefmt Cli.
Open Scope N_scope.

(** ** Trimming *)

(** A text that does not continue a character. *)
Definition starts_anew (t : bytes) : Prop := match t with [] => True | b :: _ => is_cont b = false end.

Lemma decode_app_anew a t : a <> [] -> starts_anew t -> decode_rune (a ++ t) = decode_rune a.
Proof.
  intros Hn Ht; symmetry; apply decode_prefix; [exact Hn|].
  destruct (le_lt_dec (snd (decode_rune (a ++ t))) (length a)) as [H|H]; [exact H|exfalso].
  assert (a ++ t <> []) as Hne by (destruct a; [contradiction|discriminate]).
  pose proof (decode_width (a ++ t) Hne) as Hw; rewrite app_length in Hw.
  destruct t as [|b t]; [cbn [length] in Hw; lia|]; cbn [starts_anew] in Ht.
  assert (0 < length a)%nat as H0 by (destruct a; [contradiction|cbn; lia]).
  assert (nth_error (a ++ b :: t) (length a) = Some b) as Hb
    by (rewrite nth_error_app2, Nat.sub_diag by apply le_n; reflexivity).
  rewrite (decode_cont _ _ b H0 H Hb) in Ht; discriminate.
Qed.
Lemma glyphs_app_anew a t : starts_anew t -> glyphs (a ++ t) = glyphs a ++ glyphs t.
Proof.
  intros Ht; revert a; apply (glyphs_ind (fun a => glyphs (a ++ t) = glyphs a ++ glyphs t)); [reflexivity|].
  intros a Hn IH; assert (a ++ t <> []) as Hne by (destruct a; [contradiction|discriminate]).
  rewrite (glyphs_step (a ++ t) Hne), (glyphs_step a Hn), decode_app_anew by assumption; cbn [app]; f_equal.
  pose proof (decode_width a Hn) as Hw; rewrite skipn_app.
  replace (snd (decode_rune a) - length a)%nat with O by lia; exact IH.
Qed.

Definition spaces_text (a : bytes) : Prop := exists rs, a = encode rs /\ Forall (fun r => is_space r = true) rs.

Lemma space_scalar r : is_space r = true -> is_scalar r = true /\ r <> rune_error.
Proof.
  intros H; assert (r < 0xD800) as Hr by (unfold is_space in H; destruct (r <=? 0xFF) eqn:E; lia).
  split; [unfold is_scalar; apply orb_true_iff; left; apply N.ltb_lt; exact Hr|unfold rune_error; lia].
Qed.
Lemma spaces_anew a t : spaces_text a -> starts_anew t -> starts_anew (a ++ t).
Proof.
  intros ([|r rs] & -> & H) Ht; [exact Ht|]; cbn [encode flat_map].
  destruct (encode_lead r) as (b & bs & -> & Hb); exact Hb.
Qed.
Lemma space_width_app rs gs : Forall (fun r => is_space r = true) rs ->
  space_width (glyphs (encode rs) ++ gs) = (length (encode rs) + space_width gs)%nat.
Proof.
  induction 1 as [|r rs Hr H IH]; [reflexivity|].
  cbn [encode flat_map]; destruct (space_scalar r Hr) as [Hs _].
  rewrite glyphs_encode_cons by exact Hs; cbn [app space_width]; rewrite Hr, app_length.
  change (flat_map encode_rune rs) with (encode rs); rewrite IH; lia.
Qed.
Lemma space_width_rev rs gs : Forall (fun r => is_space r = true) rs ->
  space_width (rev (gs ++ glyphs (encode rs))) = (length (encode rs) + space_width (rev gs))%nat.
Proof.
  intros H; revert gs; induction H as [|r rs Hr H IH]; intros gs; [rewrite app_nil_r; reflexivity|].
  cbn [encode flat_map]; destruct (space_scalar r Hr) as [Hs _].
  rewrite glyphs_encode_cons by exact Hs.
  change (flat_map encode_rune rs) with (encode rs).
  replace (gs ++ (r, length (encode_rune r)) :: glyphs (encode rs)) with ((gs ++ [(r, length (encode_rune r))]) ++ glyphs (encode rs))
    by (rewrite <- app_assoc; reflexivity).
  rewrite IH, rev_app_distr; cbn [rev app space_width]; rewrite Hr, app_length; lia.
Qed.

(** [trimmed s w]: [w] is [s] without the white space at its ends. *)
Definition trimmed (s w : bytes) : Prop :=
  exists a b, s = a ++ w ++ b /\ spaces_text a /\ spaces_text b /\
    (forall r t, is_space r = true -> w <> encode_rune r ++ t) /\
    (forall r t, is_space r = true -> w <> t ++ encode_rune r).

Lemma trim_space_trimmed s w : w <> [] -> trimmed s w -> trim_space s = w.
Proof.
  intros Hn (a & b & -> & (A & -> & HA) & (B & -> & HB) & Hl & Hr); unfold trim_space.
  assert (forall rs, Forall (fun r => is_space r = true) rs -> scalars rs) as Hsc
    by (intros rs H; eapply Forall_impl; [|exact H]; intros r Hs; apply space_scalar; exact Hs).
  assert (glyphs (encode A ++ w ++ encode B) = glyphs (encode A) ++ glyphs w ++ glyphs (encode B)) as Eg.
  { rewrite glyphs_app_text by apply encode_utf8_text; f_equal; apply glyphs_app_anew.
    rewrite <- (app_nil_r (encode B)); apply spaces_anew; [exists B; auto|exact I]. }
  rewrite Eg.
  rewrite space_width_app by exact HA.
  rewrite (app_assoc (glyphs (encode A))), space_width_rev by exact HB.
  assert (space_width (glyphs w ++ glyphs (encode B)) = O) as E1.
  { rewrite glyphs_step by exact Hn; cbn [app]; destruct (decode_rune w) as [r n] eqn:Ed; cbn [space_width].
    destruct (is_space r) eqn:Es; [exfalso|reflexivity].
    apply (Hl r (skipn n w) Es); pose proof (decode_valid w Hn) as H; rewrite Ed in H; cbn [fst snd] in H.
    apply H, space_scalar, Es. }
  assert (space_width (rev (glyphs (encode A) ++ glyphs w)) = O) as E2.
  { destruct (rev (glyphs w)) as [|[r n] gs] eqn:Er.
    - apply (f_equal (@rev _)) in Er; rewrite rev_involutive in Er; cbn in Er.
      rewrite glyphs_step in Er by exact Hn; discriminate.
    - rewrite rev_app_distr, Er; cbn [app space_width]; destruct (is_space r) eqn:Es; [exfalso|reflexivity].
      apply (f_equal (@rev _)) in Er; rewrite rev_involutive in Er; cbn [rev] in Er.
      pose proof (glyphs_split w _ _ Er) as Hs.
      set (u := skipn (gwidth (rev gs)) w) in *.
      assert (u <> []) as Hu by (intros E; rewrite E in Hs; discriminate).
      rewrite glyphs_step in Hs by exact Hu; injection Hs as Hd Hs.
      pose proof (decode_valid u Hu) as Hv; rewrite Hd in Hv; cbn [fst snd] in *.
      specialize (Hv (proj2 (space_scalar r Es))).
      assert (skipn n u = []) as Hz.
      { rewrite Hd in Hs; cbn [snd] in Hs; destruct (skipn n u) eqn:Ez; [reflexivity|].
        rewrite glyphs_step in Hs by discriminate; discriminate. }
      rewrite Hz, app_nil_r in Hv.
      apply (Hr r (firstn (gwidth (rev gs)) w) Es); rewrite <- Hv; unfold u; symmetry; apply firstn_skipn. }
  rewrite E1, E2, !Nat.add_0_r; rewrite !app_length, skipn_app, skipn_all, Nat.sub_diag; cbn [skipn app].
  replace (length (encode A) + (length w + length (encode B)) - length (encode A) - length (encode B))%nat with (length w) by lia.
  rewrite firstn_app, firstn_all, Nat.sub_diag, firstn_O, app_nil_r; reflexivity.
Qed.
Lemma trim_space_blank s : spaces_text s -> trim_space s = [].
Proof.
  intros (rs & -> & H); unfold trim_space.
  pose proof (space_width_app rs [] H) as E; rewrite app_nil_r in E; cbn [space_width] in E; rewrite E.
  rewrite skipn_all2 by lia; apply firstn_nil.
Qed.

(** Every text is blank or has a non-empty rest after trimming. *)
Lemma spaces_cons r a : is_space r = true -> spaces_text a -> spaces_text (encode_rune r ++ a).
Proof. intros Hr (rs & -> & H); exists (r :: rs); split; [reflexivity|constructor; assumption]. Qed.
Lemma spaces_snoc r a : is_space r = true -> spaces_text a -> spaces_text (a ++ encode_rune r).
Proof.
  intros Hr (rs & -> & H); exists (rs ++ [r]); split; [rewrite encode_app; cbn [encode flat_map]; rewrite app_nil_r; reflexivity|].
  apply Forall_app; split; [exact H|constructor; [exact Hr|constructor]].
Qed.
Lemma spaces_nil : spaces_text []. Proof. exists []; split; [reflexivity|constructor]. Qed.

Definition space_ahead (w : bytes) : Prop := exists r t, is_space r = true /\ w = encode_rune r ++ t.
Definition space_behind (w : bytes) : Prop := exists r t, is_space r = true /\ w = t ++ encode_rune r.
Lemma space_ahead_dec w : space_ahead w \/ ~ space_ahead w.
Proof.
  destruct w as [|b w].
  - right; intros (r & t & _ & E); pose proof (encode_rune_nonnil r); symmetry in E; apply app_eq_nil in E; tauto.
  - destruct (is_space (fst (decode_rune (b :: w)))) eqn:Es.
    + left; exists (fst (decode_rune (b :: w))), (skipn (snd (decode_rune (b :: w))) (b :: w)); split; [exact Es|].
      apply decode_valid; [discriminate|]; apply space_scalar; exact Es.
    + right; intros (r & t & Hr & E); rewrite E, decode_encode in Es by (apply space_scalar; exact Hr).
      cbn [fst] in Es; congruence.
Qed.
Lemma space_behind_dec w : space_behind w \/ ~ space_behind w.
Proof.
  destruct (rev (glyphs w)) as [|[r n] gs] eqn:Er.
  - right; intros (r & t & Hr & E).
    apply (f_equal (@rev _)) in Er; rewrite rev_involutive in Er; cbn in Er.
    assert (w = []) as -> by (apply runes_nil_inv; unfold runes; rewrite Er; reflexivity).
    pose proof (encode_rune_nonnil r); symmetry in E; apply app_eq_nil in E; tauto.
  - apply (f_equal (@rev _)) in Er; rewrite rev_involutive in Er; cbn [rev] in Er.
    destruct (is_space r) eqn:Es.
    + left; pose proof (glyphs_split w _ _ Er) as Hs.
      set (u := skipn (gwidth (rev gs)) w) in *.
      assert (u <> []) as Hu by (intros E; rewrite E in Hs; discriminate).
      rewrite glyphs_step in Hs by exact Hu; injection Hs as Hd Hs.
      pose proof (decode_valid u Hu) as Hv; rewrite Hd in Hv; cbn [fst snd] in *.
      specialize (Hv (proj2 (space_scalar r Es))).
      assert (skipn n u = []) as Hz.
      { rewrite Hd in Hs; cbn [snd] in Hs; destruct (skipn n u) eqn:Ez; [reflexivity|].
        rewrite glyphs_step in Hs by discriminate; discriminate. }
      rewrite Hz, app_nil_r in Hv.
      exists r, (firstn (gwidth (rev gs)) w); split; [exact Es|]; rewrite <- Hv; unfold u; symmetry; apply firstn_skipn.
    + right; intros (r' & t & Hr & E); rewrite E in Er.
      rewrite glyphs_app_anew in Er
        by (destruct (encode_lead r') as (b & bs & -> & Hb); exact Hb).
      rewrite <- (app_nil_r (encode_rune r')), glyphs_encode_cons in Er by (apply space_scalar; exact Hr).
      change (glyphs []) with (@nil (rune * nat)) in Er; apply app_inj_tail in Er; destruct Er as [_ Er]; congruence.
Qed.
Lemma trimmed_exists s : spaces_text s \/ exists w, w <> [] /\ trimmed s w.
Proof.
  assert (forall n a w b, (length w <= n)%nat -> spaces_text a -> spaces_text b -> s = a ++ w ++ b ->
    spaces_text s \/ exists w, w <> [] /\ trimmed s w) as H.
  { induction n as [|n IH]; intros a w b Hl Ha Hb E.
    - destruct w; [|cbn in Hl; lia]; left; subst s; cbn [app].
      destruct Ha as (A & -> & HA), Hb as (B & -> & HB); exists (A ++ B); split; [rewrite encode_app; reflexivity|apply Forall_app; auto].
    - destruct w as [|w0 w'] eqn:Ew.
      { apply (IH a [] b); auto; cbn; lia. }
      rewrite <- Ew in *; clear Ew w0 w'.
      destruct (space_ahead_dec w) as [(r & t & Hr & Et)|Hno].
      { apply (IH (a ++ encode_rune r) t b); auto using spaces_snoc.
        - subst w; rewrite app_length in Hl; pose proof (encode_rune_length r); lia.
        - subst w s; rewrite <- !app_assoc; reflexivity. }
      destruct (space_behind_dec w) as [(r & t & Hr & Et)|Hno2].
      { apply (IH a t (encode_rune r ++ b)); auto using spaces_cons.
        - subst w; rewrite app_length in Hl; pose proof (encode_rune_length r); lia.
        - subst w s; rewrite <- !app_assoc; reflexivity. }
      destruct w as [|w0 w']; [apply (IH a [] b); auto; cbn; lia|].
      right; exists (w0 :: w'); split; [discriminate|]; exists a, b; split; [exact E|]; split; [exact Ha|]; split; [exact Hb|].
      split; intros r t Hr Et; [apply Hno|apply Hno2]; exists r, t; auto. }
  apply (H (length s) [] s []); auto using spaces_nil; rewrite app_nil_r; reflexivity.
Qed.
Lemma trimmed_newline l w : w <> [] -> trimmed l w -> trim_space (l ++ [10]) = w.
Proof.
  intros Hn (a & b & -> & Ha & Hb & H1 & H2); apply trim_space_trimmed; [exact Hn|].
  exists a, (b ++ [10]); split; [rewrite <- !app_assoc; reflexivity|]; split; [exact Ha|]; split; [|auto].
  apply (spaces_snoc 10 b eq_refl Hb).
Qed.
Lemma blank_newline l : spaces_text l -> trim_space (l ++ [10]) = [].
Proof. intros H; apply trim_space_blank, (spaces_snoc 10 l eq_refl H). Qed.

(** ** Lines *)
Lemma read_string_line l rest : ~ In 10 l -> read_string (l ++ 10 :: rest) = Some (l ++ [10], rest).
Proof.
  induction l as [|c l IH]; intros H; [reflexivity|]; cbn [app read_string].
  destruct (c =? 10) eqn:E; [apply N.eqb_eq in E; exfalso; apply H; left; exact E|].
  rewrite IH by (intros Hi; apply H; right; exact Hi); reflexivity.
Qed.
Lemma read_string_none s : ~ In 10 s -> read_string s = None.
Proof.
  induction s as [|c s IH]; intros H; [reflexivity|]; cbn [read_string].
  destruct (c =? 10) eqn:E; [apply N.eqb_eq in E; exfalso; apply H; left; exact E|].
  rewrite IH by (intros Hi; apply H; right; exact Hi); reflexivity.
Qed.
Lemma read_string_shorter s l rest : read_string s = Some (l, rest) -> (length rest < length s)%nat.
Proof.
  revert l rest; induction s as [|c s IH]; intros l rest; cbn [read_string]; [discriminate|].
  destruct (c =? 10); [intros H; injection H as _ <-; cbn; lia|].
  destruct (read_string s) as [[l' r']|]; [|discriminate]; intros H; injection H as _ <-.
  specialize (IH _ _ eq_refl); cbn; lia.
Qed.

(** ** The process *)

(** The words a reader sends before the empty one. *)
Inductive sends : reader -> list bytes -> Prop :=
| sends_step r r' ws : reader_step r = Some r' -> sends r' ws -> sends r ws
| sends_stop next : sends (RSend [] next) []
| sends_word w next ws : w <> [] -> sends next ws -> sends (RSend w next) (w :: ws).

Lemma sends_inv_send w next ws : sends (RSend w next) ws ->
  (w = [] /\ ws = []) \/ (w <> [] /\ exists ws', ws = w :: ws' /\ sends next ws').
Proof.
  intros H; inversion H as [? ? ? E|n|? ? ws' Hw Hs]; subst; [discriminate|auto|].
  right; split; [exact Hw|]; exists ws'; auto.
Qed.
Lemma sends_inv_step r r' ws : reader_step r = Some r' -> sends r ws -> sends r' ws.
Proof. intros E H; inversion H; subst; [congruence|discriminate|discriminate]. Qed.
Lemma sends_live r ws : sends r ws -> r <> RDone.
Proof. intros H ->; inversion H; discriminate. Qed.

Fixpoint rmeasure (r : reader) : nat :=
  match r with
  | RInput s => 2 * length s + 2
  | RArgs ws => 2 * length ws + 2
  | RSend _ next => S (rmeasure next)
  | RDone => 0
  end.
Lemma reader_step_less r r' : reader_step r = Some r' -> (rmeasure r' < rmeasure r)%nat.
Proof.
  destruct r as [s|[|w ws]|w next|]; cbn [reader_step]; try discriminate.
  - destruct (read_string s) as [[l rest]|] eqn:E; intros H; injection H as <-; cbn [rmeasure]; [|lia].
    apply read_string_shorter in E; lia.
  - intros H; injection H as <-; cbn; lia.
  - intros H; injection H as <-; destruct w; cbn [rmeasure length]; lia.
Qed.
