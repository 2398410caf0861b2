(** Facts for the transliterators: where the bytes of a character can occur in a text, and
    the shape of the loops over the characters of a word. *)
From Coq Require Import Permutation.
From Verif Require Import GoBase Utf8 Utf8Facts Unicode Replacer ReplacerFacts Translit.
Open Scope N_scope.

(** ** UTF-8 is self-synchronizing *)

(** Every byte of a character but its first one is a continuation byte. *)
Lemma decode_cont s j b : (0 < j)%nat -> (j < snd (decode_rune s))%nat -> nth_error s j = Some b -> is_cont b = true.
Proof.
  intros H0 Hj Hb; destruct s as [|b0 s]; [cbn in Hj; lia|].
  destruct j as [|j]; [lia|]; cbn [nth_error] in Hb; unfold decode_rune in Hj.
  destruct (b0 <? 0x80); [cbn in Hj; lia|].
  destruct ((b0 <? 0xC2) || (0xF4 <? b0)); [cbn in Hj; lia|].
  destruct s as [|b1 s]; [cbn in Hj; lia|].
  destruct (b0 <? 0xE0).
  { destruct (is_cont b1) eqn:E1; cbn in Hj; [|lia].
    destruct j; [|lia]; cbn in Hb; congruence. }
  destruct (b0 <? 0xF0).
  { match type of Hj with context [if ?c then match s with _ => _ end else _] => destruct c eqn:E1 end; [|cbn in Hj; lia].
    apply andb_true_iff in E1; destruct E1 as [E1 _]; apply andb_true_iff in E1; destruct E1 as [E1 _].
    destruct s as [|b2 s]; [cbn in Hj; lia|]; destruct (is_cont b2) eqn:E2; cbn in Hj; [|lia].
    destruct j as [|[|j]]; cbn in Hb; [congruence|congruence|lia]. }
  match type of Hj with context [if ?c then match s with _ => _ end else _] => destruct c eqn:E1 end; [|cbn in Hj; lia].
  apply andb_true_iff in E1; destruct E1 as [E1 _]; apply andb_true_iff in E1; destruct E1 as [E1 _].
  destruct s as [|b2 [|b3 s]]; try (cbn in Hj; lia).
  destruct (is_cont b2) eqn:E2; cbn in Hj; [|lia]; destruct (is_cont b3) eqn:E3; cbn in Hj; [|lia].
  destruct j as [|[|[|j]]]; cbn in Hb; [congruence|congruence|congruence|lia].
Qed.

(** The first byte of a character is not one. *)
Lemma encode_lead r : exists b bs, encode_rune r = b :: bs /\ is_cont b = false.
Proof.
  unfold encode_rune.
  repeat match goal with |- context [if ?c then _ else _] => destruct c eqn:?; cbn [negb] in * end;
    eexists; eexists; (split; [reflexivity|]); unfold is_cont; try reflexivity;
    unfold is_scalar in *; rewrite ?negb_false_iff, ?orb_true_iff, ?andb_true_iff, ?N.ltb_lt, ?N.ltb_ge, ?N.leb_le, ?N.leb_gt in *;
    apply andb_false_iff; rewrite ?N.leb_gt;
    pose proof (N.div_le_mono); first [left; lia | right; apply N.leb_gt; zify; Z.to_euclidean_division_equations; lia].
Qed.

(** The bytes of a character occur in a text only where that character stands. *)
Lemma rune_occurs r : is_scalar r = true -> forall s a b, s = a ++ encode_rune r ++ b -> In r (runes s).
Proof.
  intros Hr s; revert s; apply (glyphs_ind (fun s => forall a b, s = a ++ encode_rune r ++ b -> In r (runes s))).
  - intros a b E; pose proof (encode_rune_nonnil r) as H.
    destruct a; [|discriminate]; destruct (encode_rune r); [contradiction|discriminate].
  - intros s Hn IH a b E; unfold runes; rewrite glyphs_step by exact Hn; cbn [map].
    destruct a as [|a0 a].
    + left; cbn [app] in E; rewrite E, decode_encode by exact Hr; reflexivity.
    + right; pose proof (decode_width s Hn) as Hw.
      assert (snd (decode_rune s) <= length (a0 :: a))%nat as Hle.
      { destruct (le_lt_dec (snd (decode_rune s)) (length (a0 :: a))) as [H|H]; [exact H|exfalso].
        destruct (encode_lead r) as (l & bs & El & Hl).
        assert (nth_error s (length (a0 :: a)) = Some l) as Hs.
        { rewrite E, nth_error_app2, Nat.sub_diag, El by apply le_n; reflexivity. }
        rewrite (decode_cont s _ l (Nat.lt_0_succ (length a)) H Hs) in Hl; discriminate. }
      apply (IH (skipn (snd (decode_rune s)) (a0 :: a)) b).
      rewrite E at 2; rewrite skipn_app.
      replace (snd (decode_rune s) - length (a0 :: a))%nat with O by lia; reflexivity.
Qed.

(** ** The replacer where at most one key matches at each place *)

Definition occurs (k s : bytes) : Prop := exists a b, s = a ++ k ++ b.

Lemma occurs_prefix k s : is_prefix k s -> occurs k s.
Proof. intros (r & ->); exists [], r; reflexivity. Qed.
Lemma occurs_cons k c s : occurs k s -> occurs k (c :: s).
Proof. intros (a & b & ->); exists (c :: a), b; reflexivity. Qed.

(** [clear t s]: no key that begins with a different key occurs in [s]. *)
Definition clear (t : list (bytes * bytes)) (s : bytes) : Prop :=
  forall k1 v1 k2 v2, In (k1, v1) t -> In (k2, v2) t -> is_prefix k1 k2 -> occurs k2 s -> (k1, v1) = (k2, v2).

Lemma clear_lookup t1 t2 s ig : clear t1 s -> (forall x, In x t1 <-> In x t2) ->
  rep_lookup t1 s ig = rep_lookup t2 s ig.
Proof.
  intros Hc Hsame.
  destruct (rep_lookup t2 s ig) as [[v n]|] eqn:E2.
  - apply rep_lookup_some in E2; destruct E2 as (k & Hin & Hm & ->); apply Hsame in Hin.
    destruct (rep_lookup t1 s ig) as [[v' n']|] eqn:E1.
    + apply rep_lookup_some in E1; destruct E1 as (k' & Hin' & Hm' & ->).
      apply matches_prefix in Hm, Hm'.
      destruct (prefix_comparable k k' s Hm Hm') as [Hp|Hp].
      * pose proof (Hc _ _ _ _ Hin Hin' Hp (occurs_prefix _ _ Hm')) as Ee; congruence.
      * pose proof (Hc _ _ _ _ Hin' Hin Hp (occurs_prefix _ _ Hm)) as Ee; congruence.
    + rewrite rep_lookup_none in E1; rewrite (E1 _ _ Hin) in Hm; discriminate.
  - rewrite rep_lookup_none in *; intros k v Hin; eapply E2, Hsame; exact Hin.
Qed.
Lemma clear_cons t c s : clear t (c :: s) -> clear t s.
Proof. intros H k1 v1 k2 v2 H1 H2 Hp Ho; eapply H; eauto using occurs_cons. Qed.
Lemma clear_from t1 t2 n s : clear t1 s -> (forall x, In x t1 <-> In x t2) -> rep_from n t1 s = rep_from n t2 s.
Proof.
  intros Hc Hsame; revert n Hc; induction s as [|c s IH]; intros n Hc; cbn [rep_from].
  - destruct n; [|reflexivity]; rewrite (clear_lookup t1 t2) by assumption; reflexivity.
  - pose proof (clear_cons _ _ _ Hc) as Hc'; destruct n; [|apply IH; exact Hc'].
    rewrite (clear_lookup t1 t2) by assumption.
    rewrite (clear_lookup t1 t2 (c :: s) true) by assumption.
    destruct (match rep_lookup t2 (c :: s) false with
              | Some (v, O) => (v, rep_lookup t2 (c :: s) true) | r => ([], r) end) as [pre r].
    destruct r as [[v [|k]]|]; rewrite IH by exact Hc'; reflexivity.
Qed.

(** Without an occurrence of a key nothing changes. *)
Lemma absent_from t s : (forall k v, In (k, v) t -> ~ occurs k s) -> rep_from 0 t s = s.
Proof.
  induction s as [|c s IH]; intros H.
  - cbn [rep_from]; destruct (rep_lookup t [] false) as [[v n]|] eqn:E; [exfalso|reflexivity].
    apply rep_lookup_some in E; destruct E as (k & Hin & Hm & _); eapply H, occurs_prefix, matches_prefix; eassumption.
  - assert (rep_lookup t (c :: s) false = None) as E.
    { apply rep_lookup_none; intros k v Hin; destruct (matches k (c :: s) false) eqn:Hm; [exfalso|reflexivity].
      eapply H, occurs_prefix, matches_prefix; eassumption. }
    rewrite rep_step_char by exact E; f_equal; apply IH; intros k v Hin Ho; eapply H, occurs_cons; eassumption.
Qed.

(** ** The kana loops *)

Lemma repeat_loop_length l w : length (repeat_loop l w) = length w.
Proof. revert l; induction w as [|c w IH]; intros l; cbn; [reflexivity|rewrite IH; reflexivity]. Qed.
Lemma merge_long_length p o w : length (merge_long p o w) = length w.
Proof. revert p o; induction w as [|c w IH]; intros p o; cbn [merge_long length]; [reflexivity|rewrite IH; reflexivity]. Qed.

(** What stands before place [i] of [l], [d] at the beginning. *)
Definition before (d : rune) (l : list rune) (i : nat) : rune := match i with O => d | S j => nth j l d end.

Lemma repeat_loop_nth l w i c : nth_error w i = Some c ->
  nth_error (repeat_loop l w) i = Some (resolve_mark (before l (repeat_loop l w) i) c).
Proof.
  revert l i; induction w as [|x w IH]; intros l i H; [destruct i; discriminate|].
  destruct i as [|i]; cbn [nth_error] in H; cbn [repeat_loop nth_error].
  - injection H as ->; reflexivity.
  - rewrite (IH (resolve_mark l x) i H); f_equal; f_equal.
    destruct i as [|i]; [reflexivity|]; cbn [before nth].
    apply nth_indep; rewrite repeat_loop_length.
    apply nth_error_Some; destruct (nth_error w i) eqn:E; [discriminate|].
    apply nth_error_None in E; assert (nth_error w (S i) = None) as E' by (apply nth_error_None; lia); congruence.
Qed.
Lemma merge_long_nth p o w i c : nth_error w i = Some c ->
  nth_error (merge_long p o w) i =
    Some (if (o <=? i)%nat && is_long_vowel (before p w i) c then 0x30FC else c).
Proof.
  revert p o i; induction w as [|x w IH]; intros p o i H; [destruct i; discriminate|].
  destruct i as [|i]; cbn [nth_error] in H; cbn [merge_long nth_error].
  - injection H as ->; destruct o; reflexivity.
  - rewrite (IH x (o - 1)%nat i H).
    replace (o - 1 <=? i)%nat with (o <=? S i)%nat
      by (destruct (Nat.leb_spec o (S i)), (Nat.leb_spec (o - 1) i); lia || reflexivity).
    replace (before x w i) with (before p (x :: w) (S i)); [reflexivity|].
    destruct i as [|i]; [reflexivity|]; cbn [before nth]; apply nth_indep.
    assert (nth_error w (S i) <> None) as E by congruence; apply nth_error_Some in E; lia.
Qed.
