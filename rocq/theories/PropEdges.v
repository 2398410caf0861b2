(** C82: where words begin and end. *)
From Coq Require Import String Lia.
From Verif Require Import GoBase Utf8 Utf8Facts Replacer Regex RegexSpec RegexFacts CaptureFacts RegexParse
  ParseFacts Hre FindFacts SourceFacts PatternFacts SrcFacts FindSrc LookFacts PropFind PropSyntax PropPattern PropMiss.
Open Scope Z_scope.

(** ** Words of a text

    Words are separated by white space and by {}. A word begins at [u]: [u] is the text before
    it. A word ends at [w]: [w] is the text after it. *)
Definition begins_word (u : list rune) : Prop :=
  u = [] \/ (exists u' c, u = u' ++ [c] /\ blank c) \/ (exists u', u = u' ++ txt "{}").
Definition ends_word (w : list rune) : Prop :=
  w = [] \/ (exists c w', w = c :: w' /\ blank c) \/ (exists w', w = txt "{}" ++ w').

Lemma after_ends k a b d : (1 <= k)%nat -> edge_after k a b d -> ends_word (b ++ d) /\ ((2 <= k)%nat -> b ++ d = []).
Proof.
  intros Hk H; destruct k as [|[|k]]; [lia| |]; cbn [edge_after] in H.
  - split; [|lia]; destruct H as [[-> ->]|[[Hb Hf]| ->]].
    + left; reflexivity.
    + right; left; destruct b as [|c b]; [congruence|]; inversion Hf; subst; exists c, (b ++ d); auto.
    + right; right; exists d; reflexivity.
  - destruct H as [-> ->]; split; [left; reflexivity|reflexivity].
Qed.
Lemma before_begins k a b d : (1 <= k)%nat -> edge_before k a b d -> (a = [] /\ b = []) \/ (b <> [] /\ begins_word b /\ k = 1%nat).
Proof.
  intros Hk H; destruct k as [|[|k]]; [lia| |]; cbn [edge_before] in H.
  - destruct H as [H|[[Hb Hf]| ->]]; [left; exact H|right|right].
    + split; [exact Hb|split; [|reflexivity]]; right; left.
      destruct (exists_last Hb) as (b' & c & ->); apply Forall_app in Hf; destruct Hf as [_ Hf]; inversion Hf; subst; eauto.
    + split; [discriminate|split; [|reflexivity]]; right; right; exists []; reflexivity.
  - left; exact H.
Qed.
Lemma begins_app a b : b <> [] -> begins_word b -> begins_word (a ++ b).
Proof.
  intros Hb [-> |[(u & c & -> & Hc)|(u & ->)]]; [congruence| |].
  - right; left; exists (a ++ u), c; rewrite app_assoc; auto.
  - right; right; exists (a ++ u); rewrite app_assoc; auto.
Qed.

(** An edge leaves no lookaround beside it. *)
Lemma edge_alone l k neg t n : (1 <= k)%nat -> look_parses l k neg t n -> t = REmpty /\ n = None.
Proof.
  intros Hk H; destruct k as [|k]; [lia|]; destruct l as [|x|x]; cbn [look_parses] in H; [exact H|contradiction|exact H].
Qed.

(** ** $ and $$

    A pattern that ends in $ only matches up to the end of a word; one that ends in $$ only up to the
    end of the text. The white space or the {} after the word is not a part of the match. *)
Theorem C82_right : forall e macros vars s rb nb p word n ms m,
  reads e macros vars s rb nb -> one_branch s -> new_pattern e macros vars = Ok p ->
  (1 <= s_right s)%nat -> find p word n = Ok ms -> In m ms ->
  exists P V Q core, glyphs word = P ++ V ++ Q /\
    m = Z.of_nat (gwidth P) :: Z.of_nat (gwidth (P ++ V)) :: core /\
    ends_word (runes_of Q) /\ ((2 <= s_right s)%nat -> Q = []).
Proof.
  intros e macros vars s rb nb p word n ms m (He & (used & Hx) & Hb) H1 Hp Hr Hf Hin.
  destruct (source_match _ _ _ _ _ _ _ _ He Hx Hb H1 Hp word n ms m Hf Hin)
    as (tb & ta & nbk & nega & P & u0 & u1 & v & w1 & w2 & core & _ & La & Eg & _ & Em & _ & _ & R3 & _).
  destruct (edge_alone _ _ _ _ _ Hr La) as [-> _].
  apply rmatch_pair in R3; destruct R3 as (a & b & Eab & H2 & H3); apply rmatch_nothing in H2; subst a; cbn [app] in Eab.
  apply edge_after_same in H3; destruct (after_ends _ _ _ _ Hr H3) as [He1 He2]; rewrite <- Eab in He1, He2.
  assert (forall A B C D : list (rune * nat), A ++ B ++ C ++ D = (A ++ B ++ C) ++ D) as Hass by (intros; rewrite <- !app_assoc; reflexivity).
  exists (P ++ u0 ++ u1), v, (w1 ++ w2), core; split; [rewrite Eg, <- !app_assoc; reflexivity|].
  split; [rewrite Em, <- !app_assoc; reflexivity|].
  unfold runes_of in *; rewrite map_app; split; [exact He1|intros Hk; specialize (He2 Hk); rewrite <- map_app in He2; apply map_eq_nil in He2; exact He2].
Qed.
Print Assumptions C82_right.

(** ** ^ and ^^

    [starts word lo ms]: each of the matches begins where a word begins ([one] is true) or exactly
    where the match before it has ended, [lo] for the first one. *)
Inductive starts (one : bool) (word : bytes) : Z -> list (list Z) -> Prop :=
| starts_nil lo : starts one word lo []
| starts_cons lo P V Q core ms : glyphs word = P ++ V ++ Q ->
    (Z.of_nat (gwidth P) = lo \/ (one = true /\ begins_word (runes_of P))) ->
    starts one word (Z.of_nat (gwidth (P ++ V))) ms ->
    starts one word lo ((Z.of_nat (gwidth P) :: Z.of_nat (gwidth (P ++ V)) :: core) :: ms).

Theorem C82_left_partial : forall e macros vars s rb nb p word ms,
  reads e macros vars s rb nb -> one_branch s -> new_pattern e macros vars = Ok p ->
  (1 <= s_left s)%nat -> match s_ahead s with Neg _ => s_right s <> O | _ => True end ->
  find p word (-1) = Ok ms -> starts (s_left s =? 1)%nat word 0 ms.
Proof.
  intros e macros vars s rb nb p word ms (He & (used & Hex) & Hbal) (l0 & m0 & Hl0) Hp Hl Hna Hf.
  destruct (contradictory (s_behind s) (s_left s) || contradictory (s_ahead s) (s_right s)) eqn:Hc.
  { rewrite (contradictory_find e macros vars s used rb nb p word _ He Hex Hbal Hc Hp) in Hf.
    apply ok_eq in Hf; subst ms; constructor. }
  destruct (balanced_accepted e macros vars s used rb nb He Hex Hbal Hc)
    as (p' & alts & tb & ta & nbk & nega & Hp' & _ & Lb & La & D & Hr & Halts).
  rewrite Hp in Hp'; apply ok_eq in Hp'; subst p'.
  specialize (Halts l0 m0 Hl0); subst alts.
  destruct (edge_alone _ _ _ _ _ Hl Lb) as [-> ->].
  assert (nega = None) as ->.
  { destruct (s_ahead s); cbn [look_parses] in La; [apply La|destruct (s_right s); [apply La|contradiction]|].
    destruct (s_right s); [contradiction|apply La]. }
  pose proof (d_negA _ _ _ _ _ _ _ _ D) as NA; pose proof (d_negB _ _ _ _ _ _ _ _ D) as NB.
  cbn [neg_regexp option_map] in NA, NB.
  apply find_scan in Hf; [|lia].
  assert (boundary word 0) as Hb by (exists [], (glyphs word); split; [reflexivity|rewrite gwidth_nil; reflexivity]).
  revert Hb; induction Hf as [off Hle|off Hle Hraw|off start stop core ms Hle Hlen Hpick Hne Hneg Hcore Hs IH
                             |off start stop ms Hle Hlen Hpick Hne Hneg Hs IH]; intros Hb; try constructor.
  - destruct (described_raw _ _ _ _ _ _ _ _ D word off start stop Hb Hle Hpick)
      as (P & u0 & u1 & v & w1 & w2 & Ew & Eoff & Est & Esp & R1 & _).
    apply rmatch_pair in R1; destruct R1 as (a & b & Eab & H1 & H2).
    apply rmatch_nothing in H2; subst b; rewrite app_nil_r in Eab; subst a.
    apply edge_before_same in H1; pose proof (before_begins _ _ _ _ Hl H1) as Hcase.
    assert (glyphs word = (P ++ u0 ++ u1) ++ v ++ (w1 ++ w2)) as Ew' by (rewrite Ew, <- !app_assoc; reflexivity).
    assert (P ++ u0 ++ u1 ++ v = (P ++ u0 ++ u1) ++ v) as Ev by (rewrite <- !app_assoc; reflexivity).
    rewrite Ev in Esp; rewrite <- Est, <- Esp; econstructor; [exact Ew'| |].
    + destruct Hcase as [[Ea Eb]|[Hn [Hbw Hk]]].
      * left; apply map_eq_nil in Ea, Eb; subst u0 u1; cbn [app]; rewrite app_nil_r; exact Eoff.
      * right; split; [rewrite Hk; reflexivity|]; unfold runes_of in *; rewrite !map_app, app_assoc; apply begins_app; assumption.
    + rewrite Esp; apply IH; exists ((P ++ u0 ++ u1) ++ v), (w1 ++ w2); split; [rewrite Ew', !app_assoc; reflexivity|symmetry; exact Esp].
  - unfold negatives_allow in Hneg; rewrite NA, NB in Hneg; discriminate.
Qed.
Print Assumptions C82_left_partial.

(** The first match begins where a word begins. *)
Theorem C82_first_partial : forall e macros vars s rb nb p word m ms,
  reads e macros vars s rb nb -> one_branch s -> new_pattern e macros vars = Ok p ->
  (1 <= s_left s)%nat -> match s_ahead s with Neg _ => s_right s <> O | _ => True end ->
  find p word (-1) = Ok (m :: ms) ->
  exists P V Q core, glyphs word = P ++ V ++ Q /\
    m = Z.of_nat (gwidth P) :: Z.of_nat (gwidth (P ++ V)) :: core /\ begins_word (runes_of P).
Proof.
  intros e macros vars s rb nb p word m ms Hr Ho Hp Hl Hn Hf.
  pose proof (C82_left_partial _ _ _ _ _ _ _ _ _ Hr Ho Hp Hl Hn Hf) as H; inversion H as [|lo P V Q core ms' Eg Hs Hrest]; subst.
  exists P, V, Q, core; split; [exact Eg|]; split; [reflexivity|]; destruct Hs as [Hs|[_ Hs]]; [|exact Hs].
  left; assert (P = []) as ->; [|reflexivity].
  pose proof (glyphs_wide word) as Hw; rewrite Eg in Hw; apply wide_app in Hw; destruct Hw as [Hw _].
  destruct P as [|g P]; [reflexivity|]; inversion Hw; subst; rewrite gwidth_cons in Hs; lia.
Qed.
Print Assumptions C82_first_partial.

(** ^(ab|c)$ *)
Definition ex_edges : src := Src 1 NoLook (txt "(ab|c)") NoLook 1.
Example C82_example : exists rb,
  reads (lit "^(ab|c)$") [] [] ex_edges rb 1 /\ one_branch ex_edges /\
  find (pat "^(ab|c)$") (lit "c abc ab{}ab abab") (-1) = Ok [[0; 1; 0; 1]; [6; 8; 6; 8]; [10; 12; 10; 12]] /\
  find (pat "^(ab|c)$$") (lit "c abc ab{}ab ab") (-1) = Ok [[13; 15; 13; 15]].
Proof.
  eexists; split; [read_src|]; split; [do 2 eexists; vm_compute; reflexivity|]; split; vm_compute; reflexivity.
Qed.

(** In the middle of a word, right after another match. *)
Theorem C82_middle_refuted : exists e p word,
  e = lit "^(ab|c)" /\ new_pattern e [] [] = Ok p /\ word = lit "abcx" /\
  find p word (-1) = Ok [[0; 2; 0; 2]; [2; 3; 2; 3]].
Proof. exists (lit "^(ab|c)"), (pat "^(ab|c)"), (lit "abcx"); vm_compute; repeat split. Qed.
Print Assumptions C82_middle_refuted.
(** The edge only belongs to the last, the first alternative. *)
Theorem C82_alternative_refuted : exists p q word,
  new_pattern (lit "a|b$") [] [] = Ok p /\ new_pattern (lit "^b|a") [] [] = Ok q /\ word = lit "xax" /\
  find p word (-1) = Ok [[1; 2]] /\ find q word (-1) = Ok [[1; 2]].
Proof. exists (pat "a|b$"), (pat "^b|a"), (lit "xax"); vm_compute; repeat split. Qed.
Print Assumptions C82_alternative_refuted.
(** A match that a negative lookahead passes over moves the beginning, too. *)
Theorem C82_rejected_refuted : exists e p word,
  e = lit "^[ac]{~c}" /\ new_pattern e [] [] = Ok p /\ word = lit "acx" /\ find p word (-1) = Ok [[1; 2]].
Proof. exists (lit "^[ac]{~c}"), (pat "^[ac]{~c}"), (lit "acx"); vm_compute; repeat split. Qed.
Print Assumptions C82_rejected_refuted.
