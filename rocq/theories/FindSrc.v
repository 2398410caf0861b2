(** Searching with the pattern of an expression given by its parts. *)
From Coq Require Import String.
From Verif Require Import GoBase Utf8 Utf8Facts Replacer Regex RegexSpec RegexFacts CaptureFacts RegexParse
  ParseFacts ReplaceFacts Hre FindFacts Rule RuleFacts HslInv SourceFacts PatternFacts SrcFacts.
Open Scope Z_scope.

(** ** The alternatives of the tree *)
Definition prefix_of (xs : list re) (i : nat) : list re := match i with O => xs | _ => [] end.
Definition suffix_of (ys : list re) (i n : nat) : list re := if (S i =? n)%nat then ys else [].

Lemma append_last_nth ys alts i : nth_error (append_last ys alts) i =
  match nth_error alts i with Some l => Some (l ++ suffix_of ys i (length alts)) | None => None end.
Proof.
  revert i; induction alts as [|l alts IH]; intros i; [destruct i; reflexivity|].
  destruct alts as [|l' alts].
  - destruct i as [|i]; [reflexivity|]; destruct i; reflexivity.
  - change (append_last ys (l :: l' :: alts)) with (l :: append_last ys (l' :: alts)).
    destruct i as [|i]; cbn [nth_error].
    + cbn [suffix_of length Nat.eqb]; rewrite app_nil_r; reflexivity.
    + rewrite IH; destruct (nth_error (l' :: alts) i); [|reflexivity].
      unfold suffix_of; cbn [length Nat.eqb]; reflexivity.
Qed.
Lemma surround_nth xs ys alts i : nth_error (surround xs ys alts) i =
  match nth_error alts i with
  | Some l => Some (prefix_of xs i ++ l ++ suffix_of ys i (length alts))
  | None => None
  end.
Proof.
  unfold surround; rewrite append_last_nth; destruct alts as [|l alts]; [destruct i; reflexivity|].
  destruct i as [|i]; cbn [nth_error prefix_of app length]; [rewrite <- app_assoc; reflexivity|].
  destruct (nth_error alts i); reflexivity.
Qed.
Lemma surround_length xs ys alts : length (surround xs ys alts) = length alts.
Proof.
  unfold surround; destruct alts as [|l alts]; [reflexivity|].
  assert (forall a, length (append_last ys a) = length a) as ->; [|reflexivity].
  induction a as [|x [|y a] IH]; [reflexivity|reflexivity|].
  change (append_last ys (x :: y :: a)) with (x :: append_last ys (y :: a)); cbn [length] in *; rewrite IH; reflexivity.
Qed.

Lemma seq_of_cat l : (2 <= length l)%nat -> seq_of l = RCat l.
Proof.
  intros H; unfold seq_of, mk_cat; destruct (rev l) as [|a [|b m]] eqn:E.
  - apply (f_equal (@length re)) in E; rewrite rev_length in E; cbn in E; lia.
  - apply (f_equal (@length re)) in E; rewrite rev_length in E; cbn in E; lia.
  - rewrite <- E, rev_involutive; reflexivity.
Qed.
Lemma simplify_items r : simplify (RCat (items r)) = simplify r.
Proof. destruct r; reflexivity. Qed.
Lemma simplify_seq l : simplify (seq_of l) = simplify (RCat l).
Proof.
  destruct l as [|a [|b l]]; [reflexivity|reflexivity|]; rewrite seq_of_cat by (cbn; lia); reflexivity.
Qed.
Lemma items_seq l : (2 <= length l)%nat -> items (seq_of l) = l.
Proof. intros H; rewrite seq_of_cat by exact H; reflexivity. Qed.
Lemma recaps_seq l : recaps (seq_of l) = flat_map recaps l.
Proof.
  destruct l as [|a [|b l]]; [reflexivity|cbn; rewrite app_nil_r; reflexivity|].
  rewrite seq_of_cat by (cbn; lia); reflexivity.
Qed.
Lemma recaps_items r : flat_map recaps (items r) = recaps r.
Proof. destruct r; cbn [items flat_map recaps]; rewrite ?app_nil_r; reflexivity. Qed.
Lemma recaps_alt alts : recaps (alt_of alts) = flat_map recaps (map seq_of alts).
Proof. destruct alts as [|l [|l' alts]]; [reflexivity|cbn; rewrite app_nil_r; reflexivity|reflexivity]. Qed.
Lemma alts_caps lo hi alts : caps_in lo hi (alt_of alts) -> Forall (fun l => Forall (caps_in lo hi) l) alts.
Proof.
  unfold caps_in; rewrite recaps_alt; intros H; induction alts as [|l alts IH]; [constructor|].
  cbn [map flat_map] in H; apply Forall_app in H; destruct H as [H1 H2]; constructor; [|apply IH; exact H2].
  rewrite recaps_seq in H1; clear -H1; induction l as [|r l IH]; [constructor|].
  cbn [flat_map] in H1; apply Forall_app in H1; destruct H1; constructor; [assumption|apply IH; assumption].
Qed.

Lemma nullable_alt l : nullable (simplify (RAlt l)) = existsb (fun r => nullable (simplify r)) l.
Proof.
  induction l as [|r l IH]; [reflexivity|]; destruct l as [|r' l]; [cbn; rewrite orb_false_r; reflexivity|].
  change (simplify (RAlt (r :: r' :: l))) with (XAlt (simplify r) (simplify (RAlt (r' :: l)))).
  cbn [nullable existsb] in *; rewrite IH; reflexivity.
Qed.
Lemma nullable_cat l : nullable (simplify (RCat l)) = forallb (fun r => nullable (simplify r)) l.
Proof.
  induction l as [|r l IH]; [reflexivity|]; destruct l as [|r' l]; [cbn; rewrite andb_true_r; reflexivity|].
  change (simplify (RCat (r :: r' :: l))) with (XCat (simplify r) (simplify (RCat (r' :: l)))).
  cbn [nullable forallb] in *; rewrite IH; reflexivity.
Qed.
Lemma alts_nullable alts : nullable (simplify (alt_of alts)) = false ->
  Forall (fun l => nullable (simplify (RCat l)) = false) alts.
Proof.
  intros H; assert (existsb (fun l => nullable (simplify (RCat l))) alts = false) as E.
  { destruct alts as [|l [|l' alts]]; [reflexivity|cbn [existsb]; rewrite orb_false_r, <- simplify_seq; exact H|].
    unfold alt_of in H; rewrite nullable_alt in H; rewrite <- H; clear H.
    generalize (l :: l' :: alts) as a; induction a as [|x a IH]; [reflexivity|]; cbn [map existsb].
    rewrite simplify_seq, IH; reflexivity. }
  apply Forall_forall; intros l Hl; destruct (nullable (simplify (RCat l))) eqn:En; [|reflexivity].
  rewrite <- E; symmetry; apply existsb_exists; exists l; auto.
Qed.
Lemma nullable_pow n x t : nullable (xpow n x t) = (match n with O => true | _ => nullable x end) && nullable t.
Proof.
  induction n as [|n IH]; [reflexivity|]; cbn [xpow nullable]; rewrite IH; destruct n; [reflexivity|].
  destruct (nullable x); reflexivity.
Qed.
Lemma nullable_quest g x : nullable (xquest g x) = true.
Proof. unfold xquest; destruct g; cbn; [apply orb_true_r|reflexivity]. Qed.
Lemma nullable_star g x : nullable (xstar g x) = true.
Proof. unfold xstar; destruct (nullable x); [apply nullable_quest|reflexivity]. Qed.
Lemma nullable_upto g m x : nullable (xupto g m x) = true.
Proof. destruct m as [|[|m]]; [reflexivity|apply nullable_quest|apply nullable_quest]. Qed.
Lemma nullable_bump k r : nullable (simplify (bump k r)) = nullable (simplify r).
Proof.
  induction r as [| |rs|ranges| | | | |j r IH|g r IH|g r IH|g r IH|g mn mx r IH|l IH|l IH] using re_ind';
    cbn [bump]; try reflexivity; try exact IH.
  - cbn [simplify]; rewrite !nullable_star; reflexivity.
  - cbn [simplify xplus nullable]; rewrite IH; reflexivity.
  - cbn [simplify]; rewrite !nullable_quest; reflexivity.
  - cbn [simplify]; destruct mx as [m|].
    + rewrite !nullable_pow, IH, !nullable_upto; reflexivity.
    + destruct mn as [|n]; [rewrite !nullable_star; reflexivity|].
      rewrite !nullable_pow; cbn [xplus nullable]; rewrite IH; reflexivity.
  - rewrite !nullable_cat; induction IH as [|r l Hr Hl IHl]; [reflexivity|]; cbn [map forallb]; rewrite Hr, IHl; reflexivity.
  - rewrite !nullable_alt; induction IH as [|r l Hr Hl IHl]; [reflexivity|]; cbn [map existsb]; rewrite Hr, IHl; reflexivity.
Qed.

(** ** Groups in their places *)
Section Placed.
  Context (nb : nat) (e1 tb ta e2 : re) (alts : list (list re)).
  Hypothesis Hb : recaps tb = [].
  Hypothesis Ha : recaps ta = [].
  Hypothesis He1 : recaps e1 = [].
  Hypothesis He2 : recaps e2 = [].
  Hypothesis Halts : Forall (fun l => Forall (caps_in 2 (2 + nb)) l) alts.
  Hypothesis Hnonnil : alts <> [].

  Definition front : list re := [RCap 1 e1; RCap 2 tb].
  Definition back : list re := [RCap (3 + nb) ta; RCap (4 + nb) e2].
  Definition whole : re := alt_of (surround front back alts).

  Lemma branches_whole r : In r (branches whole) ->
    exists i l, nth_error alts i = Some l /\
      r = seq_of (prefix_of front i ++ l ++ suffix_of back i (length alts)).
  Proof.
    unfold whole; intros H.
    assert (In r (map seq_of (surround front back alts))) as Hin.
    { pose proof (surround_nth front back alts 0) as H0.
      destruct (surround front back alts) as [|l1 [|l2 m]] eqn:E.
      - cbn in H; exact H.
      - destruct alts as [|l al]; [congruence|]; cbn [nth_error] in H0; injection H0 as ->.
        cbn [alt_of] in H; rewrite seq_of_cat in H by (cbn; lia).
        cbn [branches] in H; cbn [map]; rewrite seq_of_cat by (cbn; lia); exact H.
      - exact H. }
    apply in_map_iff in Hin; destruct Hin as (l' & <- & Hin).
    apply In_nth_error in Hin; destruct Hin as (i & Hi); rewrite surround_nth in Hi.
    destruct (nth_error alts i) as [l|] eqn:El; [|discriminate]; injection Hi as <-.
    exists i, l; auto.
  Qed.

  Lemma alts_nth i l : nth_error alts i = Some l -> Forall (caps_in 2 (2 + nb)) l.
  Proof. intros H; apply nth_error_In in H; rewrite Forall_forall in Halts; apply Halts; exact H. Qed.

  Lemma range_first i x l : Forall (caps_in 2 (2 + nb)) (RCap i x :: l) -> (2 < i <= 2 + nb)%nat.
  Proof. intros H; inversion H as [|y z Hy]; subst; inversion Hy; subst; assumption. Qed.
  Lemma strip_left_range l : Forall (caps_in 2 (2 + nb)) l -> strip_left l = ([], l).
  Proof.
    intros H; unfold strip_left; destruct l as [|r l]; [reflexivity|].
    destruct r as [| | | | | | | |i x| | | | | |]; try reflexivity.
    apply range_first in H; destruct i as [|[|i]]; [reflexivity|lia|reflexivity].
  Qed.
  Lemma strip_right_range l : Forall (caps_in 2 (2 + nb)) l -> strip_right (4 + nb) l = ([], l).
  Proof.
    intros H; unfold strip_right; destruct (rev l) as [|r m] eqn:E; [reflexivity|].
    apply Forall_rev in H; rewrite E in H.
    destruct r as [| | | | | | | |i x| | | | | |]; try reflexivity.
    destruct m as [|r2 m]; [reflexivity|].
    destruct r2 as [| | | | | | | |i2 x2| | | | | |]; try reflexivity.
    apply range_first in H; destruct (Nat.eqb_spec i (4 + nb)); [lia|reflexivity].
  Qed.
  Lemma items_range r : caps_in 2 (2 + nb) r -> Forall (caps_in 2 (2 + nb)) (items r).
  Proof.
    unfold caps_in; rewrite <- recaps_items; generalize (items r); intros l H.
    induction l as [|x l IH]; [constructor|]; cbn [flat_map] in H; apply Forall_app in H; destruct H.
    constructor; [assumption|apply IH; assumption].
  Qed.
  Lemma mentions_range l : Forall (caps_in 2 (2 + nb)) l -> mentions [1; 2; 4 + nb - 1; 4 + nb]%nat l = false.
  Proof.
    intros H; unfold mentions; destruct (existsb _ (flat_map recaps l)) eqn:E; [|reflexivity].
    apply existsb_exists in E; destruct E as (e & Hin & He).
    apply in_flat_map in Hin; destruct Hin as (r & Hr & Hin).
    rewrite Forall_forall in H; specialize (H r Hr); unfold caps_in in H; rewrite Forall_forall in H.
    specialize (H e Hin); apply existsb_exists in He; destruct He as (j & Hj & Ej); apply Nat.eqb_eq in Ej.
    cbn in Hj; destruct Hj as [<-|[<-|[<-|[<-|[]]]]]; lia.
  Qed.
  Lemma no_caps_range r : recaps r = [] -> caps_in 2 (2 + nb) r.
  Proof. unfold caps_in; intros ->; constructor. Qed.

  (** The parts of the alternative number [i]. *)
  Lemma branch_parts i l : nth_error alts i = Some l ->
    let r := seq_of (prefix_of front i ++ l ++ suffix_of back i (length alts)) in
    branch_groups (4 + nb) r = true /\
    left_items r = prefix_of front i /\ right_items (4 + nb) r = suffix_of back i (length alts) /\
    simplify (RCat (core_items (4 + nb) r)) = simplify (RCat l) /\
    (i = O \/ S i = length alts -> core_items (4 + nb) r = l).
  Proof.
    intros Hi r; pose proof (alts_nth _ _ Hi) as Hr.
    pose proof (strip_left_range l Hr) as SL; pose proof (strip_right_range l Hr) as SR.
    assert (forall l', strip_right (4 + nb) (l' ++ back) = ([ta; e2], l')) as SRb.
    { intros l'; unfold strip_right, back; rewrite rev_app_distr; cbn [rev app].
      rewrite !Nat.eqb_refl; cbn [andb]; rewrite rev_involutive; reflexivity. }
    assert (forall l', strip_left (front ++ l') = ([e1; tb], l')) as SLf by reflexivity.
    pose proof (mentions_range l Hr) as ML.
    assert (forall x y, recaps x = [] -> recaps y = [] -> mentions [1; 2; 4 + nb - 1; 4 + nb]%nat [x; y] = false) as M2.
    { intros x y Hx Hy; apply mentions_range; repeat constructor; apply no_caps_range; assumption. }
    subst r; cbv zeta; remember (suffix_of back i (length alts)) as sfx eqn:Esfx.
    remember (prefix_of front i) as pfx eqn:Epfx; unfold suffix_of in Esfx.
    destruct (Nat.eqb_spec (S i) (length alts)) as [Hlast|Hlast]; destruct i as [|i]; cbn [prefix_of] in Epfx; subst sfx pfx; cbn zeta.
    - (* first and last *)
      unfold branch_groups, left_items, right_items, core_items.
      rewrite items_seq by (rewrite !app_length; cbn; lia).
      rewrite SLf; cbn [fst snd]; rewrite SRb; cbn [fst snd].
      split; [|split; [reflexivity|split; [|split; [reflexivity|reflexivity]]]].
      + rewrite !mentions_app, ML, ?M2 by assumption; reflexivity.
      + rewrite app_length; cbn [length back]; replace (length l + 2 - 2)%nat with (length l) by lia.
        rewrite skipn_app, skipn_all, Nat.sub_diag; reflexivity.
    - (* last *)
      rewrite app_nil_l.
      unfold branch_groups, left_items, right_items, core_items.
      rewrite items_seq by (rewrite !app_length; cbn; lia).
      assert (strip_left (l ++ back) = ([], l ++ back)) as SLb.
      { unfold strip_left; destruct l as [|r0 l0]; [reflexivity|]; cbn [app].
        destruct r0 as [| | | | | | | |j x| | | | | |]; try reflexivity.
        apply range_first in Hr; destruct j as [|[|j]]; [reflexivity|lia|reflexivity]. }
      rewrite SLb; cbn [fst snd]; rewrite SRb; cbn [fst snd].
      split; [|split; [reflexivity|split; [|split; [reflexivity|reflexivity]]]].
      + rewrite !mentions_app, ML, ?M2 by assumption; reflexivity.
      + rewrite app_length; cbn [length back]; replace (length l + 2 - 2)%nat with (length l) by lia.
        rewrite skipn_app, skipn_all, Nat.sub_diag; reflexivity.
    - (* first *)
      rewrite app_nil_r; unfold branch_groups, left_items, right_items, core_items.
      rewrite items_seq by (rewrite !app_length; cbn; lia).
      rewrite SLf; cbn [fst snd]; rewrite SR; cbn [fst snd].
      split; [|split; [reflexivity|split; [reflexivity|split; [reflexivity|reflexivity]]]].
      rewrite !mentions_app, ML, ?M2 by assumption; reflexivity.
    - (* in between *)
      rewrite app_nil_l.
      rewrite app_nil_r; unfold branch_groups, left_items, right_items, core_items.
      assert (Forall (caps_in 2 (2 + nb)) (items (seq_of l))) as Hr'.
      { apply items_range; unfold caps_in; rewrite recaps_seq; clear -Hr; induction Hr; [constructor|].
        cbn [flat_map]; apply Forall_app; split; assumption. }
      rewrite (strip_left_range _ Hr'); cbn [fst snd]; rewrite (strip_right_range _ Hr'); cbn [fst snd app].
      split; [rewrite app_nil_r, mentions_range by exact Hr'; reflexivity|].
      split; [reflexivity|]; split; [reflexivity|]; split; [rewrite simplify_items, simplify_seq; reflexivity|].
      intros [E|E]; [discriminate|contradiction].
  Qed.

  Lemma whole_grouped : grouped whole (4 + nb) = true.
  Proof.
    unfold grouped; apply andb_true_iff; split; [reflexivity|]; apply forallb_forall; intros r Hr.
    destruct (branches_whole r Hr) as (i & l & Hi & ->); apply (branch_parts i l Hi).
  Qed.
  Lemma whole_solid r : nullable (simplify (alt_of alts)) = false -> In r (branches whole) ->
    nullable (simplify (RCat (core_items (4 + nb) r))) = false.
  Proof.
    intros Hn Hr; destruct (branches_whole r Hr) as (i & l & Hi & ->).
    destruct (branch_parts i l Hi) as (_ & _ & _ & -> & _).
    apply alts_nullable in Hn; rewrite Forall_forall in Hn; apply Hn; eapply nth_error_In; exact Hi.
  Qed.
End Placed.

Lemma edge_caps c n : recaps (edge_tree c n) = [].
Proof. destruct n as [|[|n]]; cbn [edge_tree]; destruct (c =? 0x5E)%N; reflexivity. Qed.
Lemma look_caps l edge negf t neg : look_parses l edge negf t neg -> recaps t = [].
Proof.
  unfold look_parses; destruct l as [|x|x]; [intros [-> _]; reflexivity| |].
  - destruct edge; [|contradiction]; intros [H _]; destruct (parse_nocap x t O O H) as (_ & Hc & _); exact Hc.
  - destruct edge; intros [-> _]; reflexivity.
Qed.

(** ** The pattern of a source *)

(** [described p s nb tb ta negb nega alts]: [p] is the compiled pattern of the parts [s];
    the body has [nb] groups and the alternatives [alts]. *)
Record described (p : pattern) (s : src) (nb : nat) (tb ta : re) (negb nega : option (list rune * re * nat))
  (alts : list (list re)) : Prop := {
  d_compiled : compiled p;
  d_tree : tree (p_re p) = whole nb (edge_tree 0x5E%N (s_left s)) tb ta (edge_tree 0x24%N (s_right s)) alts;
  d_numcap : numcap (p_re p) = (4 + nb)%nat;
  d_nonnil : alts <> [];
  d_alts : Forall (fun l => Forall (caps_in 2 (2 + nb)) l) alts;
  d_tb : recaps tb = [];
  d_ta : recaps ta = [];
  d_negA : p_negA p = neg_regexp nega;
  d_negB : p_negB p = neg_regexp negb;
  d_negAWidth : p_negAWidth p = neg_width nega;
  d_negBWidth : p_negBWidth p = neg_width negb
}.

Theorem new_pattern_described e macros vars s used rb nb tb ta negb nega :
  e <> [] -> expand_vars (expand_macros e macros) vars = (encode (src_text s), used) ->
  src_ok s -> parse_from 0 (edges (s_body s)) = Ok (rb, nb) ->
  look_parses (s_behind s) (s_left s) neg_behind tb negb ->
  look_parses (s_ahead s) (s_right s) neg_ahead ta nega ->
  exists p alts, new_pattern e macros vars = Ok p /\ p_usedVars p = used /\
    described p s nb tb ta negb nega alts /\ bump 2 rb = alt_of alts /\
    (forall l m, parse_from 0 (edges (s_body s) ++ txt "()") = Ok (RCat l, m) -> alts = [map (bump 2) (removelast l)]).
Proof.
  intros He Ex Hok Hbody Hb Ha.
  destruct (new_pattern_src e macros vars s used rb nb tb ta negb nega He Ex Hok Hbody Hb Ha)
    as (p & alts & Hp & Hn & Hr & Hone & Ht & Hc & HA & HB & HWA & HWB & Hu).
  exists p, alts; split; [exact Hp|]; split; [exact Hu|]; split; [|split; [exact Hr|exact Hone]].
  constructor; try assumption.
  - eapply new_pattern_compiled; exact Hp.
  - apply alts_caps; rewrite <- Hr; pose proof (parse_from_bump 2 _ _ _ Hbody) as H2.
    apply parse_from_caps in H2; apply H2.
  - eapply look_caps; exact Hb.
  - eapply look_caps; exact Ha.
Qed.

Section Described.
  Context (p : pattern) (s : src) (nb : nat) (tb ta : re) (negb nega : option (list rune * re * nat))
    (alts : list (list re)).
  Hypothesis D : described p s nb tb ta negb nega alts.

  Lemma described_grouped : grouped (tree (p_re p)) (numcap (p_re p)) = true.
  Proof.
    rewrite (d_tree _ _ _ _ _ _ _ _ D), (d_numcap _ _ _ _ _ _ _ _ D).
    apply whole_grouped; try apply edge_caps; apply D.
  Qed.
  Lemma described_solid : nullable (simplify (alt_of alts)) = false -> solid p.
  Proof.
    intros Hn r Hr; rewrite (d_tree _ _ _ _ _ _ _ _ D) in Hr; rewrite (d_numcap _ _ _ _ _ _ _ _ D).
    revert Hr; apply whole_solid; try apply edge_caps; try apply D; exact Hn.
  Qed.
End Described.

(** ** What is known of every match *)
Definition match_at (p : pattern) (word : bytes) (m : list Z) : Prop :=
  exists off start stop core, boundary word off /\ 0 <= off < len word /\
    pick_start_stop (raw p word off) = Ok (start, stop) /\ stop <> start /\
    negatives_allow p word (raw p word off) = Ok true /\
    slice (raw p word off) 6 (len (raw p word off) - 4) = Ok core /\ m = start :: stop :: core.

Lemma boundary_step word off u v w :
  boundary word off -> glyphs (skipn (Z.to_nat off) word) = u ++ v ++ w ->
  boundary word (off + Z.of_nat (gwidth u) + Z.of_nat (gwidth v)).
Proof.
  intros (u0 & v0 & Ew & ->) Hg; rewrite Nat2Z.id, (boundary_skipn _ _ _ Ew) in Hg; subst v0.
  exists (u0 ++ u ++ v), w; split; [rewrite Ew, <- !app_assoc; reflexivity|rewrite !gwidth_app; lia].
Qed.

Section Each.
  Context (p : pattern) (word : bytes).
  Hypothesis Hcomp : compiled p.
  Hypothesis Hgroup : grouped (tree (p_re p)) (numcap (p_re p)) = true.

  Lemma find_loop_each n fuel off acc ms :
    boundary word off -> Forall (match_at p word) acc -> find_loop fuel p word n off acc = Ok ms ->
    Forall (match_at p word) ms.
  Proof.
    revert off acc; induction fuel as [|fuel IH]; intros off acc Hb Hacc H; [discriminate|].
    pose proof (boundary_le _ _ Hb) as Hle; cbn [find_loop] in H.
    destruct ((off <? len word) && ((n <? 0) || (len acc <? n))) eqn:E.
    2:{ injection H as <-; apply Forall_rev; exact Hacc. }
    destruct (slice word off (len word)) as [rest| | | | |] eqn:Es; cbn [bind] in H; try discriminate.
    apply slice_tail in Es; destruct Es as [Ho ->].
    change (shift off (find_submatch_index (p_re p) (skipn (Z.to_nat off) word))) with (raw p word off) in H.
    destruct (len (raw p word off) =? 0) eqn:E0; [injection H as <-; apply Forall_rev; exact Hacc|].
    destruct (len (raw p word off) <? 10) eqn:E10; [discriminate|].
    destruct (pick_start_stop (raw p word off)) as [[start stop]| | | | |] eqn:Ep; cbn [bind] in H; try discriminate.
    destruct (stop - start =? 0) eqn:Ez; [discriminate|].
    destruct (search (prog (p_re p)) (glyphs (skipn (Z.to_nat off) word)) 0) as [[[a b] c]|] eqn:Hs.
    2:{ rewrite (raw_miss _ _ _ Hs) in E0; discriminate. }
    destruct (grouped_pick p word Hcomp Hgroup off a b c ltac:(lia) Hs) as (u & v & w & Eg & Ep' & _).
    rewrite Ep in Ep'; injection Ep' as E1 E2.
    assert (boundary word stop) as Hstop by (rewrite E2; eapply boundary_step; eassumption).
    destruct (negatives_allow p word (raw p word off)) as [ok| | | | |] eqn:Ea; cbn [bind] in H; try discriminate.
    destruct ok.
    - destruct (slice (raw p word off) 6 (len (raw p word off) - 4)) as [core| | | | |] eqn:Ec;
        cbn [bind] in H; try discriminate.
      eapply IH; [exact Hstop| |exact H]; constructor; [|exact Hacc].
      exists off, start, stop, core; repeat split; try assumption; lia.
    - eapply IH; [exact Hstop|exact Hacc|exact H].
  Qed.
  Lemma find_each n ms : find p word n = Ok ms -> Forall (match_at p word) ms.
  Proof.
    unfold find; intros H; destruct (find_loop _ p word n 0 []) as [ms'| | | | |] eqn:E; try discriminate.
    injection H as ->; revert E; apply find_loop_each; [|constructor].
    exists [], (glyphs word); split; [reflexivity|rewrite gwidth_nil; reflexivity].
  Qed.
End Each.


Lemma pick_cases p word off a b c start stop :
  search (prog (p_re p)) (glyphs (skipn (Z.to_nat off) word)) 0 = Some (a, b, c) -> (4 <= numcap (p_re p))%nat -> 0 <= off ->
  pick_start_stop (raw p word off) = Ok (start, stop) ->
  (cap_lookup c 2 <> None -> index (raw p word off) 5 = Ok start) /\
  (cap_lookup c (numcap (p_re p) - 1) <> None -> index (raw p word off) (len (raw p word off) - 4) = Ok stop).
Proof.
  intros Hs Hn Hoff Hp.
  pose proof (raw_index p word off a b c Hs 2 ltac:(lia)) as [_ H5].
  pose proof (raw_index p word off a b c Hs 0 ltac:(lia)) as [H0 H1].
  pose proof (raw_index p word off a b c Hs (numcap (p_re p) - 1) ltac:(lia)) as [H4 _].
  pose proof (raw_len p word off a b c Hs) as Hlen.
  change (2 * Z.of_nat 2 + 1) with 5 in H5; change (2 * Z.of_nat 0) with 0 in H0.
  change (2 * Z.of_nat 0 + 1) with 1 in H1.
  replace (2 * Z.of_nat (numcap (p_re p) - 1)) with (len (raw p word off) - 4) in H4 by lia.
  unfold pick_start_stop in Hp; rewrite H5, H4, H0, H1 in Hp; cbn [bind] in Hp; rewrite H5, H4; clear H5 H4 H0 H1.
  assert (group_at (a, b) c 2 = cap_at c 2) as E2 by reflexivity.
  assert (group_at (a, b) c (numcap (p_re p) - 1) = cap_at c (numcap (p_re p) - 1)) as E4.
  { destruct (numcap (p_re p) - 1)%nat eqn:E; [lia|reflexivity]. }
  rewrite E2, E4 in *; clear E2 E4; cbn [group_at fst snd] in Hp; unfold cap_at in *.
  destruct (cap_lookup c 2) as [[g1 g2]|]; destruct (cap_lookup c (numcap (p_re p) - 1)) as [[h1 h2]|];
    cbn [fst snd] in *; rewrite ?off_by_nat in *;
    repeat match type of Hp with context [?x =? -1] => destruct (x =? -1) eqn:?; [lia|] end;
    cbn [bind] in Hp; injection Hp as <- <-; split; intros Hne; try congruence; reflexivity.
Qed.

Lemma glyphs_wide s : wide (glyphs s).
Proof. exact (glyphs_width_pos s). Qed.

(** A sequence that ran matches. *)
Lemma seq_rmatch l u s' p c p' c' pre :
  wide (u ++ s') -> at_start pre p -> runs_seq l (u ++ s') p c s' p' c' ->
  rmatch (RCat l) pre (runes_of u) (runes_of s').
Proof. intros Hw Ha H; apply runs_cat in H; eapply (proj1 (means_simplify (RCat l))); eassumption. Qed.

(** The test of a negative lookaround on the bytes from [start] to [stop]. *)
Definition passes (e : option regexp) (word : bytes) (start stop : Z) : Prop :=
  match e with None => True | Some e => match_string e (substr word start stop) = false end.

Section One.
  Context (p : pattern) (s : src) (nb : nat) (tb ta : re) (nbk nega : option (list rune * re * nat)) (l : list re).
  Hypothesis D : described p s nb tb ta nbk nega [l].

  (** What a search from [off] finds. *)
  Lemma described_raw_at word off start stop : boundary word off -> 0 <= off < len word ->
    pick_start_stop (raw p word off) = Ok (start, stop) ->
    exists P u0 u1 v w1 w2,
      glyphs word = P ++ u0 ++ u1 ++ v ++ w1 ++ w2 /\ Z.of_nat (gwidth P) = off /\
      Z.of_nat (gwidth (P ++ u0 ++ u1)) = start /\ Z.of_nat (gwidth (P ++ u0 ++ u1 ++ v)) = stop /\
      rmatch (RCat [edge_tree 0x5E%N (s_left s); tb]) (runes_of u0) (runes_of u1) (runes_of (v ++ w1 ++ w2)) /\
      rmatch (RCat l) (runes_of (u0 ++ u1)) (runes_of v) (runes_of (w1 ++ w2)) /\
      rmatch (RCat [ta; edge_tree 0x24%N (s_right s)]) (runes_of (u0 ++ u1 ++ v)) (runes_of w1) (runes_of w2) /\
      index (raw p word off) 5 = Ok start /\ index (raw p word off) (len (raw p word off) - 4) = Ok stop /\
      forall a b c, search (prog (p_re p)) (glyphs (skipn (Z.to_nat off) word)) 0 = Some (a, b, c) -> a = gwidth u0.
  Proof.
    intros Hb Ho Hp; pose proof (described_grouped _ _ _ _ _ _ _ _ D) as Hg.
    pose proof (d_compiled _ _ _ _ _ _ _ _ D) as Hc.
    destruct (search (prog (p_re p)) (glyphs (skipn (Z.to_nat off) word)) 0) as [[[a b] c]|] eqn:Hs.
    2:{ rewrite (raw_miss _ _ _ Hs) in Hp; discriminate. }
    destruct (grouped_pick_at p word Hc Hg off a b c ltac:(lia) Hs)
      as (u & v & w & Eg & Hp' & r & u0 & u1 & w1 & w2 & c1 & c2 & -> & -> & Hr & _ & R1 & R2 & R3 & Ea).
    rewrite Hp in Hp'; injection Hp' as Est Esp.
    pose proof (d_numcap _ _ _ _ _ _ _ _ D) as Hn.
    rewrite (d_tree _ _ _ _ _ _ _ _ D) in Hr.
    destruct (branches_whole nb _ _ _ _ _ ltac:(apply D) ltac:(apply D) r Hr) as (i & l' & Hi & ->).
    assert (i = O /\ l' = l) as [-> ->].
    { destruct i as [|[|i]]; [injection Hi as ->; auto|discriminate|discriminate]. }
    destruct (branch_parts nb (edge_tree 0x5E%N (s_left s)) tb ta (edge_tree 0x24%N (s_right s)) [l]
                (d_tb _ _ _ _ _ _ _ _ D) (d_ta _ _ _ _ _ _ _ _ D) (edge_caps _ _) (edge_caps _ _)
                (d_alts _ _ _ _ _ _ _ _ D) O l eq_refl) as (_ & EL & ER & _ & EC).
    rewrite Hn, EC in R2 by (left; reflexivity); rewrite Hn, ER in R3; rewrite EL in R1; clear EL ER EC.
    cbn [prefix_of suffix_of length Nat.eqb] in R1, R3.
    assert (must_cap 2 (tree (p_re p)) = true /\ must_cap (numcap (p_re p) - 1) (tree (p_re p)) = true) as [M2 M4].
    { rewrite Hn, (d_tree _ _ _ _ _ _ _ _ D); unfold whole, surround; cbn [append_last alt_of].
      rewrite seq_of_cat by (rewrite !app_length; cbn; lia); cbn [must_cap]; rewrite !existsb_app.
      cbn [front back existsb must_cap]; replace (4 + nb - 1)%nat with (3 + nb)%nat by lia.
      rewrite !Nat.eqb_refl; cbn [orb]; rewrite ?orb_true_r; split; reflexivity. }
    destruct (search_sound _ _ _ _ _ _ Hs) as (x0 & x1 & x2 & _ & _ & _ & Hrun); rewrite Hc in Hrun.
    destruct (pick_cases p word off a b c start stop Hs ltac:(lia) ltac:(lia) Hp) as [P5 P4].
    specialize (P5 (must_cap_sound _ _ _ _ _ _ _ _ M2 Hrun)); specialize (P4 (must_cap_sound _ _ _ _ _ _ _ _ M4 Hrun)).
    destruct Hb as (P & R & Ew & Eoff).
    rewrite Eoff, Nat2Z.id, (boundary_skipn _ _ _ Ew) in Eg; subst R; rewrite <- !app_assoc in Ew.
    exists P, u0, u1, v, w1, w2; split; [exact Ew|]; split; [symmetry; exact Eoff|].
    split; [rewrite Est, Eoff, !gwidth_app; lia|].
    split; [rewrite Esp, Eoff, !gwidth_app; lia|].
    pose proof (glyphs_wide word) as Hw; rewrite Ew in Hw; apply wide_app in Hw; destruct Hw as [_ Hw].
    pose proof Hw as Hw'; apply wide_app in Hw'; destruct Hw' as [Hw0 Hw1].
    pose proof Hw1 as Hw''; apply wide_app in Hw''; destruct Hw'' as [Hwu Hwv].
    pose proof Hwv as Hw''; apply wide_app in Hw''; destruct Hw'' as [Hwv' Hww].
    assert (at_start (@nil rune) 0) as A0 by (split; reflexivity).
    pose proof (at_start_app _ _ _ A0 Hw0) as A1; cbn [app Nat.add] in A1.
    pose proof (at_start_app _ _ _ A1 Hwu) as A2; rewrite <- runes_of_app, <- gwidth_app in A2.
    pose proof (at_start_app _ _ _ A2 Hwv') as A3; rewrite <- runes_of_app, <- app_assoc in A3.
    split; [|split; [|split; [|split; [assumption|split; [assumption|]]]]].
    - pose proof (seq_rmatch _ _ _ _ _ _ _ _ Hw1 A1 R1) as H.
      clear -H; inversion H as [| | | | | | | | | | | | | | |r' l' pre x y post H1 H2|]; subst.
      inversion H2 as [| | | | | | | | | | | | | | |r' l' pre x' y' post H3 H4|]; subst.
      inversion H4; subst; inversion H1; subst; inversion H3; subst.
      econstructor; [eassumption|]; econstructor; [eassumption|constructor].
    - eapply seq_rmatch; [exact Hwv|exact A2|exact R2].
    - pose proof (seq_rmatch _ _ _ _ _ _ _ _ Hww A3 R3) as H.
      clear -H; inversion H as [| | | | | | | | | | | | | | |r' l' pre x y post H1 H2|]; subst.
      inversion H2 as [| | | | | | | | | | | | | | |r' l' pre x' y' post H3 H4|]; subst.
      inversion H4; subst; inversion H1; subst; inversion H3; subst.
      econstructor; [eassumption|]; econstructor; [eassumption|constructor].
    - intros a' b' c' E; congruence.
  Qed.

  Lemma described_raw word off start stop : boundary word off -> 0 <= off < len word ->
    pick_start_stop (raw p word off) = Ok (start, stop) ->
    exists P u0 u1 v w1 w2,
      glyphs word = P ++ u0 ++ u1 ++ v ++ w1 ++ w2 /\ Z.of_nat (gwidth P) = off /\
      Z.of_nat (gwidth (P ++ u0 ++ u1)) = start /\ Z.of_nat (gwidth (P ++ u0 ++ u1 ++ v)) = stop /\
      rmatch (RCat [edge_tree 0x5E%N (s_left s); tb]) (runes_of u0) (runes_of u1) (runes_of (v ++ w1 ++ w2)) /\
      rmatch (RCat l) (runes_of (u0 ++ u1)) (runes_of v) (runes_of (w1 ++ w2)) /\
      rmatch (RCat [ta; edge_tree 0x24%N (s_right s)]) (runes_of (u0 ++ u1 ++ v)) (runes_of w1) (runes_of w2) /\
      index (raw p word off) 5 = Ok start /\ index (raw p word off) (len (raw p word off) - 4) = Ok stop.
  Proof.
    intros Hb Ho Hp; destruct (described_raw_at word off start stop Hb Ho Hp)
      as (P & u0 & u1 & v & w1 & w2 & Ew & Eoff & Est & Esp & R1 & R2 & R3 & P5 & P4 & _).
    exists P, u0, u1, v, w1, w2; auto 12.
  Qed.

  Lemma described_match word n ms m : find p word n = Ok ms -> In m ms ->
    exists P u0 u1 v w1 w2 core,
      glyphs word = P ++ u0 ++ u1 ++ v ++ w1 ++ w2 /\ v <> [] /\
      let start := Z.of_nat (gwidth (P ++ u0 ++ u1)) in
      let stop := Z.of_nat (gwidth (P ++ u0 ++ u1 ++ v)) in
      m = start :: stop :: core /\
      rmatch (RCat [edge_tree 0x5E%N (s_left s); tb]) (runes_of u0) (runes_of u1) (runes_of (v ++ w1 ++ w2)) /\
      rmatch (RCat l) (runes_of (u0 ++ u1)) (runes_of v) (runes_of (w1 ++ w2)) /\
      rmatch (RCat [ta; edge_tree 0x24%N (s_right s)]) (runes_of (u0 ++ u1 ++ v)) (runes_of w1) (runes_of w2) /\
      passes (p_negA p) word stop (if p_negAWidth p =? -1 then len word else stop + p_negAWidth p) /\
      passes (p_negB p) word (if p_negBWidth p =? -1 then 0 else start - p_negBWidth p) start.
  Proof.
    intros Hf Hin; pose proof (described_grouped _ _ _ _ _ _ _ _ D) as Hg.
    pose proof (d_compiled _ _ _ _ _ _ _ _ D) as Hc.
    pose proof (find_each p word Hc Hg n ms Hf) as Hall; rewrite Forall_forall in Hall.
    destruct (Hall m Hin) as (off & start & stop & core & Hb & Ho & Hp & Hne & Hneg & Hcore & ->).
    destruct (described_raw word off start stop Hb Ho Hp)
      as (P & u0 & u1 & v & w1 & w2 & Ew & Eoff & Est & Esp & R1 & R2 & R3 & P5 & P4).
    exists P, u0, u1, v, w1, w2, core; split; [exact Ew|].
    split; [intros ->; rewrite app_nil_r in Esp; congruence|]; cbv zeta; rewrite Est, Esp.
    split; [reflexivity|]; split; [exact R1|]; split; [exact R2|]; split; [exact R3|].
    unfold negatives_allow in Hneg; rewrite P4, P5 in Hneg; cbn [bind] in Hneg.
      unfold passes; destruct (p_negA p) as [ea|]; cbn [bind] in Hneg.
      + destruct (match_string ea _) eqn:Ea in Hneg; cbn [negb] in Hneg; [discriminate|]; split; [exact Ea|].
        destruct (p_negB p) as [eb|]; [|exact I].
        injection Hneg as Hneg; apply negb_true_iff in Hneg; exact Hneg.
      + split; [exact I|]; destruct (p_negB p) as [eb|]; [|exact I].
        injection Hneg as Hneg; apply negb_true_iff in Hneg; exact Hneg.
  Qed.
End One.

(** ** Numbers of groups do not matter to what matches *)
Lemma simplify_rmatch r r' a b d : simplify r = simplify r' -> rmatch r a b d -> rmatch r' a b d.
Proof.
  intros E H; pose (t := fun l : list rune => map (fun x : rune => (x, 1%nat)) l).
  assert (forall l, runes_of (t l) = l) as Er by (intros l; unfold t, runes_of; rewrite map_map; apply map_id).
  assert (forall l, wide (t l)) as Hw by (intros l; unfold t, wide; apply Forall_map, Forall_forall; intros; cbn; lia).
  assert (at_start a (length a)) as Ha by (destruct a; split; intros; try reflexivity; discriminate).
  assert (wide (t b ++ t d)) as Hbd by (apply Forall_app; split; apply Hw).
  destruct (proj2 (means_simplify r) (t b) (t d) (length a) a Hbd Ha ltac:(rewrite !Er; exact H) []) as (c' & Hr).
  rewrite E in Hr; pose proof (proj1 (means_simplify r') (t b) (t d) _ _ _ _ a Hbd Ha Hr) as H'.
  rewrite !Er in H'; exact H'.
Qed.

Lemma rmatch_bump k r a b d : rmatch (bump k r) a b d -> rmatch r a b d.
Proof.
  intros H; remember (bump k r) as r0 eqn:E; revert r E; induction H; intros r0 E; 
    destruct r0; cbn [bump] in E; try discriminate E; inversion E; subst; clear E; try (econstructor; eauto; fail).
  - eapply M_repeat; [eassumption|eassumption|]; apply (IHrmatch (RCat (repeat r0 n))); cbn [bump].
    f_equal; clear; induction n as [|n IH]; [reflexivity|cbn [repeat map]; f_equal; exact IH].
  - destruct l; [constructor|discriminate].
  - match goal with E : _ :: _ = map (bump k) ?L |- _ => destruct L as [|r1 l1]; [discriminate|]; injection E as -> -> end.
    econstructor; [apply IHrmatch1; reflexivity|apply (IHrmatch2 (RCat l1)); reflexivity].
  - match goal with Hin : In _ (map (bump k) _) |- _ => apply in_map_iff in Hin; destruct Hin as (r1 & <- & Hin1) end.
    eapply M_alt; [exact Hin1|apply IHrmatch; reflexivity].
Qed.

Lemma rmatch_alts alts l a b d : In l alts -> rmatch (RCat l) a b d -> rmatch (alt_of alts) a b d.
Proof.
  intros Hin H.
  assert (rmatch (seq_of l) a b d) as Hs by (eapply simplify_rmatch; [symmetry; apply simplify_seq|exact H]).
  destruct alts as [|l1 [|l2 alts]]; [contradiction| |].
  - destruct Hin as [->|[]]; exact Hs.
  - apply M_alt with (r := seq_of l); [|exact Hs]; apply (in_map seq_of (l1 :: l2 :: alts)); exact Hin.
Qed.

Lemma described_emptied p s nb tb ta nbk nega alts :
  described p s nb tb ta nbk nega alts -> emptied p -> exists pre post, rmatch (alt_of alts) pre [] post.
Proof.
  intros D (r & pre & post & Hin & Hm); exists pre, post.
  rewrite (d_tree _ _ _ _ _ _ _ _ D) in Hin; rewrite (d_numcap _ _ _ _ _ _ _ _ D) in Hm.
  destruct (branches_whole nb _ _ _ _ _ ltac:(apply D) ltac:(apply D) r Hin) as (i & l & Hi & ->).
  destruct (branch_parts nb (edge_tree 0x5E%N (s_left s)) tb ta (edge_tree 0x24%N (s_right s)) alts
              (d_tb _ _ _ _ _ _ _ _ D) (d_ta _ _ _ _ _ _ _ _ D) (edge_caps _ _) (edge_caps _ _)
              (d_alts _ _ _ _ _ _ _ _ D) i l Hi) as (_ & _ & _ & E & _).
  eapply rmatch_alts; [eapply nth_error_In; exact Hi|]; eapply simplify_rmatch; [exact E|exact Hm].
Qed.

(** ** Sources whose pieces are expressions on their own *)
Definition look_balanced (l : look) (negf : list rune -> list rune) : Prop :=
  match l with
  | NoLook => True
  | Pos x => exists t, parse_from 0 (edges (nocap x)) = Ok (t, O)
  | Neg x => exists r n, parse_from 0 (negf x) = Ok (r, n)
  end.
Record balanced (s : src) (rb : re) (nb : nat) : Prop := {
  bal_ok : src_ok s;
  bal_body : parse_from 0 (edges (s_body s)) = Ok (rb, nb);
  bal_behind : look_balanced (s_behind s) neg_behind;
  bal_ahead : look_balanced (s_ahead s) neg_ahead
}.

(** A positive lookaround next to an edge. *)
Definition contradictory (l : look) (edge : nat) : bool := match l, edge with Pos _, S _ => true | _, _ => false end.

Lemma look_balanced_parses l edge negf : look_balanced l negf -> contradictory l edge = false ->
  exists t neg, look_parses l edge negf t neg.
Proof.
  unfold look_parses; destruct l as [|x|x]; cbn [look_balanced contradictory].
  - intros _ _; exists REmpty, None; auto.
  - intros (t & Ht) H; destruct edge; [|discriminate]; exists t, None; auto.
  - intros (r & n & H) _; destruct edge; [exists REmpty, (Some (negf x, r, n)); eauto|exists REmpty, None; auto].
Qed.

(** An expression that asks for a character before the beginning finds nothing. *)
Lemma never_found p word n :
  compiled p -> (forall a b d, ~ rmatch (tree (p_re p)) a b d) -> find p word n = Ok [].
Proof.
  intros Hc Hno.
  assert (forall off, raw p word off = []) as Hraw.
  { intros off; apply raw_miss.
    destruct (search (prog (p_re p)) (glyphs (skipn (Z.to_nat off) word)) 0) as [[[a b] c]|] eqn:Hs; [|reflexivity].
    exfalso; destruct (search_sound _ _ _ _ _ _ Hs) as (u & v & w & Eg & Ea & Eb & Hr).
    rewrite Hc in Hr; pose proof (glyphs_wide (skipn (Z.to_nat off) word)) as Hw; rewrite Eg in Hw.
    apply wide_app in Hw; destruct Hw as [Hwu Hww].
    apply (Hno (runes_of u) (runes_of v) (runes_of w)); eapply (proj1 (means_simplify _)); [exact Hww| |exact Hr].
    subst a; refine (at_start_app [] 0 u _ Hwu); split; reflexivity. }
  unfold find; cbn [find_loop].
  destruct ((0 <? len word) && ((n <? 0) || (len (@nil (list Z)) <? n))) eqn:E; [|reflexivity].
  assert (slice word 0 (len word) = Ok word) as ->.
  { unfold slice; replace ((0 <=? 0) && (0 <=? len word) && (len word <=? len word)) with true by lia.
    cbn [Z.to_nat skipn]; f_equal; apply firstn_all2; unfold len; lia. }
  cbn [bind]; change (shift 0 (find_submatch_index (p_re p) word)) with (raw p word 0); rewrite Hraw; reflexivity.
Qed.

Lemma never_here l a b d : ~ rmatch (RCat (l ++ [RAnyNotNL; RBegin])) a b d.
Proof.
  revert a b; induction l as [|r l IH]; intros a b H; cbn [app] in H.
  - inversion H as [| | | | | | | | | | | | | | |r l pre x y post H1 H2|]; subst; clear H.
    inversion H1; subst; clear H1.
    inversion H2 as [| | | | | | | | | | | | | | |r l pre x y' post H3 H4|]; subst; clear H2.
    remember (a ++ [c]) as q eqn:Eq; inversion H3; subst.
    match goal with E : [] = a ++ [c] |- _ => symmetry in E; apply app_eq_nil in E; destruct E; discriminate end.
  - inversion H as [| | | | | | | | | | | | | | |r' l' pre x y post H1 H2|]; subst; exact (IH _ _ H2).
Qed.

Lemma new_pattern_dissolved e macros vars used t x na nb_ wa wb p :
  e <> [] -> expand_vars (expand_macros e macros) vars = (t, used) ->
  expand_lookaround t = Ok (x, na, nb_, wa, wb) -> new_pattern e macros vars = Ok p ->
  compile_re (expand_edges x) = Ok (p_re p).
Proof.
  intros He Ex El Hp; unfold new_pattern in Hp; destruct e as [|e0 e]; [congruence|].
  rewrite Ex, El in Hp; cbn [bind] in Hp.
  destruct (compile_re (expand_edges x)) as [y| | | | |]; cbn [bind] in Hp; try discriminate.
  destruct (compile_opt na); cbn [bind] in Hp; try discriminate.
  destruct (compile_opt nb_); cbn [bind] in Hp; try discriminate.
  assert (forall (a b : pattern), Ok a = Ok b -> a = b) as Hinj by (intros ? ? H; injection H; auto).
  apply Hinj in Hp; subst p; reflexivity.
Qed.

(** Patterns with a positive lookaround next to an edge are found nowhere. *)
Theorem contradictory_find e macros vars s used rb nb p word n :
  e <> [] -> expand_vars (expand_macros e macros) vars = (encode (src_text s), used) -> balanced s rb nb ->
  contradictory (s_behind s) (s_left s) || contradictory (s_ahead s) (s_right s) = true ->
  new_pattern e macros vars = Ok p -> find p word n = Ok [].
Proof.
  intros He Ex B Hc Hp; apply never_found; [eapply new_pattern_compiled; exact Hp|].
  pose proof (expand_lookaround_src s (bal_ok _ _ _ B)) as El.
  assert (forall x y, compile_re (expand_edges x) = Ok (p_re p) ->
            (forall z, compile_re (expand_edges x) = Ok z -> tree z = RCat (y ++ [RAnyNotNL; RBegin])) ->
            forall a b d, ~ rmatch (tree (p_re p)) a b d) as Hfin.
  { intros x y Hx Hy a b d; rewrite (Hy _ Hx); apply never_here. }
  assert (forall z, compile_re (expand_edges (encode paradox_text)) = Ok z -> tree z = RCat ([] ++ [RAnyNotNL; RBegin])) as T1.
  { intros z Hz; vm_compute in Hz; injection Hz as <-; reflexivity. }
  assert (forall z, compile_re (expand_edges (encode (txt "()()" ++ paradox_text))) = Ok z ->
            tree z = RCat ([RCap 1 REmpty; RCap 2 REmpty] ++ [RAnyNotNL; RBegin])) as T2.
  { intros z Hz; vm_compute in Hz; injection Hz as <-; reflexivity. }
  destruct (contradictory (s_ahead s) (s_right s)) eqn:Ca.
  - destruct (s_ahead s) as [|x|x]; try discriminate Ca; destruct (s_right s) as [|k]; [discriminate|].
    cbn [dissolved bind] in El; eapply Hfin; [|exact T2].
    exact (new_pattern_dissolved _ _ _ _ _ _ _ _ _ _ _ He Ex El Hp).
  - rewrite orb_false_r in Hc.
    destruct (look_balanced_parses _ _ _ (bal_ahead _ _ _ B) Ca) as (ta & nega & La).
    destruct (look_parses_dissolved _ _ _ _ _ (ok_ahead _ (bal_ok _ _ _ B)) neg_ahead_scalars ltac:(discriminate) La)
      as (xa & Da & _); rewrite Da in El; cbn [bind] in El.
    destruct (s_behind s) as [|x|x]; try discriminate Hc; destruct (s_left s) as [|k]; [discriminate|].
    cbn [dissolved bind] in El; eapply Hfin; [|exact T1].
    exact (new_pattern_dissolved _ _ _ _ _ _ _ _ _ _ _ He Ex El Hp).
Qed.

(** Patterns without such a contradiction are accepted. *)
Theorem balanced_accepted e macros vars s used rb nb :
  e <> [] -> expand_vars (expand_macros e macros) vars = (encode (src_text s), used) -> balanced s rb nb ->
  contradictory (s_behind s) (s_left s) || contradictory (s_ahead s) (s_right s) = false ->
  exists p alts tb ta nbk nega, new_pattern e macros vars = Ok p /\ p_usedVars p = used /\
    look_parses (s_behind s) (s_left s) neg_behind tb nbk /\
    look_parses (s_ahead s) (s_right s) neg_ahead ta nega /\
    described p s nb tb ta nbk nega alts /\ bump 2 rb = alt_of alts /\
    (forall l m, parse_from 0 (edges (s_body s) ++ txt "()") = Ok (RCat l, m) -> alts = [map (bump 2) (removelast l)]).
Proof.
  intros He Ex B Hc; apply orb_false_iff in Hc; destruct Hc as [Cb Ca].
  destruct (look_balanced_parses _ _ _ (bal_ahead _ _ _ B) Ca) as (ta & nega & La).
  destruct (look_balanced_parses _ _ _ (bal_behind _ _ _ B) Cb) as (tb & nbk & Lb).
  destruct (new_pattern_described e macros vars s used rb nb tb ta nbk nega He Ex (bal_ok _ _ _ B) (bal_body _ _ _ B) Lb La)
    as (p & alts & Hp & Hu & D & Hr & Hone).
  exists p, alts, tb, ta, nbk, nega; auto 8.
Qed.

Theorem balanced_find e macros vars s used rb nb p word n :
  e <> [] -> expand_vars (expand_macros e macros) vars = (encode (src_text s), used) -> balanced s rb nb ->
  new_pattern e macros vars = Ok p ->
  (exists ms, find p word n = Ok ms /\ ordered word 0 ms) \/
  (find p word n = Panic PZeroWidth /\ exists pre post, rmatch rb pre [] post).
Proof.
  intros He Ex B Hp.
  destruct (contradictory (s_behind s) (s_left s) || contradictory (s_ahead s) (s_right s)) eqn:Hc.
  { left; exists []; split; [eapply contradictory_find; eassumption|constructor]. }
  destruct (balanced_accepted e macros vars s used rb nb He Ex B Hc)
    as (p' & alts & tb & ta & nbk & nega & Hp' & _ & _ & _ & D & Hr & _).
  rewrite Hp in Hp'; assert (p' = p) as -> by (apply (f_equal (fun r => match r with Ok x => x | _ => p end)) in Hp'; auto).
  destruct (find_grouped p word (d_compiled _ _ _ _ _ _ _ _ D) (described_grouped _ _ _ _ _ _ _ _ D) n) as [H|[H E]];
    [left; exact H|right; split; [exact H|]].
  destruct (described_emptied _ _ _ _ _ _ _ _ D E) as (pre & post & Hm); exists pre, post.
  rewrite <- Hr in Hm; eapply rmatch_bump; exact Hm.
Qed.
