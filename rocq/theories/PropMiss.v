(** C69: an expression finds everything that it describes. *)
From Coq Require Import String Lia.
From Verif Require Import GoBase Utf8 Utf8Facts LettersFacts Replacer Regex RegexSpec RegexFacts CaptureFacts RegexParse
  ParseFacts Hre FindFacts SourceFacts PatternFacts SrcFacts FindSrc LookFacts PropFind PropSyntax PropPattern.
Open Scope Z_scope.

(** ** What is to be found

    A match has five parts: what is before it, what its left edge or lookbehind takes, the
    match itself, what its lookahead or right edge takes, and what is after it. The edges and
    lookarounds mean [L] and [R], the body means [B]. *)
Definition fits (L B R : lang) (t u0 u1 v w1 w2 : list rune) : Prop :=
  t = u0 ++ u1 ++ v ++ w1 ++ w2 /\
  L u0 u1 (v ++ w1 ++ w2) /\ B (u0 ++ u1) v (w1 ++ w2) /\ R (u0 ++ u1 ++ v) w1 w2.

(** [covers L B R ok before t ms]: the matches [ms] are all that there is to find in [t], which
    is what is left of the word after [before]. Each one is the leftmost in what the one before
    it has left; those that [ok] does not allow are passed over. *)
Inductive covers (L B R : lang) (ok : list rune -> list rune -> list rune -> Prop) :
  list rune -> list rune -> list (list Z) -> Prop :=
| cv_end before t : (forall u0 u1 v w1 w2, fits L B R t u0 u1 v w1 w2 -> v = []) -> covers L B R ok before t []
| cv_match before t u0 u1 v w1 w2 groups ms :
    fits L B R t u0 u1 v w1 w2 -> v <> [] ->
    (forall u0' u1' v' w1' w2', fits L B R t u0' u1' v' w1' w2' -> (length u0 <= length u0')%nat) ->
    ok (before ++ u0 ++ u1) v (w1 ++ w2) ->
    covers L B R ok (before ++ u0 ++ u1 ++ v) (w1 ++ w2) ms ->
    covers L B R ok before t
      ((len (encode (before ++ u0 ++ u1)) :: len (encode (before ++ u0 ++ u1 ++ v)) :: groups) :: ms)
| cv_pass before t u0 u1 v w1 w2 ms :
    fits L B R t u0 u1 v w1 w2 -> v <> [] ->
    (forall u0' u1' v' w1' w2', fits L B R t u0' u1' v' w1' w2' -> (length u0 <= length u0')%nat) ->
    ~ ok (before ++ u0 ++ u1) v (w1 ++ w2) ->
    covers L B R ok (before ++ u0 ++ u1 ++ v) (w1 ++ w2) ms ->
    covers L B R ok before t ms.

(** ** The search *)
Lemma skipn_app_exact {A} (a b : list A) : skipn (length a) (a ++ b) = b.
Proof. rewrite skipn_app, skipn_all, Nat.sub_diag; reflexivity. Qed.
Lemma app_inv_length {A} (a b a' b' : list A) : a ++ b = a' ++ b' -> length a = length a' -> a = a' /\ b = b'.
Proof.
  revert a'; induction a as [|x a IH]; intros [|x' a'] E H; try discriminate; [auto|].
  injection E as -> E; injection H as H; destruct (IH _ E H) as [-> ->]; auto.
Qed.
Lemma rmatch_app l l' a x y d : rmatch (RCat l) a x (y ++ d) -> rmatch (RCat l') (a ++ x) y d -> rmatch (RCat (l ++ l')) a (x ++ y) d.
Proof.
  revert a x; induction l as [|r l IH]; intros a x H H'.
  - inversion H; subst; rewrite app_nil_r in H'; exact H'.
  - inversion H as [| | | | | | | | | | | | | | |r' l0 pre x1 x2 post H1 H2|]; subst.
    cbn [app]; rewrite <- app_assoc; constructor; [rewrite <- app_assoc; exact H1|apply IH; [exact H2|rewrite <- app_assoc; exact H']].
Qed.

Section Found.
  Context (p : pattern) (s : src) (nb : nat) (tb ta : re) (nbk nega : option (list rune * re * nat)) (l : list re).
  Hypothesis D : described p s nb tb ta nbk nega [l].
  Let LT := rmatch (RCat [edge_tree 0x5E%N (s_left s); tb]).
  Let BT := rmatch (RCat l).
  Let RT := rmatch (RCat [ta; edge_tree 0x24%N (s_right s)]).

  Lemma whole_rmatch u0 u1 v w1 w2 :
    LT u0 u1 (v ++ w1 ++ w2) -> BT (u0 ++ u1) v (w1 ++ w2) -> RT (u0 ++ u1 ++ v) w1 w2 ->
    rmatch (tree (p_re p)) u0 (u1 ++ v ++ w1) w2.
  Proof.
    unfold LT, BT, RT; intros H1 H2 H3.
    rewrite (d_tree _ _ _ _ _ _ _ _ D); unfold whole, surround; cbn [append_last alt_of].
    rewrite seq_of_cat by (rewrite !app_length; cbn; lia); rewrite <- app_assoc.
    apply rmatch_app; [|apply rmatch_app].
    - apply rmatch_pair in H1; destruct H1 as (x & y & -> & H4 & H5); unfold front.
      rewrite <- !app_assoc in *; constructor; [constructor; exact H4|]; rewrite <- (app_nil_r y) at 1.
      constructor; [constructor; cbn [app]; exact H5|constructor].
    - rewrite <- ?app_assoc; exact H2.
    - apply rmatch_pair in H3; destruct H3 as (x & y & -> & H4 & H5); unfold back; rewrite <- !app_assoc in *.
      constructor; [constructor; exact H4|]; rewrite <- (app_nil_r y) at 1.
      constructor; [constructor; cbn [app]; rewrite <- ?app_assoc in *; exact H5|constructor].
  Qed.

  Lemma found t u0 u1 v w1 w2 : fits LT BT RT t u0 u1 v w1 w2 ->
    exists a b c, search (prog (p_re p)) (map gl t) 0 = Some (a, b, c) /\ (a <= length (encode u0))%nat.
  Proof.
    intros (-> & H1 & H2 & H3); pose proof (whole_rmatch u0 u1 v w1 w2 H1 H2 H3) as Hm.
    assert (at_start (@nil rune) 0) as A0 by (split; reflexivity).
    rewrite <- (runes_of_gl (u1 ++ v ++ w1)), <- (runes_of_gl w2) in Hm.
    pose proof (at_start_app _ _ _ A0 (wide_gl u0)) as A1; cbn [app] in A1; rewrite runes_of_gl in A1.
    destruct (proj2 (means_simplify (tree (p_re p))) _ _ _ u0 (wide_app_gl _ _) A1 Hm []) as (c & Hr).
    rewrite <- (d_compiled _ _ _ _ _ _ _ _ D) in Hr.
    destruct (search_leftmost (prog (p_re p)) (map gl (u0 ++ u1 ++ v ++ w1 ++ w2)) 0 (map gl u0) (map gl (u1 ++ v ++ w1)) (map gl w2) _ _
      ltac:(rewrite <- !map_app, <- !app_assoc; reflexivity) Hr) as (a0 & b0 & c0 & Hs & Hle).
    exists a0, b0, c0; rewrite gwidth_gl in Hle; auto.
  Qed.

  (** Whether the negative lookarounds allow a match. *)
  Definition allowed (before v after : list rune) : Prop :=
    let word := encode (before ++ v ++ after) in
    let start := len (encode before) in let stop := len (encode (before ++ v)) in
    passes (p_negA p) word stop (if p_negAWidth p =? -1 then len word else stop + p_negAWidth p) /\
    passes (p_negB p) word (if p_negBWidth p =? -1 then 0 else start - p_negBWidth p) start.

  Lemma scan_covers rs off ms : scalars rs -> scan p (encode rs) off ms ->
    forall before t, rs = before ++ t -> off = len (encode before) -> covers LT BT RT allowed before t ms.
  Proof.
    intros Hs Hscan.
    assert (forall before t off start stop, rs = before ++ t -> off = len (encode before) -> 0 <= off < len (encode rs) ->
      pick_start_stop (raw p (encode rs) off) = Ok (start, stop) ->
      exists u0 u1 v w1 w2, fits LT BT RT t u0 u1 v w1 w2 /\
        start = len (encode (before ++ u0 ++ u1)) /\ stop = len (encode (before ++ u0 ++ u1 ++ v)) /\
        (forall u0' u1' v' w1' w2', fits LT BT RT t u0' u1' v' w1' w2' -> (length u0 <= length u0')%nat) /\
        index (raw p (encode rs) off) 5 = Ok start /\ index (raw p (encode rs) off) (len (raw p (encode rs) off) - 4) = Ok stop) as Hpick.
    { clear off ms Hscan; intros before t off start stop Ers Eoff Hle Hp.
      assert (skipn (Z.to_nat off) (encode rs) = encode t) as Esk.
      { rewrite Eoff, Ers, encode_app; unfold len; rewrite Nat2Z.id; apply skipn_app_exact. }
      assert (scalars before /\ scalars t) as [Hsb Hst] by (apply scalars_app; rewrite <- Ers; exact Hs).
      assert (boundary (encode rs) off) as Hb.
      { exists (map gl before), (map gl t); rewrite glyphs_encode, Ers, map_app by exact Hs.
        split; [reflexivity|rewrite gwidth_gl, Eoff; reflexivity]. }
      destruct (described_raw_at _ _ _ _ _ _ _ _ D _ _ _ _ Hb Hle Hp)
        as (P & u0 & u1 & v & w1 & w2 & Ew & EP & Est & Esp & R1 & R2 & R3 & P5 & P4 & Ha).
      rewrite glyphs_encode in Ew by exact Hs.
      destruct (map_gl_split _ _ _ Ew) as (P' & t' & Ers' & -> & Et); symmetry in Et.
      assert (P' = before /\ t' = t) as [-> ->].
      { clear -Ers Ers' Eoff EP; rewrite gwidth_gl in EP; unfold len in Eoff.
        assert (length (encode P') = length (encode before)) as E by lia.
        assert (length P' = length before) as El.
        { apply Nat.le_antisymm.
          - apply (shorter_encode rs P' t' before t Ers' Ers); rewrite E; apply Nat.le_refl.
          - apply (shorter_encode rs before t P' t' Ers Ers'); rewrite E; apply Nat.le_refl. }
        rewrite Ers' in Ers; apply app_inv_length in Ers; [|exact El]; tauto. }
      destruct (map_gl_split _ _ _ Et) as (u0' & t1 & E1 & -> & Et1); symmetry in Et1.
      destruct (map_gl_split _ _ _ Et1) as (u1' & t2 & E2 & -> & Et2); symmetry in Et2.
      destruct (map_gl_split _ _ _ Et2) as (v' & t3 & E3 & -> & Et3); symmetry in Et3.
      destruct (map_gl_split _ _ _ Et3) as (w1' & w2' & E4 & -> & ->).
      rewrite <- !map_app in *; rewrite !runes_of_gl in *; rewrite !gwidth_gl in *.
      exists u0', u1', v', w1', w2'.
      assert (t = u0' ++ u1' ++ v' ++ w1' ++ w2') as Et' by congruence.
      split; [split; [exact Et'|auto]|]; split; [symmetry; exact Est|]; split; [symmetry; exact Esp|].
      split; [|auto].
      intros x0 x1 y z1 z2 Hx; pose proof Hx as (Ex & _).
      destruct (found _ _ _ _ _ _ Hx) as (a & b & c & Hsr & Hlea).
      rewrite Esk, glyphs_encode in Ha by exact Hst; specialize (Ha _ _ _ Hsr); subst a.
      eapply shorter_encode; [reflexivity| |exact Hlea]; rewrite <- Et'; exact Ex. }
    assert (forall before t u0 u1 v w1 w2 start stop off, rs = before ++ t -> fits LT BT RT t u0 u1 v w1 w2 ->
      start = len (encode (before ++ u0 ++ u1)) -> stop = len (encode (before ++ u0 ++ u1 ++ v)) ->
      index (raw p (encode rs) off) 5 = Ok start -> index (raw p (encode rs) off) (len (raw p (encode rs) off) - 4) = Ok stop ->
      forall ok, negatives_allow p (encode rs) (raw p (encode rs) off) = Ok ok -> (ok = true <-> allowed (before ++ u0 ++ u1) v (w1 ++ w2))) as Hallow.
    { clear; intros before t u0 u1 v w1 w2 start stop off Ers (Et & _) Est Esp P5 P4 ok Hneg.
      assert ((before ++ u0 ++ u1) ++ v ++ w1 ++ w2 = rs) as Er by (rewrite Ers, Et, <- !app_assoc; reflexivity).
      unfold allowed; cbv zeta; rewrite Er, <- !app_assoc; unfold rune in *; rewrite <- Est, <- Esp.
      unfold negatives_allow in Hneg; rewrite P4, P5 in Hneg; cbn [bind] in Hneg; unfold passes.
      destruct (p_negA p) as [ea|]; cbn [bind] in Hneg.
      - destruct (match_string ea _) eqn:Ea in Hneg; cbn [negb bind] in Hneg.
        + apply ok_inj in Hneg; subst ok; split; [discriminate|intros [H _]; unfold bytes in *; congruence].
        + destruct (p_negB p) as [eb|]; apply ok_inj in Hneg; subst ok; rewrite ?negb_true_iff; intuition congruence.
      - destruct (p_negB p) as [eb|]; apply ok_inj in Hneg; subst ok; rewrite ?negb_true_iff; intuition congruence. }
    induction Hscan as [off Hle|off Hle Hraw|off start stop core ms Hle Hlen Hp Hne Hneg Hcore Hsc IH
                       |off start stop ms Hle Hlen Hp Hne Hneg Hsc IH]; intros before t Ers Eoff.
    - apply cv_end; intros u0 u1 v w1 w2 (-> & _).
      rewrite Eoff, Ers, encode_app in Hle; unfold len in Hle; rewrite app_length in Hle.
      destruct v as [|r v]; [reflexivity|]; rewrite !encode_app in Hle; cbn [encode flat_map] in Hle.
      rewrite !app_length in Hle; pose proof (encode_rune_length r); lia.
    - apply cv_end; intros u0 u1 v w1 w2 Hf; exfalso.
      destruct (found _ _ _ _ _ _ Hf) as (a & b & c & Hsr & _).
      assert (skipn (Z.to_nat off) (encode rs) = encode t) as Esk.
      { rewrite Eoff, Ers, encode_app; unfold len; rewrite Nat2Z.id; apply skipn_app_exact. }
      unfold raw, find_submatch_index in Hraw; rewrite Esk, glyphs_encode in Hraw by (rewrite Ers in Hs; apply scalars_app in Hs; apply Hs).
      rewrite Hsr in Hraw; discriminate.
    - destruct (Hpick before t off start stop Ers Eoff Hle Hp) as (u0 & u1 & v & w1 & w2 & Hf & Est & Esp & Hleft & P5 & P4).
      pose proof (Hallow _ _ _ _ _ _ _ _ _ off Ers Hf Est Esp P5 P4 _ Hneg) as Ha.
      rewrite Est, Esp; apply cv_match with (w1 := w1) (w2 := w2); [exact Hf| |exact Hleft|apply Ha; reflexivity|].
      + intros ->; rewrite app_nil_r in Esp; congruence.
      + apply IH; [destruct Hf as (-> & _); rewrite Ers, <- !app_assoc; reflexivity|exact Esp].
    - destruct (Hpick before t off start stop Ers Eoff Hle Hp) as (u0 & u1 & v & w1 & w2 & Hf & Est & Esp & Hleft & P5 & P4).
      pose proof (Hallow _ _ _ _ _ _ _ _ _ off Ers Hf Est Esp P5 P4 _ Hneg) as Ha.
      apply cv_pass with (1 := Hf); [|exact Hleft|intros H; apply Ha in H; discriminate|].
      + intros ->; rewrite app_nil_r in Esp; congruence.
      + apply IH; [destruct Hf as (-> & _); rewrite Ers, <- !app_assoc; reflexivity|exact Esp].
  Qed.
End Found.

(** ** The parts of an expression *)
Definition edge_before (k : nat) : lang :=
  match k with
  | O => empty
  | S O => fun a b _ => (a = [] /\ b = []) \/ (b <> [] /\ Forall blank b) \/ b = txt "{}"
  | _ => fun a b _ => a = [] /\ b = []
  end.
Definition edge_after (k : nat) : lang :=
  match k with
  | O => empty
  | S O => fun _ b d => (b = [] /\ d = []) \/ (b <> [] /\ Forall blank b) \/ b = txt "{}"
  | _ => fun _ b d => b = [] /\ d = []
  end.
(** No group, no edge. *)
Definition simple (x : list rune) : Prop := Forall (fun r => ~ In r (txt "(^$")) x.
(** What is required around the body by edges of [k] characters and a lookaround. *)
Inductive around (edge : nat -> lang) : nat -> look -> lang -> Prop :=
| ar_edge k : around edge k NoLook (edge k)
| ar_pos x M : alternatives x M 0 -> simple x -> around edge 0 (Pos x) M
| ar_neg k x M : alternatives x M 0 -> simple x -> around edge k (Neg x) (edge k).

Lemma rmatch_plus_blank a b d : rmatch (RPlus true (RClass cls_s)) a b d <-> b <> [] /\ Forall blank b.
Proof.
  assert (forall c, in_set cls_s c = true <-> blank c) as Hc.
  { destruct (shorthand_set 0x73%N blank sh_s) as (k & E & H & _); injection E as <-; exact H. }
  split.
  - intros H; assert (forall a b d, rmatch (RStar true (RClass cls_s)) a b d -> Forall blank b) as Hstar.
    { clear a b d H; intros a b d H; remember (RStar true (RClass cls_s)) as r eqn:E; induction H; try discriminate E; [constructor|].
      inversion E; subst; apply Forall_app; split; [|apply IHrmatch2; reflexivity].
      match goal with H1 : rmatch (RClass _) _ _ _ |- _ => inversion H1; subst end; constructor; [apply Hc; assumption|constructor]. }
    inversion H; subst.
    match goal with H1 : rmatch (RClass _) _ _ _, H2 : rmatch (RStar _ _) _ _ _ |- _ => apply Hstar in H2; inversion H1; subst end.
    split; [discriminate|]; constructor; [apply Hc; assumption|assumption].
  - intros [Hne Hb]; assert (forall b a d, Forall blank b -> rmatch (RStar true (RClass cls_s)) a b d) as Hstar.
    { clear -Hc; intros b; induction b as [|c b IH]; intros a d H; [constructor|].
      inversion H; subst; change (c :: b) with ([c] ++ b); constructor; [constructor; apply Hc; assumption|apply IH; assumption]. }
    destruct b as [|c b]; [contradiction|]; inversion Hb; subst; change (c :: b) with ([c] ++ b).
    constructor; [constructor; apply Hc; assumption|apply Hstar; assumption].
Qed.
Lemma edge_alt e a b d : rmatch (RAlt [e; RPlus true (RClass cls_s); RCat [RLit [0x7B%N]; RLit [0x7D%N]]]) a b d <->
  rmatch e a b d \/ (b <> [] /\ Forall blank b) \/ b = txt "{}".
Proof.
  split.
  - intros H; inversion H as [| | | | | | | | | | | | | | | |r l pre mid post Hin Hm]; subst.
    destruct Hin as [<-|[<-|[<-|[]]]]; [left; exact Hm|right; left; eapply rmatch_plus_blank; exact Hm|].
    right; right; apply rmatch_pair in Hm; destruct Hm as (x & y & -> & H1 & H2); inversion H1; inversion H2; reflexivity.
  - intros [Hm|[Hm|Hm]]; (eapply M_alt; [|]).
    + left; reflexivity.
    + exact Hm.
    + right; left; reflexivity.
    + apply rmatch_plus_blank; exact Hm.
    + right; right; left; reflexivity.
    + rewrite Hm; change (txt "{}") with ([0x7B%N : rune] ++ [0x7D%N : rune] ++ []).
      constructor; [constructor|]; constructor; [constructor|constructor].
Qed.
Lemma edge_before_same k : same (rmatch (edge_tree 0x5E%N k)) (edge_before k).
Proof.
  intros a b d; destruct k as [|[|k]]; cbn [edge_tree edge_before].
  - split; [apply rmatch_nothing|intros ->; constructor].
  - change (0x5E =? 0x5E)%N with true; rewrite edge_alt; split; (intros [H|H]; [left|right; exact H]).
    + apply rmatch_begin in H; exact H.
    + destruct H as [-> ->]; constructor.
  - change (0x5E =? 0x5E)%N with true; split; [apply rmatch_begin|intros [-> ->]; constructor].
Qed.
Lemma edge_after_same k : same (rmatch (edge_tree 0x24%N k)) (edge_after k).
Proof.
  intros a b d; destruct k as [|[|k]]; cbn [edge_tree edge_after].
  - split; [apply rmatch_nothing|intros ->; constructor].
  - change (0x24 =? 0x5E)%N with false; rewrite edge_alt; split; (intros [H|H]; [left|right; exact H]).
    + inversion H; auto.
    + destruct H as [-> ->]; constructor.
  - change (0x24 =? 0x5E)%N with false; split; [intros H; inversion H; auto|intros [-> ->]; constructor].
Qed.

Lemma simple_text x : simple x -> nocap x = x /\ edges x = x.
Proof.
  intros H; split.
  - induction H as [|r x Hr Hx IH]; [reflexivity|]; cbn [nocap flat_map]; destruct (N.eqb_spec r 0x28) as [->|Hne].
    + exfalso; apply Hr; cbn; tauto.
    + cbn [app]; f_equal; exact IH.
  - unfold edges; rewrite !swap_runs_id; [reflexivity| |rewrite swap_runs_id]; (eapply Forall_impl; [|exact H]);
      intros r Hr ->; apply Hr; cbn; tauto.
Qed.
Lemma no_edges x : Forall (fun r => ~ In r (txt "^$")) x -> edges x = x.
Proof.
  intros H; unfold edges; rewrite !swap_runs_id; [reflexivity| |rewrite swap_runs_id]; (eapply Forall_impl; [|exact H]);
    intros r Hr ->; apply Hr; cbn; tauto.
Qed.

Lemma around_balanced edge k l L negf : around edge k l L ->
  (forall x r n, parse_from 0 (nocap x) = Ok (r, n) -> exists r', parse_from 0 (negf x) = Ok (r', 1%nat)) -> look_balanced l negf.
Proof.
  intros H Hn; destruct H as [k|x M Ha Hx|k x M Ha Hx]; cbn [look_balanced]; [exact I| |];
    destruct (simple_text x Hx) as [E1 E2]; destruct (syntax_from _ _ _ Ha) as (r & E & _).
  - exists r; rewrite E1, E2; exact E.
  - rewrite <- E1 in E; destruct (Hn _ _ _ E) as (r' & E'); exists r', 1%nat; exact E'.
Qed.
Lemma around_apart edge k l L : around edge k l L -> contradictory l k = false.
Proof. intros []; reflexivity. Qed.
(** What the tree of an edge and a lookaround matches. *)
Lemma around_left k l L t neg : around edge_before k l L -> look_parses l k neg_behind t neg ->
  same (rmatch (RCat [edge_tree 0x5E%N k; t])) L.
Proof.
  intros H Hp a b d.
  assert (forall k0, t = REmpty -> rmatch (RCat [edge_tree 0x5E%N k0; t]) a b d <-> edge_before k0 a b d) as He.
  { intros k0 ->; rewrite <- (edge_before_same k0 a b d); split.
    - intros Hm; apply rmatch_pair in Hm; destruct Hm as (x & y & -> & H1 & H2); apply rmatch_nothing in H2; subst y.
      rewrite app_nil_r; exact H1.
    - intros Hm; rewrite <- (app_nil_r b); constructor; [exact Hm|]; apply (M_cat_cons REmpty [] _ [] []); constructor. }
  destruct H as [k|x M Ha Hx|k x M Ha Hx]; cbn [look_parses] in Hp.
  - apply He, Hp.
  - destruct (simple_text x Hx) as [E1 E2]; rewrite E1, E2 in Hp; destruct Hp as [Hp _].
    destruct (syntax_from _ _ _ Ha) as (r & E & Hr); rewrite E in Hp; injection Hp as ->; rewrite <- (Hr a b d); split.
    + intros Hm; apply rmatch_pair in Hm; destruct Hm as (u & y & -> & H1 & H2); apply rmatch_nothing in H1; subst u.
      rewrite app_nil_r in H2; exact H2.
    + intros Hm; apply (M_cat_cons REmpty [t] a [] b d); [constructor|]; rewrite <- (app_nil_r b); constructor; [|constructor].
      rewrite app_nil_r; exact Hm.
  - apply He; destruct k; apply Hp.
Qed.
Lemma around_right k l R t neg : around edge_after k l R -> look_parses l k neg_ahead t neg ->
  same (rmatch (RCat [t; edge_tree 0x24%N k])) R.
Proof.
  intros H Hp a b d.
  assert (forall k0, t = REmpty -> rmatch (RCat [t; edge_tree 0x24%N k0]) a b d <-> edge_after k0 a b d) as He.
  { intros k0 ->; rewrite <- (edge_after_same k0 a b d); split.
    - intros Hm; apply rmatch_pair in Hm; destruct Hm as (x & y & -> & H1 & H2); apply rmatch_nothing in H1; subst x.
      rewrite app_nil_r in H2; exact H2.
    - intros Hm; apply (M_cat_cons REmpty _ a [] b d); [constructor|]; rewrite <- (app_nil_r b); constructor; [|constructor].
      rewrite app_nil_r; exact Hm. }
  destruct H as [k|x M Ha Hx|k x M Ha Hx]; cbn [look_parses] in Hp.
  - apply He, Hp.
  - destruct (simple_text x Hx) as [E1 E2]; rewrite E1, E2 in Hp; destruct Hp as [Hp _].
    destruct (syntax_from _ _ _ Ha) as (r & E & Hr); rewrite E in Hp; injection Hp as ->; rewrite <- (Hr a b d); split.
    + intros Hm; apply rmatch_pair in Hm; destruct Hm as (u & y & -> & H1 & H2); apply rmatch_nothing in H2; subst y.
      rewrite app_nil_r; exact H1.
    + intros Hm; rewrite <- (app_nil_r b); constructor; [exact Hm|]; apply (M_cat_cons REmpty [] _ [] []); constructor.
  - apply He; destruct k; apply Hp.
Qed.

(** ** C69 *)
Lemma covers_same L B R L' B' R' ok ok' before t ms : same L L' -> same B B' -> same R R' ->
  (forall x y z, ok x y z <-> ok' x y z) -> covers L B R ok before t ms -> covers L' B' R' ok' before t ms.
Proof.
  intros HL HB HR Hok; assert (forall t u0 u1 v w1 w2, fits L B R t u0 u1 v w1 w2 <-> fits L' B' R' t u0 u1 v w1 w2) as Hf.
  { intros t0 u0 u1 v w1 w2; unfold fits; rewrite (HL _ _ _), (HB _ _ _), (HR _ _ _); reflexivity. }
  induction 1 as [before t H|before t u0 u1 v w1 w2 groups ms H1 H2 H3 H4 H5 IH|before t u0 u1 v w1 w2 ms H1 H2 H3 H4 H5 IH].
  - apply cv_end; intros u0 u1 v w1 w2 H0; apply (H u0 u1 v w1 w2), Hf, H0.
  - apply cv_match with (w1 := w1) (w2 := w2); [apply Hf; exact H1|exact H2| |apply Hok; exact H4|exact IH].
    intros x0 x1 y z1 z2 H0; apply (H3 x0 x1 y z1 z2), Hf, H0.
  - apply cv_pass with (u0 := u0) (u1 := u1) (v := v) (w1 := w1) (w2 := w2); [apply Hf; exact H1|exact H2| |rewrite <- Hok; exact H4|exact IH].
    intros x0 x1 y z1 z2 H0; apply (H3 x0 x1 y z1 z2), Hf, H0.
Qed.
Lemma rmatch_bump_intro k r a b d : rmatch r a b d -> rmatch (bump k r) a b d.
Proof.
  induction 1; cbn [bump map] in *; try (econstructor; eauto; fail).
  - eapply M_repeat; [eassumption|eassumption|].
    replace (repeat (bump k r) n) with (map (bump k) (repeat r n)); [assumption|].
    clear; induction n as [|n IH]; [reflexivity|cbn [repeat map]; f_equal; exact IH].
  - eapply M_alt; [apply in_map; eassumption|assumption].
Qed.

Lemma find_covers : forall e macros vars s used B n L R,
  e <> [] -> expand_vars (expand_macros e macros) vars = (encode (src_text s), used) -> src_ok s ->
  sequence (s_body s) B n -> Forall (fun r => ~ In r (txt "^$")) (s_body s) ->
  around edge_before (s_left s) (s_behind s) L -> around edge_after (s_right s) (s_ahead s) R ->
  exists p, new_pattern e macros vars = Ok p /\
    ((forall x, s_behind s <> Neg x) -> (forall x, s_ahead s <> Neg x) -> forall before v after, allowed p before v after) /\
    forall rs, scalars rs ->
      (exists ms, find p (encode rs) (-1) = Ok ms /\ covers L B R (allowed p) [] rs ms) \/
      (find p (encode rs) (-1) = Panic PZeroWidth /\ exists a d, B a [] d).
Proof.
  intros e macros vars s used B n L R He Hx Hok Hb Hbody HL HR.
  destruct (syntax_from _ _ _ (al_one _ _ _ Hb)) as (rb & Erb & Hrb).
  pose proof (no_edges _ Hbody) as Ee.
  assert (balanced s rb n) as Hbal.
  { constructor; [exact Hok|rewrite Ee; exact Erb| |].
    - eapply around_balanced; [exact HL|]; intros x r m H; eexists; apply parse_neg_behind with (1 := H).
    - eapply around_balanced; [exact HR|]; intros x r m H; eexists; apply parse_neg_ahead with (1 := H). }
  destruct (balanced_accepted e macros vars s used rb n He Hx Hbal) as (p & alts & tb & ta & nbk & nega & Hp & _ & Lb & La & D & Hr & Halts).
  { rewrite (around_apart _ _ _ _ HL), (around_apart _ _ _ _ HR); reflexivity. }
  exists p; split; [exact Hp|]; split.
  { intros H1 H2 before v after; unfold allowed; cbv zeta.
    rewrite (d_negA _ _ _ _ _ _ _ _ D), (d_negB _ _ _ _ _ _ _ _ D).
    assert (nbk = None) as ->.
    { destruct (s_behind s) as [|x|x]; cbn [look_parses] in Lb; [apply Lb|destruct (s_left s); [apply Lb|contradiction]|destruct (H1 x eq_refl)]. }
    assert (nega = None) as ->.
    { destruct (s_ahead s) as [|x|x]; cbn [look_parses] in La; [apply La|destruct (s_right s); [apply La|contradiction]|destruct (H2 x eq_refl)]. }
    split; exact I. }
  intros rs Hs.
  destruct (balanced_find e macros vars s used rb n p (encode rs) (-1) He Hx Hbal Hp) as [(ms & Hf & _)|[Hf (a & d & Hz)]].
  2:{ right; split; [exact Hf|]; exists a, d; apply Hrb; exact Hz. }
  left; exists ms; split; [exact Hf|].
  destruct (proj1 (proj2 syntax_parse) _ _ _ Hb) as [_ IH].
  destruct (IH O (txt "()") [] frame0 false) as (items & lr & Hi & Hne & E); [discriminate|].
  specialize (Hne (ok_body _ Hok)).
  assert (parse_from 0 (edges (s_body s) ++ txt "()") = Ok (RCat (items ++ [RCap (S n) REmpty]), S n)) as Hone.
  { rewrite Ee; unfold parse_from; unfold rune in *; rewrite E; unfold add, frame0; cbn [f_cap f_alts f_cur].
    change (txt "()") with [0x28%N; 0x29%N]; do 2 (rewrite parse_all_step; unfold pstep; cbn [N.eqb Pos.eqb orb bind]).
    unfold parse_all; cbn [length parse_loop]; unfold push, finish, group_of; cbn [f_cap f_alts f_cur finish mk_cat].
    unfold mk_cat; rewrite app_nil_r; destruct (rev items) as [|x l] eqn:Er.
    { apply (f_equal (@rev re)) in Er; rewrite rev_involutive in Er; contradiction. }
    rewrite <- Er; cbn [rev]; rewrite rev_involutive; reflexivity. }
  specialize (Halts _ _ Hone); subst alts; rewrite removelast_last in D, Hr.
  assert (scan p (encode rs) 0 ms) as Hscan by (eapply find_scan; [|exact Hf]; reflexivity).
  pose proof (scan_covers p s n tb ta nbk nega _ D rs 0 ms Hs Hscan [] rs eq_refl eq_refl) as Hc.
  eapply covers_same; [exact (around_left _ _ _ _ _ HL Lb)| |exact (around_right _ _ _ _ _ HR La)|reflexivity|exact Hc].
  intros a b d; rewrite <- (Hi a b d); split; intros H.
  - apply (rmatch_bump 2 (RCat items)); exact H.
  - exact (rmatch_bump_intro 2 (RCat items) a b d H).
Qed.

(** Every expression of such parts is accepted, and the matches in every word are all that its
    parts describe; negative lookarounds pass some over. The only failure is the panic when the
    body matches nothing. *)
Theorem C69_find : forall e macros vars s used B n L R,
  e <> [] -> expand_vars (expand_macros e macros) vars = (encode (src_text s), used) -> src_ok s ->
  sequence (s_body s) B n -> Forall (fun r => ~ In r (txt "^$")) (s_body s) ->
  around edge_before (s_left s) (s_behind s) L -> around edge_after (s_right s) (s_ahead s) R ->
  exists p, new_pattern e macros vars = Ok p /\
    forall rs, scalars rs ->
      (exists ms, find p (encode rs) (-1) = Ok ms /\ covers L B R (allowed p) [] rs ms) \/
      (find p (encode rs) (-1) = Panic PZeroWidth /\ exists a d, B a [] d).
Proof.
  intros e macros vars s used B n L R H1 H2 H3 H4 H5 H6 H7.
  destruct (find_covers e macros vars s used B n L R H1 H2 H3 H4 H5 H6 H7) as (p & Hp & _ & H); exists p; auto.
Qed.
Print Assumptions C69_find.

(** Without negative lookarounds nothing is passed over. *)
Theorem C69_positive : forall e macros vars s used B n L R,
  e <> [] -> expand_vars (expand_macros e macros) vars = (encode (src_text s), used) -> src_ok s ->
  sequence (s_body s) B n -> Forall (fun r => ~ In r (txt "^$")) (s_body s) ->
  around edge_before (s_left s) (s_behind s) L -> around edge_after (s_right s) (s_ahead s) R ->
  (forall x, s_behind s <> Neg x) -> (forall x, s_ahead s <> Neg x) ->
  exists p, new_pattern e macros vars = Ok p /\
    forall rs, scalars rs ->
      (exists ms, find p (encode rs) (-1) = Ok ms /\ covers L B R (fun _ _ _ => True) [] rs ms) \/
      (find p (encode rs) (-1) = Panic PZeroWidth /\ exists a d, B a [] d).
Proof.
  intros e macros vars s used B n L R H1 H2 H3 H4 H5 H6 H7 H8 H9.
  destruct (find_covers e macros vars s used B n L R H1 H2 H3 H4 H5 H6 H7) as (p & Hp & Ha & H); exists p; split; [exact Hp|].
  intros rs Hs; destruct (H rs Hs) as [(ms & Hf & Hc)|Hz]; [left|right; exact Hz].
  exists ms; split; [exact Hf|]; eapply covers_same; [| | | |exact Hc]; try (intros a b d; reflexivity).
  intros x y z; split; [intros _; exact I|intros _; apply Ha; assumption].
Qed.
Print Assumptions C69_positive.

(** In particular there is a match whenever there is something to match. *)
Theorem C69_none : forall e macros vars s used B n L R p rs u0 u1 v w1 w2,
  e <> [] -> expand_vars (expand_macros e macros) vars = (encode (src_text s), used) -> src_ok s ->
  sequence (s_body s) B n -> Forall (fun r => ~ In r (txt "^$")) (s_body s) ->
  around edge_before (s_left s) (s_behind s) L -> around edge_after (s_right s) (s_ahead s) R ->
  (forall x, s_behind s <> Neg x) -> (forall x, s_ahead s <> Neg x) ->
  new_pattern e macros vars = Ok p -> scalars rs -> find p (encode rs) (-1) = Ok [] ->
  ~ (v <> [] /\ fits L B R rs u0 u1 v w1 w2).
Proof.
  intros e macros vars s used B n L R p rs u0 u1 v w1 w2 H1 H2 H3 H4 H5 H6 H7 H8 H9 Hp Hs Hf [Hv Hfit].
  destruct (C69_positive e macros vars s used B n L R H1 H2 H3 H4 H5 H6 H7 H8 H9) as (p' & Hp' & H).
  rewrite Hp in Hp'; apply ok_inj in Hp'; subst p'.
  destruct (H rs Hs) as [(ms & Hf' & Hc)|[Hz _]]; [|rewrite Hf in Hz; discriminate].
  rewrite Hf in Hf'; apply ok_inj in Hf'; subst ms.
  inversion Hc as [before t Hend| |before t x0 x1 y z1 z2 ms Hfit' Hy Hl Hno Hc']; subst; [|apply Hno; exact I].
  apply Hv, (Hend _ _ _ _ _ Hfit).
Qed.
Print Assumptions C69_none.


(** {h|k}[ae]+$ *)
Definition ex_parts : src := Src 0 (Pos (txt "h|k")) (txt "[ae]+") NoLook 1.
Definition ex_behind : lang := either (then_ (one (eq 0x68%N)) empty) (then_ (one (eq 0x6B%N)) empty).
Definition ex_body : lang := then_ (some_power (fun k => 1 <= k)%nat (one (fun c => 0x61%N = c \/ 0x65%N = c))) empty.
Lemma literal_b r : nmem r meta = false -> atom [r] (one (eq r)) 0.
Proof. intros H; apply at_char, not_meta_b, H. Qed.
Example C69_example :
  lit "{h|k}[ae]+$" <> [] /\
  expand_vars (expand_macros (lit "{h|k}[ae]+$") []) [] = (encode (src_text ex_parts), []) /\
  src_ok ex_parts /\ sequence (s_body ex_parts) ex_body 0 /\ Forall (fun r => ~ In r (txt "^$")) (s_body ex_parts) /\
  around edge_before (s_left ex_parts) (s_behind ex_parts) ex_behind /\
  around edge_after (s_right ex_parts) (s_ahead ex_parts) (edge_after 1) /\
  (forall x, s_behind ex_parts <> Neg x) /\ (forall x, s_ahead ex_parts <> Neg x) /\
  find (pat "{h|k}[ae]+$") (lit "hae kan ka x hae") (-1) = Ok [[1; 3]; [9; 10]; [14; 16]] /\
  find (pat "{h|k}[ae]+$") (lit "han ae") (-1) = Ok [].
Proof.
  split; [discriminate|]; split; [vm_compute; reflexivity|].
  split; [|split; [|split; [|split; [|split; [|split; [|split]]]]]].
  - split; [read_look|read_look|apply scalars_b; reflexivity|vm_compute; congruence|apply paired_true; reflexivity
           |intros _; vm_compute; congruence|intros _; vm_compute; congruence].
  - refine (sq_often (txt "[ae]") _ 0 (txt "+") _ [] _ 0 _ _ sq_nil); [|apply qu_most, ti_plus].
    refine (at_class (txt "ae") _ _); refine (ms_more (txt "a") (eq 0x61%N) (txt "e") (eq 0x65%N) _ _);
      apply ms_one, mb_plain; intros H; cbn in H; intuition discriminate.
  - apply Forall_forall; intros r Hr; cbn in Hr; intros H; cbn in H; intuition congruence.
  - apply ar_pos.
    + refine (al_more (txt "h") _ 0 (txt "k") _ 0 _ (al_one _ _ _ _));
        [refine (sq_once (txt "h") _ 0 [] _ 0 _ sq_nil)|refine (sq_once (txt "k") _ 0 [] _ 0 _ sq_nil)]; apply literal_b; reflexivity.
    + apply Forall_forall; intros r Hr; cbn in Hr; intros H; cbn in H; intuition congruence.
  - apply ar_edge.
  - discriminate.
  - discriminate.
  - split; vm_compute; reflexivity.
Qed.
