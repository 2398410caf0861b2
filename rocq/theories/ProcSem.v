(** What the phases partition and rewrite compute. *)
From Verif Require Import GoBase Utf8 Utf8Facts Unicode Hre FindFacts Subword SubwordFacts Rule RuleFacts Scripts Spec
  Jamo Procedure ProcFacts.
Open Scope Z_scope.

(** ** Partition *)
Definition partition_round (s : spec) (rs : list rune) : round :=
  map (fun c => ([(c, 0)], if meaningful s c then Some [c] else None)) rs.

Lemma partition_round_before s rs : before (partition_round s rs) = map (fun c => (c, 0)) rs.
Proof.
  unfold before, partition_round; induction rs as [|c rs IH]; [reflexivity|].
  cbn [map flat_map fst app]; rewrite IH; reflexivity.
Qed.
Lemma partition_round_after s rs :
  after 1 (partition_round s rs) = map (fun c => (c, if meaningful s c then 1 else 0)) rs.
Proof.
  unfold after, partition_round; induction rs as [|c rs IH]; [reflexivity|].
  cbn [map flat_map fst snd]; rewrite IH; destruct (meaningful s c); reflexivity.
Qed.
Lemma len_word1 c l : len (word_of [(c, l)]) = Z.of_nat (length (encode_rune c)).
Proof. unfold word_of, encode; cbn; rewrite app_nil_r; reflexivity. Qed.
Lemma partition_round_repls s rs i :
  repls_of i (partition_round s rs) =
  partition_repls s (map (fun c => (c, length (encode_rune c))) rs) i.
Proof.
  revert i; induction rs as [|c rs IH]; intros i; [reflexivity|].
  cbn [partition_round map partition_repls]; destruct (meaningful s c); cbn [repls_of]; rewrite len_word1.
  - f_equal; [|apply IH]; unfold encode, len; cbn [flat_map]; rewrite app_nil_r; reflexivity.
  - apply IH.
Qed.

Lemma partition_cells s rs :
  scalars rs ->
  exists sws, partition s (encode rs) = Ok sws /\
    cells_of sws = map (fun c => (c, if meaningful s c then 1 else 0)) rs /\
    levels_alternate sws /\ Forall (fun sw => sw_word sw <> []) sws /\
    Forall (fun sw => utf8_text (sw_word sw)) sws.
Proof.
  intros Hs; unfold partition.
  rewrite new_replacer_cells, <- (partition_round_before s rs).
  rewrite <- (app_nil_r (encode rs)), glyphs_encode_app by exact Hs.
  cbn [glyphs glyphs_from]; rewrite app_nil_r, <- partition_round_repls.
  change (replace_by (mk_replacer (before (partition_round s rs)) 1 []) (repls_of 0 (partition_round s rs)))
    with (mk_replacer (before (partition_round s rs)) 1 (repls_of 0 (partition_round s rs))).
  destruct (replacer_subwords_ok (after 1 (partition_round s rs)) 1) as (sws & E & H1 & H2 & H3 & H4).
  { rewrite partition_round_after; unfold scalar_cells; rewrite map_map; cbn [fst]; rewrite map_id; exact Hs. }
  exists sws; unfold replacer_subwords in E |- *; rewrite commit_round; cbn [bind].
  assert (commit (mk_replacer (after 1 (partition_round s rs)) 1 []) = Ok (mk_replacer (after 1 (partition_round s rs)) 1 [])) as Ec.
  { unfold commit; cbn [rr_repls mk_replacer commit_loop rr_word rr_levels]; rewrite !slice_all; reflexivity. }
  rewrite Ec in E; cbn [bind] in E; destruct (rr_levels _) as [|l lv].
  - injection E as <-; rewrite <- partition_round_after; auto.
  - destruct (subwords_loop _ _ _ _ _) as [x| | | | |]; cbn [bind] in *; try discriminate.
    injection E as ->; rewrite <- partition_round_after; auto.
Qed.

Lemma cells_text sws :
  Forall (fun sw => utf8_text (sw_word sw)) sws -> concat (map sw_word sws) = word_of (cells_of sws).
Proof.
  induction 1 as [|sw sws Hsw H IH]; [reflexivity|].
  cbn [map concat cells_of flat_map]; fold (cells_of sws); rewrite word_of_app, IH, word_of_const.
  f_equal; symmetry; apply utf8_text_runes; exact Hsw.
Qed.

(** ** One rule after the other *)
Inductive sequence : list rule -> bytes -> bytes -> Prop :=
| sequence_nil w : sequence [] w w
| sequence_cons r rules w w1 w2 :
    rule_replace r w = Ok w1 -> sequence rules w1 w2 -> sequence (r :: rules) w w2.

Lemma In_firstn {A} (x : A) n l : In x (firstn n l) -> In x l.
Proof. intros H; rewrite <- (firstn_skipn n l); apply in_or_app; left; exact H. Qed.
Lemma In_skipn {A} (x : A) n l : In x (skipn n l) -> In x l.
Proof. intros H; rewrite <- (firstn_skipn n l); apply in_or_app; right; exact H. Qed.
Lemma slice_shape {A B} (a : list A) (b : list B) i j :
  length a = length b ->
  (exists x y, slice a i j = Ok x /\ slice b i j = Ok y /\ length x = length y) \/
  (slice a i j = Panic PSlice /\ slice b i j = Panic PSlice).
Proof.
  intros Hl; unfold slice, len; rewrite Hl; destruct (_ && _); [left|right; auto].
  do 2 eexists; split; [reflexivity|]; split; [reflexivity|]; rewrite !firstn_length, !skipn_length, Hl; reflexivity.
Qed.
Lemma commit_loop_word repls r1 r2 off :
  rr_word r1 = rr_word r2 -> length (rr_levels r1) = length (rr_word r1) ->
  length (rr_levels r2) = length (rr_word r2) ->
  (exists w l1 l2, commit_loop repls r1 off = Ok (w, l1) /\ commit_loop repls r2 off = Ok (w, l2) /\
     length l1 = length w /\ length l2 = length w /\
     (forall x, In x l1 -> x = rr_next r1 \/ In x (rr_levels r1))) \/
  (commit_loop repls r1 off = Panic PSlice /\ commit_loop repls r2 off = Panic PSlice).
Proof.
  intros Ew H1 H2; revert off; induction repls as [|x repls IH]; intros off; cbn [commit_loop].
  - replace (len (rr_levels r1)) with (len (rr_word r1)) by (unfold len; lia).
    replace (len (rr_levels r2)) with (len (rr_word r2)) by (unfold len; lia).
    rewrite <- Ew.
    destruct (slice_shape (rr_word r1) (rr_levels r1) off (len (rr_word r1))) as [(a & b & Ea & Eb & Hl)|[Ea Eb]]; [lia| |].
    + destruct (slice_shape (rr_word r1) (rr_levels r2) off (len (rr_word r1))) as [(a' & c & Ea' & Ec & Hl')|[Ea' _]];
        [rewrite Ew; lia| |congruence].
      assert (a' = a) as -> by congruence.
      left; exists a, b, c; rewrite Ea, Eb, Ec; cbn [bind]; repeat split; try lia.
      intros z Hz; right; apply slice_bounds in Eb; destruct Eb as (_ & _ & ->).
      apply In_firstn, In_skipn in Hz; exact Hz.
    + right; rewrite Ea; split; reflexivity.
  - rewrite <- Ew.
    destruct (slice_shape (rr_word r1) (rr_levels r1) off (rp_start x)) as [(a & b & Ea & Eb & Hl)|[Ea Eb]]; [lia| |].
    + destruct (slice_shape (rr_word r1) (rr_levels r2) off (rp_start x)) as [(a' & c & Ea' & Ec & Hl')|[Ea' _]];
        [rewrite Ew; lia| |congruence].
      assert (a' = a) as -> by congruence.
      rewrite Ea, Eb, Ec; cbn [bind].
      destruct (IH (rp_stop x)) as [(w & l1 & l2 & -> & -> & Hl1 & Hl2 & Hin)|[-> ->]]; [|right; split; reflexivity].
      left; do 3 eexists; cbn [bind]; split; [reflexivity|]; split; [reflexivity|].
      rewrite !app_length, !repeat_length; repeat split; try lia.
      intros z Hz; apply in_app_or in Hz; destruct Hz as [Hz|Hz].
      * right; apply slice_bounds in Eb; destruct Eb as (_ & _ & ->).
        apply In_firstn, In_skipn in Hz; exact Hz.
      * apply in_app_or in Hz; destruct Hz as [Hz|Hz]; [left; apply repeat_spec in Hz; exact Hz|apply Hin; exact Hz].
    + right; rewrite Ea; split; reflexivity.
Qed.

Lemma string_word rep repls word :
  rep_wf rep -> rr_word rep = word ->
  (exists rep' rep0, replacer_string (replace_by rep repls) = Ok (rep', rr_word rep') /\
     replacer_string (replace_by (new_replacer word 0 0) repls) = Ok (rep0, rr_word rep') /\
     rep_wf rep' /\ rr_next rep' = rr_next rep /\
     (forall x, In x (rr_levels rep') -> x = rr_next rep \/ In x (rr_levels rep))) \/
  (replacer_string (replace_by rep repls) = Panic PSlice /\
   replacer_string (replace_by (new_replacer word 0 0) repls) = Panic PSlice).
Proof.
  intros [Hl Hr] <-; unfold replacer_string, commit; cbn [replace_by rr_repls new_replacer]; rewrite Hr.
  destruct (commit_loop_word repls (replace_by rep repls) (replace_by (new_replacer (rr_word rep) 0 0) repls) 0)
    as [(w & l1 & l2 & E1 & E2 & H1 & H2 & Hin)|[E1 E2]].
  - reflexivity.
  - exact Hl.
  - apply repeat_length.
  - unfold replace_by, new_replacer in E1, E2; cbn [rr_repls app rr_word rr_levels rr_next] in E1, E2; rewrite Hr in E1.
    cbn [app] in *; unfold replace_by, new_replacer; cbn [rr_word rr_repls rr_levels rr_next app]; rewrite Hr; cbn [app].
    left; rewrite E1, E2; cbn [bind]; do 2 eexists; split; [reflexivity|]; split; [reflexivity|].
    split; [split; [exact H1|reflexivity]|]; split; [reflexivity|]; exact Hin.
  - unfold replace_by, new_replacer in E1, E2; cbn [rr_repls app rr_word rr_levels rr_next] in E1, E2; rewrite Hr in E1.
    cbn [app] in *; unfold replace_by, new_replacer; cbn [rr_word rr_repls rr_levels rr_next app]; rewrite Hr; cbn [app].
    right; rewrite E1, E2; split; reflexivity.
Qed.

Lemma rewrite_rules_sequence n rules i word rep recs rep' recs' :
  rep_wf rep -> rr_word rep = word ->
  rewrite_rules false n rules i word rep recs = Ok (rep', recs') ->
  sequence rules word (rr_word rep') /\ rep_wf rep' /\ rr_next rep' = rr_next rep /\ recs' = recs /\
  (forall x, In x (rr_levels rep') -> x = rr_next rep \/ In x (rr_levels rep)).
Proof.
  revert word rep; induction rules as [|r rules IH]; intros word rep Hw Ew; cbn [rewrite_rules].
  - intros E; injection E as <- <-; rewrite Ew; repeat split; auto; [constructor|apply Hw|apply Hw].
  - destruct (replacements r word) as [repls| | | | |] eqn:Er; cbn [bind]; try discriminate.
    destruct (string_word rep repls word Hw Ew) as [(rep1 & rep0 & E1 & E0 & Hw1 & Hn1 & Hl1)|[E1 E0]];
      rewrite E1; cbn [bind record_subword negb]; [|discriminate].
    intros E; destruct (IH (rr_word rep1) rep1 Hw1 eq_refl E) as (Hs & Hw' & Hn & Hr & Hl).
    repeat split; try assumption; try apply Hw'; [|congruence|].
    + econstructor; [|exact Hs]; unfold rule_replace; rewrite Er; cbn [bind]; rewrite E0; reflexivity.
    + intros x Hx; destruct (Hl x Hx) as [->|Hx']; [left; exact Hn1|apply Hl1; exact Hx'].
Qed.
Lemma sequence_rewrite_rules n rules i word rep recs w' :
  rep_wf rep -> rr_word rep = word -> sequence rules word w' ->
  exists rep', rewrite_rules false n rules i word rep recs = Ok (rep', recs) /\ rr_word rep' = w'.
Proof.
  intros Hw Ew Hs; revert rep Hw Ew; induction Hs as [w|r rules w w1 w2 Hr Hs IH]; intros rep Hw Ew; cbn [rewrite_rules].
  - exists rep; auto.
  - unfold rule_replace in Hr; destruct (replacements r w) as [repls| | | | |] eqn:Er; cbn [bind] in *; try discriminate.
    destruct (string_word rep repls w Hw Ew) as [(rep1 & rep0 & E1 & E0 & Hw1 & Hn1 & Hl1)|[E1 E0]];
      rewrite E0 in Hr; cbn [bind] in Hr; [|discriminate]; injection Hr as <-.
    rewrite E1; cbn [bind record_subword negb]; apply IH; auto.
Qed.

(** ** Pieces *)
Fixpoint mapm {A B} (f : A -> res B) (l : list A) : res (list B) :=
  match l with
  | [] => Ok []
  | x :: l' => let! y := f x in let! t := mapm f l' in Ok (y :: t)
  end.
Lemma mapm_forall2 {A B} (f : A -> res B) l out : mapm f l = Ok out <-> Forall2 (fun x y => f x = Ok y) l out.
Proof.
  revert out; induction l as [|x l IH]; intros out; cbn [mapm]; split; intros H.
  - injection H as <-; constructor.
  - inversion H; reflexivity.
  - destruct (f x) as [y| | | | |] eqn:E; cbn [bind] in H; try discriminate.
    destruct (mapm f l) as [t| | | | |]; cbn [bind] in H; try discriminate; injection H as <-.
    constructor; [exact E|apply IH; reflexivity].
  - inversion H as [|? y ? t Hy Ht]; subst; rewrite Hy; cbn [bind].
    rewrite (proj2 (IH t) Ht); reflexivity.
Qed.

Definition rewrite_piece (rules : list rule) (sw : subword) : res (list subword) :=
  let! '(rep, _) := rewrite_rules false 0 rules 0 (sw_word sw) (new_replacer (sw_word sw) (sw_level sw) 1) [] in
  let! '(_, out) := replacer_subwords rep in Ok out.
Lemma rewrite_rules_plain n rules i word rep recs :
  rewrite_rules false n rules i word rep recs =
  let! '(rep', _) := rewrite_rules false 0 rules 0 word rep [] in Ok (rep', recs).
Proof.
  revert word rep; induction rules as [|r rules IH]; intros word rep; cbn [rewrite_rules]; [reflexivity|].
  destruct (replacements r word); cbn [bind]; try reflexivity.
  destruct (replacer_string _) as [[rep1 word1]| | | | |]; cbn [bind record_subword negb]; try reflexivity; apply IH.
Qed.
Lemma rewrite_loop_plain n rules i sws buf recs :
  rewrite_loop false n rules i sws buf recs =
  let! outs := mapm (rewrite_piece rules) sws in Ok (buf ++ concat outs, recs).
Proof.
  revert i buf; induction sws as [|sw sws IH]; intros i buf; cbn [rewrite_loop mapm bind concat].
  - rewrite app_nil_r; reflexivity.
  - rewrite rewrite_rules_plain; unfold rewrite_piece at 1.
    destruct (rewrite_rules false 0 rules 0 _ _ []) as [[rep rc]| | | | |]; cbn [bind]; try reflexivity.
    destruct (replacer_subwords rep) as [[rep1 out]| | | | |]; cbn [bind]; try reflexivity.
    rewrite IH; destruct (mapm _ sws); cbn [bind concat]; try reflexivity; rewrite app_assoc; reflexivity.
Qed.

(** The text of the subwords of a replacer. *)
Lemma subwords_loop_text gs i levels level buf sws :
  subwords_loop gs i levels level buf = Ok sws ->
  concat (map sw_word sws) = buf ++ encode (map fst gs) /\
  Forall (fun sw => sw_level sw = level \/ In (sw_level sw) levels) sws.
Proof.
  revert i level buf sws; induction gs as [|[ch w] gs IH]; intros i level buf sws; cbn [subwords_loop].
  - intros E; injection E as <-; cbn; split; [reflexivity|constructor; auto].
  - destruct (index levels (Z.of_nat i)) as [l| | | | |] eqn:El; cbn [bind]; try discriminate.
    assert (In l levels) as Hin.
    { unfold index in El; destruct (0 <=? _); [|discriminate].
      destruct (nth_error levels _) eqn:En; [|discriminate]; injection El as <-; eapply nth_error_In; exact En. }
    destruct (l =? level).
    + intros E; destruct (IH _ _ _ _ E) as [-> Hf]; split; [|exact Hf].
      unfold encode; cbn [map fst flat_map]; rewrite <- app_assoc; reflexivity.
    + destruct (subwords_loop gs _ levels l _) as [t| | | | |] eqn:Et; cbn [bind]; try discriminate.
      intros E; injection E as <-; destruct (IH _ _ _ _ Et) as [H1 H2]; cbn [map concat sw_word]; rewrite H1.
      split; [reflexivity|]; constructor; [left; reflexivity|].
      eapply Forall_impl; [|exact H2]; cbv beta; intros sw [->|H]; auto.
Qed.
Lemma subwords_text r r' sws :
  rep_wf r -> replacer_subwords r = Ok (r', sws) ->
  concat (map sw_word sws) = encode (runes (rr_word r)) /\
  Forall (fun sw => In (sw_level sw) (rr_levels r)) sws.
Proof.
  intros [Hl Hr]; unfold replacer_subwords, commit; rewrite Hr; cbn [commit_loop]; rewrite !slice_all; cbn [bind rr_levels rr_word].
  destruct (rr_levels r) as [|l lv] eqn:El.
  - intros E; injection E as _ <-; destruct (rr_word r); [split; [reflexivity|constructor]|discriminate].
  - rewrite <- El; destruct (subwords_loop _ _ _ _ _) as [t| | | | |] eqn:Et; cbn [bind]; try discriminate.
    intros E; injection E as _ <-; destruct (subwords_loop_text _ _ _ _ _ _ Et) as [-> Hf].
    split; [reflexivity|]; eapply Forall_impl; [|exact Hf]; cbv beta; intros sw [->|H]; [rewrite El; left; reflexivity|exact H].
Qed.

Lemma rewrite_piece_sequence rules sw out :
  rewrite_piece rules sw = Ok out ->
  exists w, sequence rules (sw_word sw) w /\ concat (map sw_word out) = encode (runes w) /\
    Forall (fun x => sw_level x = 1 \/ sw_level x = sw_level sw) out.
Proof.
  unfold rewrite_piece.
  destruct (rewrite_rules false 0 rules 0 _ _ []) as [[rep rc]| | | | |] eqn:E; cbn [bind]; try discriminate.
  destruct (rewrite_rules_sequence _ _ _ _ _ _ _ _ (new_replacer_wf _ _ _) eq_refl E) as (Hs & Hw & _ & _ & Hl).
  destruct (replacer_subwords rep) as [[rep1 sws]| | | | |] eqn:Es; cbn [bind]; try discriminate.
  intros E2; injection E2 as <-; destruct (subwords_text _ _ _ Hw Es) as [Ht Hf].
  exists (rr_word rep); split; [exact Hs|]; split; [exact Ht|].
  eapply Forall_impl; [|exact Hf]; cbv beta; intros x Hx; destruct (Hl _ Hx) as [->|Hx']; [left; reflexivity|right].
  cbn [new_replacer rr_levels] in Hx'; apply repeat_spec in Hx'; exact Hx'.
Qed.
Lemma sequence_rewrite_piece rules sw w :
  sequence rules (sw_word sw) w -> exists out, rewrite_piece rules sw = Ok out.
Proof.
  intros Hs; unfold rewrite_piece.
  destruct (sequence_rewrite_rules 0 rules 0 (sw_word sw) (new_replacer (sw_word sw) (sw_level sw) 1) [] w
              (new_replacer_wf _ _ _) eq_refl Hs) as (rep & E & _); rewrite E; cbn [bind].
  destruct (rewrite_rules_sequence _ _ _ _ _ _ _ _ (new_replacer_wf _ _ _) eq_refl E) as (_ & Hw & _).
  destruct (subwords_total rep Hw) as (sws & ->); eexists; reflexivity.
Qed.

Lemma map_res_ok {A B} (f : A -> B) r y : map_res f r = Ok y -> exists x, r = Ok x /\ y = f x.
Proof. destruct r; cbn; intros E; try discriminate; injection E as <-; eexists; split; reflexivity. Qed.

Lemma rewrite_sequential s tr sws tr' out :
  numbered (s_rewrite s) -> rewrite s tr sws = Ok (tr', out) ->
  exists ws, Forall2 (fun sw w => sequence (s_rewrite s) (sw_word sw) w) sws ws /\
    concat (map sw_word out) = concat (map (fun w => encode (runes w)) ws).
Proof.
  intros Hn E; pose proof (rewrite_trace s tr sws Hn) as Et; rewrite E in Et; cbn [map_res snd] in Et; symmetry in Et.
  apply map_res_ok in Et; destruct Et as ([tr0 out0] & E0 & Eo); cbn [snd] in Eo; subst out0.
  unfold rewrite in E0; cbn [is_some] in E0; rewrite rewrite_loop_plain in E0.
  destruct (mapm _ sws) as [outs| | | | |] eqn:Em; cbn [bind app trace_commit] in E0; try discriminate.
  injection E0 as _ <-; apply mapm_forall2 in Em.
  assert (exists ws, Forall2 (fun sw w => sequence (s_rewrite s) (sw_word sw) w) sws ws /\
            concat (map sw_word (concat outs)) = concat (map (fun w => encode (runes w)) ws)) as (ws & H1 & H2).
  { clear E; induction Em as [|sw o sws outs Ho Em IH]; [exists []; split; constructor|].
    destruct IH as (ws & H1 & H2); destruct (rewrite_piece_sequence _ _ _ Ho) as (w & Hs & Ht & _).
    exists (w :: ws); split; [constructor; assumption|]; cbn [concat map]; rewrite map_app, concat_app, H2, Ht; reflexivity. }
  exists ws; split; [exact H1|]; rewrite <- H2; apply builder_text.
Qed.
Lemma sequential_rewrite s sws ws :
  Forall2 (fun sw w => sequence (s_rewrite s) (sw_word sw) w) sws ws ->
  exists out, rewrite s None sws = Ok (None, out).
Proof.
  intros Hf; assert (exists outs, mapm (rewrite_piece (s_rewrite s)) sws = Ok outs) as (outs & E).
  { induction Hf as [|sw w sws ws Hw Hf IH]; [eexists; reflexivity|].
    destruct IH as (outs & IH); destruct (sequence_rewrite_piece _ _ _ Hw) as (o & Ho).
    exists (o :: outs); cbn [mapm]; rewrite Ho; cbn [bind]; rewrite IH; reflexivity. }
  unfold rewrite; cbn [is_some]; rewrite rewrite_loop_plain, E; eexists; reflexivity.
Qed.
