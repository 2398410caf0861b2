(** Facts about package internal/subword. *)
From Verif Require Import GoBase Utf8 Utf8Facts Subword.
Open Scope Z_scope.

(** ** Slices *)
Lemma slice_ok {A} (s : list A) (i j : Z) :
  0 <= i -> i <= j -> j <= len s ->
  slice s i j = Ok (firstn (Z.to_nat (j - i)) (skipn (Z.to_nat i) s)).
Proof.
  intros H1 H2 H3; unfold slice.
  assert ((0 <=? i) && (i <=? j) && (j <=? len s) = true) as -> by lia; reflexivity.
Qed.
Lemma slice_bounds {A} (s : list A) (i j : Z) r :
  slice s i j = Ok r -> 0 <= i <= j /\ j <= len s /\
  r = firstn (Z.to_nat (j - i)) (skipn (Z.to_nat i) s).
Proof.
  unfold slice; destruct ((0 <=? i) && (i <=? j) && (j <=? len s)) eqn:E; [|discriminate].
  intros H; injection H as <-; split; [lia|split; [lia|reflexivity]].
Qed.
Lemma slice_app_mid {A} (a b c : list A) :
  slice (a ++ b ++ c) (len a) (len a + len b) = Ok b.
Proof.
  rewrite slice_ok; unfold len; rewrite ?app_length; try lia.
  f_equal. replace (Z.to_nat (Z.of_nat (length a) + Z.of_nat (length b) - Z.of_nat (length a)))
    with (length b) by lia.
  rewrite Nat2Z.id, skipn_app, skipn_all, Nat.sub_diag; cbn [app skipn].
  rewrite firstn_app, firstn_all, Nat.sub_diag; cbn; apply app_nil_r.
Qed.
Lemma slice_app_end {A} (a b : list A) : slice (a ++ b) (len a) (len (a ++ b)) = Ok b.
Proof.
  rewrite <- (app_nil_r b) at 1. replace (len (a ++ b)) with (len a + len b)
    by (unfold len; rewrite app_length; lia).
  apply slice_app_mid.
Qed.
Lemma slice_all {A} (a : list A) : slice a 0 (len a) = Ok a.
Proof. exact (slice_app_end [] a). Qed.
Lemma len_app {A} (a b : list A) : len (a ++ b) = len a + len b.
Proof. unfold len; rewrite app_length; lia. Qed.
Lemma len_nonneg {A} (a : list A) : 0 <= len a. Proof. unfold len; lia. Qed.

(** ** Builder *)

(** Every byte with the level of the subword it is in. *)
Definition tag (l : Z) (w : bytes) : list (N * Z) := map (fun b => (b, l)) w.
Definition tagged (sws : list subword) : list (N * Z) :=
  flat_map (fun sw => tag (sw_level sw) (sw_word sw)) sws.

(** No two neighbours have the same level. *)
Fixpoint levels_alternate (sws : list subword) : Prop :=
  match sws with
  | a :: (b :: _) as rest => sw_level a <> sw_level b /\ levels_alternate rest
  | _ => True
  end.

Lemma tag_app l a b : tag l (a ++ b) = tag l a ++ tag l b. Proof. apply map_app. Qed.

Lemma tagged_text sws : map fst (tagged sws) = builder_string sws.
Proof.
  unfold tagged, builder_string; induction sws as [|sw sws IH]; [reflexivity|].
  cbn [flat_map map concat]; rewrite map_app, IH; f_equal.
  unfold tag; rewrite map_map; cbn [fst]; apply map_id.
Qed.

Lemma merge_loop_text sws buf level :
  builder_string (merge_loop sws buf level) = buf ++ builder_string sws.
Proof.
  revert buf level; induction sws as [|sw sws IH]; intros buf level; cbn [merge_loop].
  - unfold builder_string; cbn; reflexivity.
  - destruct (negb (sw_level sw =? level) && negb (level =? -1)).
    + unfold builder_string in *; cbn [map concat sw_word]; rewrite IH; reflexivity.
    + rewrite IH; unfold builder_string; cbn [map concat]; rewrite app_assoc; reflexivity.
Qed.

Lemma builder_text b : builder_string (builder_subwords b) = builder_string b.
Proof. destruct b as [|sw b]; [reflexivity|]; apply merge_loop_text. Qed.

Lemma merge_loop_tagged sws buf level :
  Forall (fun sw => sw_level sw <> -1) sws -> (level = -1 -> buf = []) ->
  tagged (merge_loop sws buf level) = tag level buf ++ tagged sws.
Proof.
  intros Hall; revert buf level; induction Hall as [|sw sws Hsw Hall IH]; intros buf level Hbuf;
    cbn [merge_loop].
  - unfold tagged; cbn [flat_map sw_level sw_word]; reflexivity.
  - destruct (negb (sw_level sw =? level) && negb (level =? -1)) eqn:E.
    + unfold tagged at 1; cbn [flat_map sw_level sw_word].
      fold (tagged (merge_loop sws (sw_word sw) (sw_level sw))).
      rewrite IH by (intros; contradiction); reflexivity.
    + rewrite IH by (intros; contradiction); rewrite tag_app.
      unfold tagged; cbn [flat_map]; rewrite <- app_assoc; f_equal.
      destruct (Z.eq_dec (sw_level sw) level) as [->|Hne]; [reflexivity|].
      assert (level = -1) as Hl by lia; rewrite (Hbuf Hl); reflexivity.
Qed.

Lemma builder_tagged b :
  Forall (fun sw => sw_level sw <> -1) b -> tagged (builder_subwords b) = tagged b.
Proof.
  intros H; destruct b as [|sw b]; [reflexivity|].
  unfold builder_subwords; rewrite merge_loop_tagged by (try exact H; reflexivity); reflexivity.
Qed.

Lemma merge_loop_head sws buf level sw rest :
  level <> -1 -> merge_loop sws buf level = sw :: rest -> sw_level sw = level.
Proof.
  revert buf; induction sws as [|x sws IH]; intros buf Hl; cbn [merge_loop].
  - intros H; injection H as <- _; reflexivity.
  - destruct (negb (sw_level x =? level) && negb (level =? -1)) eqn:E.
    + intros H; injection H as <- _; reflexivity.
    + assert (sw_level x = level) as -> by lia; apply IH; exact Hl.
Qed.

Lemma merge_loop_alternates sws buf level :
  Forall (fun sw => sw_level sw <> -1) sws -> levels_alternate (merge_loop sws buf level).
Proof.
  intros Hall; revert buf level; induction Hall as [|sw sws Hsw Hall IH]; intros buf level;
    cbn [merge_loop]; [exact I|].
  destruct (negb (sw_level sw =? level) && negb (level =? -1)) eqn:E; [|apply IH].
  specialize (IH (sw_word sw) (sw_level sw)).
  destruct (merge_loop sws (sw_word sw) (sw_level sw)) as [|m ms] eqn:Em; [exact I|].
  split; [|exact IH].
  apply merge_loop_head in Em; [|exact Hsw]; cbn [sw_level]; rewrite Em; lia.
Qed.

Lemma builder_alternates b :
  Forall (fun sw => sw_level sw <> -1) b -> levels_alternate (builder_subwords b).
Proof. intros H; destruct b; [exact I|]; apply merge_loop_alternates; exact H. Qed.

Lemma merge_loop_levels sws buf level sw :
  In sw (merge_loop sws buf level) -> sw_level sw = level \/ exists x, In x sws /\ sw_level sw = sw_level x.
Proof.
  revert buf level; induction sws as [|x sws IH]; intros buf level; cbn [merge_loop].
  - intros [<-|[]]; left; reflexivity.
  - destruct (negb (sw_level x =? level) && negb (level =? -1)).
    + intros [<-|Hin]; [left; reflexivity|].
      destruct (IH _ _ Hin) as [->|(y & Hy & ->)]; right; [exists x|exists y]; split; auto with datatypes.
    + intros Hin; destruct (IH _ _ Hin) as [->|(y & Hy & ->)]; right; [exists x|exists y];
        split; auto with datatypes.
Qed.
Lemma builder_levels (P : Z -> Prop) b :
  Forall (fun sw => P (sw_level sw)) b -> b <> [] ->
  Forall (fun sw => P (sw_level sw) \/ sw_level sw = -1) (builder_subwords b).
Proof.
  intros H Hn; destruct b as [|s b]; [contradiction|]; unfold builder_subwords.
  apply Forall_forall; intros sw Hin; apply merge_loop_levels in Hin.
  destruct Hin as [->|(x & Hx & ->)]; [right; reflexivity|left].
  rewrite Forall_forall in H; apply H; exact Hx.
Qed.

Lemma merge_loop_levels_in (P : Z -> Prop) sws buf level :
  Forall (fun sw => P (sw_level sw)) sws -> P level \/ (level = -1 /\ sws <> []) ->
  Forall (fun sw => P (sw_level sw)) (merge_loop sws buf level).
Proof.
  intros Hall; revert buf level; induction Hall as [|sw sws Hsw Hall IH]; intros buf level Hl;
    cbn [merge_loop].
  - constructor; [|constructor]; cbn; destruct Hl as [Hl|[_ Hl]]; [exact Hl|contradiction].
  - destruct (negb (sw_level sw =? level) && negb (level =? -1)) eqn:E.
    + constructor; [|apply IH; left; exact Hsw].
      cbn; destruct Hl as [Hl|[Hl _]]; [exact Hl|subst level; rewrite Z.eqb_refl in E; lia].
    + apply IH; left; exact Hsw.
Qed.
Lemma builder_levels_in (P : Z -> Prop) b :
  Forall (fun sw => P (sw_level sw)) b -> Forall (fun sw => P (sw_level sw)) (builder_subwords b).
Proof.
  intros H; destruct b as [|s b]; [constructor|].
  apply merge_loop_levels_in; [exact H|right; split; [reflexivity|discriminate]].
Qed.

(** ** Replacer, bytes *)

(** Replacements in order, disjoint and inside of a word of [n] bytes. *)
Fixpoint ordered_repls (n off : Z) (repls : list replacement) : Prop :=
  match repls with
  | [] => off <= n
  | x :: t => off <= rp_start x /\ rp_start x <= rp_stop x /\ rp_stop x <= n
              /\ ordered_repls n (rp_stop x) t
  end.

(** What the replacements mean on bytes paired with levels. *)
Fixpoint apply_repls (tb : list (N * Z)) (next : Z) (off : Z) (repls : list replacement)
  : list (N * Z) :=
  match repls with
  | [] => skipn (Z.to_nat off) tb
  | x :: t => firstn (Z.to_nat (rp_start x - off)) (skipn (Z.to_nat off) tb)
              ++ tag next (rp_word x) ++ apply_repls tb next (rp_stop x) t
  end.

Lemma combine_app {A B} (a1 a2 : list A) (b1 b2 : list B) :
  length a1 = length b1 -> combine (a1 ++ a2) (b1 ++ b2) = combine a1 b1 ++ combine a2 b2.
Proof.
  revert b1; induction a1 as [|x a1 IH]; destruct b1 as [|y b1]; cbn; intros H; try discriminate.
  - reflexivity.
  - rewrite IH by lia; reflexivity.
Qed.
Lemma combine_skipn {A B} n (a : list A) (b : list B) :
  skipn n (combine a b) = combine (skipn n a) (skipn n b).
Proof.
  revert a b; induction n as [|n IH]; intros a b; [reflexivity|].
  destruct a as [|x a]; [reflexivity|]; destruct b as [|y b]; [cbn; destruct (skipn n a); reflexivity|].
  apply IH.
Qed.
Lemma combine_repeat (w : bytes) l : combine w (repeat l (length w)) = tag l w.
Proof. induction w as [|b w IH]; [reflexivity|]; cbn; rewrite IH; reflexivity. Qed.

Lemma commit_loop_ok r repls off :
  length (rr_levels r) = length (rr_word r) -> 0 <= off ->
  ordered_repls (len (rr_word r)) off repls ->
  exists w l, commit_loop repls r off = Ok (w, l) /\ length l = length w
              /\ combine w l = apply_repls (combine (rr_word r) (rr_levels r)) (rr_next r) off repls.
Proof.
  intros Hlen; assert (len (rr_levels r) = len (rr_word r)) as Hl by (unfold len; lia).
  revert off; induction repls as [|x t IH]; intros off H0 Hord; cbn [commit_loop ordered_repls apply_repls] in *.
  - rewrite !slice_ok by lia; cbn [bind].
    replace (Z.to_nat (len (rr_word r) - off)) with (length (skipn (Z.to_nat off) (rr_word r)))
      by (rewrite skipn_length; unfold len; lia).
    replace (Z.to_nat (len (rr_levels r) - off)) with (length (skipn (Z.to_nat off) (rr_levels r)))
      by (rewrite skipn_length; unfold len; lia).
    rewrite !firstn_all; eexists _, _; split; [reflexivity|].
    split; [rewrite !skipn_length; lia|rewrite combine_skipn; reflexivity].
  - destruct Hord as (H1 & H2 & H3 & H4).
    assert (rp_stop x <= len (rr_word r)) by lia.
    rewrite !slice_ok by lia; cbn [bind].
    destruct (IH (rp_stop x)) as (w & l & -> & Hll & Hc); [lia|exact H4|]; cbn [bind].
    eexists _, _; split; [reflexivity|].
    assert (length (firstn (Z.to_nat (rp_start x - off)) (skipn (Z.to_nat off) (rr_levels r)))
            = length (firstn (Z.to_nat (rp_start x - off)) (skipn (Z.to_nat off) (rr_word r)))) as E
      by (rewrite !firstn_length, !skipn_length; lia).
    split.
    + rewrite !app_length, repeat_length; lia.
    + rewrite combine_app by (symmetry; exact E).
      rewrite combine_app by (rewrite repeat_length; reflexivity).
      rewrite combine_repeat, Hc, combine_skipn, combine_firstn; reflexivity.
Qed.

Lemma commit_ok r :
  length (rr_levels r) = length (rr_word r) ->
  ordered_repls (len (rr_word r)) 0 (rr_repls r) ->
  exists r', commit r = Ok r' /\ rr_repls r' = [] /\ rr_next r' = rr_next r
    /\ length (rr_levels r') = length (rr_word r')
    /\ combine (rr_word r') (rr_levels r')
       = apply_repls (combine (rr_word r) (rr_levels r)) (rr_next r) 0 (rr_repls r).
Proof.
  intros Hl Ho; destruct (commit_loop_ok r (rr_repls r) 0 Hl ltac:(lia) Ho) as (w & l & E & Hll & Hc).
  unfold commit; rewrite E; cbn [bind]; eexists; split; [reflexivity|]; cbn; auto.
Qed.

(** ** Replacer, characters *)

(** A word as characters with levels. *)
Definition cells := list (rune * Z).
Definition word_of (c : cells) : bytes := encode (map fst c).
Definition levels_of (c : cells) : list Z :=
  flat_map (fun x => repeat (snd x) (length (encode_rune (fst x)))) c.
Definition scalar_cells (c : cells) : Prop := scalars (map fst c).

Lemma word_of_app a b : word_of (a ++ b) = word_of a ++ word_of b.
Proof. unfold word_of; rewrite map_app; apply encode_app. Qed.
Lemma levels_of_app a b : levels_of (a ++ b) = levels_of a ++ levels_of b.
Proof. apply flat_map_app. Qed.
Lemma levels_of_length c : length (levels_of c) = length (word_of c).
Proof.
  induction c as [|[r l] c IH]; [reflexivity|].
  change ((r, l) :: c) with ([(r, l)] ++ c); rewrite levels_of_app, word_of_app, !app_length, IH.
  unfold levels_of, word_of, encode; cbn; rewrite !app_nil_r, repeat_length; reflexivity.
Qed.
Lemma levels_of_len c : len (levels_of c) = len (word_of c).
Proof. unfold len; rewrite levels_of_length; reflexivity. Qed.

Definition mk_replacer (c : cells) (next : Z) (repls : list replacement) : replacer :=
  {| rr_word := word_of c; rr_repls := repls; rr_levels := levels_of c; rr_next := next |}.

(** One round of editing: consecutive segments, kept (None) or replaced. *)
Definition round := list (cells * option (list rune)).
Definition before (rd : round) : cells := flat_map fst rd.
Definition after (next : Z) (rd : round) : cells :=
  flat_map (fun x => match snd x with
                     | None => fst x
                     | Some w => map (fun c => (c, next)) w
                     end) rd.
(** The replacements that describe a round, from byte offset [off]. *)
Fixpoint repls_of (off : Z) (rd : round) : list replacement :=
  match rd with
  | [] => []
  | (o, None) :: t => repls_of (off + len (word_of o)) t
  | (o, Some w) :: t =>
    {| rp_start := off; rp_stop := off + len (word_of o); rp_word := encode w |}
    :: repls_of (off + len (word_of o)) t
  end.

Lemma word_of_const l w : word_of (map (fun c => (c, l)) w) = encode w.
Proof. unfold word_of; rewrite map_map; cbn [fst]; rewrite map_id; reflexivity. Qed.
Lemma repeat_add {A} (x : A) n m : repeat x (n + m) = repeat x n ++ repeat x m.
Proof. apply repeat_app. Qed.
Lemma levels_of_const l w : levels_of (map (fun c => (c, l)) w) = repeat l (length (encode w)).
Proof.
  induction w as [|c w IH]; [reflexivity|].
  unfold encode in *; cbn [map levels_of flat_map fst snd]; unfold levels_of in IH; rewrite IH.
  rewrite app_length, repeat_app; reflexivity.
Qed.

Lemma commit_loop_round r rd pre kept next :
  rr_word r = word_of (pre ++ kept ++ before rd) ->
  rr_levels r = levels_of (pre ++ kept ++ before rd) ->
  rr_next r = next ->
  commit_loop (repls_of (len (word_of (pre ++ kept))) rd) r (len (word_of pre))
  = Ok (word_of (kept ++ after next rd), levels_of (kept ++ after next rd)).
Proof.
  revert pre kept; induction rd as [|[o w] rd IH]; intros pre kept Hw Hl Hn.
  - cbn [repls_of commit_loop before after flat_map] in *; rewrite Hw, Hl.
    rewrite app_nil_r, word_of_app, levels_of_app, slice_app_end; cbn [bind].
    rewrite <- levels_of_len, slice_app_end; cbn [bind]; rewrite ?app_nil_r; reflexivity.
  - destruct w as [w|]; cbn [repls_of commit_loop before after flat_map fst snd] in *.
    + cbn [rp_start rp_stop rp_word].
      assert (slice (rr_word r) (len (word_of pre)) (len (word_of (pre ++ kept)))
              = Ok (word_of kept)) as ->.
      { rewrite Hw, !word_of_app, len_app; apply slice_app_mid. }
      cbn [bind].
      assert (slice (rr_levels r) (len (word_of pre)) (len (word_of (pre ++ kept)))
              = Ok (levels_of kept)) as ->.
      { rewrite Hl, <- !levels_of_len, !levels_of_app, len_app; apply slice_app_mid. }
      cbn [bind].
      replace (len (word_of (pre ++ kept)) + len (word_of o)) with (len (word_of (pre ++ kept ++ o)))
        by (rewrite !word_of_app, !len_app; lia).
      specialize (IH (pre ++ kept ++ o) []); cbn [app] in IH; rewrite app_nil_r in IH.
      rewrite IH; [|rewrite Hw; f_equal; rewrite <- !app_assoc; reflexivity
                   |rewrite Hl; f_equal; rewrite <- !app_assoc; reflexivity|exact Hn].
      cbn [bind]; rewrite !word_of_app, !levels_of_app, word_of_const, levels_of_const, Hn; reflexivity.
    + replace (len (word_of (pre ++ kept)) + len (word_of o)) with (len (word_of (pre ++ kept ++ o)))
        by (rewrite !word_of_app, !len_app; lia).
      rewrite (IH pre (kept ++ o)); [rewrite <- !app_assoc; reflexivity
         |rewrite Hw; f_equal; rewrite <- !app_assoc; reflexivity
         |rewrite Hl; f_equal; rewrite <- !app_assoc; reflexivity|exact Hn].
Qed.

Lemma commit_round next rd :
  commit (mk_replacer (before rd) next (repls_of 0 rd)) = Ok (mk_replacer (after next rd) next []).
Proof.
  unfold commit; cbn [rr_repls mk_replacer rr_next].
  pose proof (commit_loop_round (mk_replacer (before rd) next (repls_of 0 rd)) rd [] [] next
                eq_refl eq_refl eq_refl) as H.
  cbn [app] in H; unfold word_of at 1 2 in H; cbn [map encode flat_map] in H.
  change (len (@nil N)) with 0 in H; unfold mk_replacer in *; rewrite H; reflexivity.
Qed.

(** The subwords of a word, seen as characters with levels. *)
Definition cells_of (sws : list subword) : cells :=
  flat_map (fun sw => map (fun c => (c, sw_level sw)) (runes (sw_word sw))) sws.

Lemma index_app_mid {A} (a b : list A) x : index (a ++ x :: b) (len a) = Ok x.
Proof.
  unfold index, len; assert (0 <=? Z.of_nat (length a) = true) as -> by lia.
  rewrite Nat2Z.id, nth_error_app2 by lia; rewrite Nat.sub_diag; reflexivity.
Qed.

Lemma subwords_loop_ok c pre level buf :
  scalar_cells c -> scalars buf ->
  exists sws,
    subwords_loop (map (fun x => (fst x, length (encode_rune (fst x)))) c)
      (length (word_of pre)) (levels_of (pre ++ c)) level (encode buf) = Ok sws
    /\ cells_of sws = map (fun x => (x, level)) buf ++ c
    /\ levels_alternate sws
    /\ (exists w t, sws = {| sw_word := w; sw_level := level |} :: t)
    /\ (buf <> [] \/ (match c with [] => False | x :: _ => snd x = level end) ->
        Forall (fun sw => sw_word sw <> []) sws)
    /\ Forall (fun sw => utf8_text (sw_word sw)) sws.
Proof.
  revert pre level buf; induction c as [|[ch l] c IH]; intros pre level buf Hc Hbuf; cbn [map subwords_loop].
  - eexists; split; [reflexivity|]; split.
    + unfold cells_of; cbn [flat_map sw_word sw_level]; rewrite runes_encode by exact Hbuf; reflexivity.
    + split; [exact I|]; split; [eexists _, _; reflexivity|]; split.
      * intros [Hn|[]]; constructor; [|constructor]; cbn; intros E; apply encode_nil_inv in E; contradiction.
      * constructor; [apply encode_utf8_text|constructor].
  - cbn [fst].
    assert (index (levels_of (pre ++ (ch, l) :: c)) (Z.of_nat (length (word_of pre))) = Ok l) as ->.
    { rewrite levels_of_app; replace (Z.of_nat (length (word_of pre))) with (len (levels_of pre))
        by (rewrite levels_of_len; reflexivity).
      unfold levels_of at 2; cbn [flat_map fst snd].
      pose proof (encode_rune_nonnil ch) as Hn; destruct (encode_rune ch) as [|b0 bs]; [contradiction|].
      cbn [length repeat app]; apply index_app_mid. }
    cbn [bind].
    inversion Hc as [|? ? Hch Hc']; subst.
    assert ((length (word_of pre) + length (encode_rune ch))%nat = length (word_of (pre ++ [(ch, l)]))) as ->.
    { rewrite word_of_app, app_length; unfold word_of at 3, encode; cbn; rewrite app_nil_r; reflexivity. }
    replace (pre ++ (ch, l) :: c) with ((pre ++ [(ch, l)]) ++ c) by (rewrite <- app_assoc; reflexivity).
    destruct (Z.eqb_spec l level) as [->|Hne].
    + replace (encode buf ++ encode_rune ch) with (encode (buf ++ [ch]))
        by (rewrite encode_app; unfold encode at 2; cbn; rewrite app_nil_r; reflexivity).
      destruct (IH (pre ++ [(ch, level)]) level (buf ++ [ch])) as (sws & E & Hcells & Halt & Hhd & Hne & Hu).
      * exact Hc'.
      * apply Forall_app; split; [exact Hbuf|constructor; [exact Hch|constructor]].
      * exists sws; split; [exact E|]; split; [|split; [exact Halt|split; [exact Hhd|split; [|exact Hu]]]].
        -- rewrite Hcells, map_app, <- app_assoc; reflexivity.
        -- intros _; apply Hne; left; destruct buf; discriminate.
    + replace (encode_rune ch) with (encode [ch]) by (unfold encode; cbn; apply app_nil_r).
      destruct (IH (pre ++ [(ch, l)]) l [ch]) as (sws & E & Hcells & Halt & (w0 & t0 & Hhd) & Hne' & Hu).
      * exact Hc'.
      * constructor; [exact Hch|constructor].
      * rewrite E; cbn [bind]; eexists; split; [reflexivity|]; split.
        -- unfold cells_of in *; cbn [flat_map sw_word sw_level]; rewrite Hcells, runes_encode by exact Hbuf.
           reflexivity.
        -- split; [|split; [eexists _, _; reflexivity|split]].
           ++ subst sws; cbn [levels_alternate]; split; [cbn; congruence|exact Halt].
           ++ cbn [snd]; intros [Hb|Hb]; [|contradiction]; constructor.
              ** cbn; intros E'; apply encode_nil_inv in E'; contradiction.
              ** apply Hne'; left; discriminate.
           ++ constructor; [apply encode_utf8_text|exact Hu].
Qed.

Lemma glyphs_word_of c :
  scalar_cells c -> glyphs (word_of c) = map (fun x => (fst x, length (encode_rune (fst x)))) c.
Proof.
  intros H; unfold word_of; rewrite <- (app_nil_r (encode (map fst c))).
  rewrite glyphs_encode_app by exact H; cbn [glyphs glyphs_from]; rewrite app_nil_r, map_map; reflexivity.
Qed.

(** Subwords of a replacer without pending replacements. *)
Lemma replacer_subwords_ok c next :
  scalar_cells c ->
  exists sws, replacer_subwords (mk_replacer c next []) = Ok (mk_replacer c next [], sws)
    /\ cells_of sws = c /\ levels_alternate sws
    /\ Forall (fun sw => sw_word sw <> []) sws
    /\ Forall (fun sw => utf8_text (sw_word sw)) sws.
Proof.
  intros Hc; unfold replacer_subwords.
  assert (commit (mk_replacer c next []) = Ok (mk_replacer c next [])) as ->.
  { pose proof (commit_round next [(c, None)]) as H; cbn in H; rewrite !app_nil_r in H; exact H. }
  cbn [bind rr_levels mk_replacer].
  destruct c as [|[ch l] c].
  - cbn; exists []; repeat split; constructor.
  - remember (levels_of ((ch, l) :: c)) as lv eqn:Elv.
    assert (exists lv', lv = l :: lv') as (lv' & ->).
    { subst lv; unfold levels_of; cbn [flat_map fst snd].
      pose proof (encode_rune_nonnil ch) as Hn; destruct (encode_rune ch); [contradiction|].
      cbn; eexists; reflexivity. }
    cbn [rr_word mk_replacer]; fold (word_of ((ch, l) :: c)); rewrite (glyphs_word_of ((ch, l) :: c)) by exact Hc.
    destruct (subwords_loop_ok ((ch, l) :: c) [] l [] Hc ltac:(constructor))
      as (sws & E & Hcells & Halt & Hhd & Hne & Hu).
    cbn [app] in E; rewrite <- Elv in E.
    change (length (word_of [])) with 0%nat in E; change (encode []) with (@nil N) in E.
    rewrite E; cbn [bind]; exists sws; split; [reflexivity|].
    split; [exact Hcells|split; [exact Halt|split; [|exact Hu]]].
    apply Hne; right; reflexivity.
Qed.

(** ** Rounds of ReplaceBy and String *)

(** A history of rounds: each is cut from the word the one before left. *)
Fixpoint chained (next : Z) (c : cells) (rds : list round) : Prop :=
  match rds with
  | [] => True
  | rd :: t => before rd = c /\ chained next (after next rd) t
  end.
(** Only Unicode scalar values are put in. *)
Definition scalar_round (rd : round) : Prop :=
  Forall (fun x => match snd x with None => True | Some w => scalars w end) rd.
(** The word after all of them. *)
Definition final (next : Z) (c : cells) (rds : list round) : cells :=
  fold_left (fun _ rd => after next rd) rds c.

(** ReplaceBy, then String. *)
Definition run_round (r : res replacer) (rd : round) : res replacer :=
  let! r0 := r in
  let! '(r1, _) := replacer_string (replace_by r0 (repls_of 0 rd)) in
  Ok r1.

Lemma run_rounds next c rds :
  chained next c rds ->
  fold_left run_round rds (Ok (mk_replacer c next [])) = Ok (mk_replacer (final next c rds) next []).
Proof.
  revert c; induction rds as [|rd rds IH]; intros c H; cbn [fold_left final chained] in *; [reflexivity|].
  destruct H as [<- H]; unfold run_round at 2; cbn [bind].
  unfold replace_by, replacer_string; cbn [mk_replacer rr_word rr_levels rr_repls rr_next app].
  pose proof (commit_round next rd) as E; unfold mk_replacer at 1 in E; rewrite E; cbn [bind].
  apply IH; exact H.
Qed.

Lemma after_scalar next rd : scalar_cells (before rd) -> scalar_round rd -> scalar_cells (after next rd).
Proof.
  unfold scalar_cells; induction rd as [|[o w] rd IH]; cbn [before after flat_map fst snd]; intros Hb Hr;
    [constructor|].
  inversion Hr as [|? ? Hw Hr']; subst; rewrite map_app in *.
  apply Forall_app in Hb; destruct Hb as [Ho Hb]; apply Forall_app; split; [|apply IH; assumption].
  cbn [snd] in Hw; destruct w as [w|]; [|exact Ho].
  rewrite map_map; cbn [fst]; rewrite map_id; exact Hw.
Qed.
Lemma final_scalar next c rds :
  scalar_cells c -> Forall scalar_round rds -> chained next c rds -> scalar_cells (final next c rds).
Proof.
  revert c; induction rds as [|rd rds IH]; intros c Hc Hr Hch; [exact Hc|].
  inversion Hr as [|? ? Hrd Hr']; subst; destruct Hch as [<- Hch].
  apply IH; [apply after_scalar; assumption|assumption|assumption].
Qed.

Lemma new_replacer_cells w prev next :
  new_replacer (encode w) prev next = mk_replacer (map (fun ch => (ch, prev)) w) next [].
Proof. unfold new_replacer, mk_replacer; rewrite word_of_const, levels_of_const; reflexivity. Qed.

Lemma replacer_rounds w prev next rds :
  scalars w -> Forall scalar_round rds ->
  chained next (map (fun ch => (ch, prev)) w) rds ->
  let result := final next (map (fun ch => (ch, prev)) w) rds in
  exists r sws,
    fold_left run_round rds (Ok (new_replacer (encode w) prev next)) = Ok r
    /\ replacer_string r = Ok (r, encode (map fst result))
    /\ replacer_subwords r = Ok (r, sws)
    /\ cells_of sws = result
    /\ levels_alternate sws
    /\ Forall (fun sw => sw_word sw <> []) sws
    /\ Forall (fun sw => utf8_text (sw_word sw)) sws.
Proof.
  intros Hw Hr Hch result.
  assert (scalar_cells result) as Hs.
  { apply final_scalar; [|assumption|assumption].
    unfold scalar_cells; rewrite map_map; cbn [fst]; rewrite map_id; exact Hw. }
  destruct (replacer_subwords_ok result next Hs) as (sws & E & H1 & H2 & H3 & H4).
  exists (mk_replacer result next []), sws.
  rewrite new_replacer_cells, run_rounds by exact Hch.
  repeat split; try assumption.
  unfold replacer_string.
  pose proof (commit_round next [(result, None)]) as Hc; cbn in Hc; rewrite !app_nil_r in Hc.
  rewrite Hc; reflexivity.
Qed.
