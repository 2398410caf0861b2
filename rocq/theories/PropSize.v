(** C87: the size of the result. *)
From Coq Require Import String Lia Permutation.
From Verif Require Import GoBase Utf8 Utf8Facts Unicode Replacer Regex Hre FindFacts Subword SubwordFacts Rule RuleFacts Scripts Hsl Spec SpecOrder Jamo
  Procedure ProcFacts ProcSem ProcLocal ProcChars BString Bundled Api ApiFacts PropSubword PropBundled PropProc PropChars.
From Verif Require LettersFacts PropPattern PropPuncts PropOutput.
Open Scope Z_scope.

(** ** Lists and characters *)
Lemma slice_inv {A} (l : list A) i j x : slice l i j = Ok x -> 0 <= i <= j /\ j <= len l /\ Z.of_nat (length x) = j - i.
Proof.
  unfold slice; destruct ((0 <=? i) && (i <=? j) && (j <=? len l)) eqn:E; [|discriminate]; intros [= <-].
  unfold len in *; rewrite firstn_length, skipn_length; lia.
Qed.
Lemma encode_size rs : (length (encode rs) <= 4 * length rs)%nat.
Proof.
  unfold encode; induction rs as [|r rs IH]; cbn [flat_map length]; [lia|]; rewrite app_length; pose proof (encode_rune_length r); lia.
Qed.
Lemma runes_size s : (length (runes s) <= length s)%nat.
Proof.
  assert (forall s k, (length (glyphs_from k s) <= length s)%nat) as Hg.
  { intros s0; induction s0 as [|b s0 IH]; intros [|k]; cbn [glyphs_from length]; try lia.
    - specialize (IH (snd (decode_rune (b :: s0)) - 1)%nat); lia.
    - specialize (IH k); lia. }
  unfold runes; rewrite map_length; apply Hg.
Qed.
Definition sized (sws : list subword) : nat := length (concat (map sw_word sws)).
Lemma sized_app a b : sized (a ++ b) = (sized a + sized b)%nat.
Proof. unfold sized; rewrite map_app, concat_app, app_length; reflexivity. Qed.
Lemma sized_cons a b : sized (a :: b) = (length (sw_word a) + sized b)%nat.
Proof. unfold sized; cbn [map concat]; rewrite app_length; reflexivity. Qed.

(** ** One rule *)

(** What a rule can write for one match *)
Definition part_size (p : rpart) : nat :=
  match p with Plain s => length s | ToVar _ vals => list_max (map (@length _) vals) end.
Definition rule_size (r : rule) : nat := S (list_sum (map part_size (r_parts (rule_to r)))).

Lemma interpolate_size parts k p word m out : interpolate_parts parts k p word m = Ok out -> (length out <= list_sum (map part_size parts))%nat.
Proof.
  revert k out; induction parts as [|[s|s vals] parts IH]; intros k out; cbn [interpolate_parts map]; change (list_sum (?a :: ?l)) with (a + list_sum l)%nat.
  - intros [= <-]; cbn; lia.
  - destruct (interpolate_parts parts k p word m) as [t| | | | |] eqn:E; cbn [bind]; try discriminate; intros [= <-].
    rewrite app_length; cbn [part_size]; specialize (IH _ _ E); change (list_sum (?a :: ?l)) with (a + list_sum l)%nat; lia.
  - destruct (_ <? _); [discriminate|]; destruct (index (p_usedVars p) k) as [fv| | | | |]; cbn [bind]; try discriminate.
    destruct (captured word m (k + 1)) as [v| | | | |]; cbn [bind]; try discriminate.
    destruct (go_mod _ _) as [i| | | | |]; cbn [bind]; try discriminate.
    destruct (index vals i) as [tv| | | | |] eqn:Ei; cbn [bind]; try discriminate.
    destruct (interpolate_parts parts (k + 1) p word m) as [t| | | | |] eqn:E; cbn [bind]; try discriminate; intros [= <-].
    rewrite app_length; specialize (IH _ _ E); cbn [part_size]; change (list_sum (?a :: ?l)) with (a + list_sum l)%nat.
    assert (length tv <= list_max (map (@length _) vals))%nat; [|lia].
    apply index_In in Ei; pose proof (proj1 (list_max_le (map (@length _) vals) _) (le_n _)) as Hm; rewrite Forall_forall in Hm; apply Hm, in_map; exact Ei.
Qed.

(** Replacements that are in order and not empty *)
Inductive spaced (M : nat) : Z -> list replacement -> Prop :=
| spaced_nil off : spaced M off []
| spaced_cons off x rest : off <= rp_start x < rp_stop x -> (length (rp_word x) <= M)%nat -> spaced M (rp_stop x) rest -> spaced M off (x :: rest).
Lemma spaced_weaken M off off' l : off' <= off -> spaced M off l -> spaced M off' l.
Proof. intros Ho; destruct 1; constructor; auto; lia. Qed.
Lemma repls_spaced r word lo ms repls : ordered word lo ms -> rule_repls r word ms = Ok repls -> spaced (rule_size r) lo repls.
Proof.
  intros Ho; revert repls; induction Ho as [lo|lo start stop core ms Hle Hb1 Hb2 Ho IH]; intros repls; cbn [rule_repls]; [intros [= <-]; constructor|].
  rewrite index_0, index_1; cbn [bind].
  destruct (interpolate _ _ _ _) as [t|e| | | |] eqn:Ei; try discriminate.
  - destruct (rule_repls r word ms) as [l| | | | |] eqn:El; cbn [bind]; try discriminate; intros [= <-]; constructor; cbn [rp_start rp_stop rp_word]; [exact Hle| |apply IH; reflexivity].
    apply interpolate_size in Ei; unfold rule_size; lia.
  - intros E; eapply spaced_weaken; [|apply IH; exact E]; lia.
Qed.

(** What is committed has so many bytes, whatever they are. *)
Lemma commit_size M repls rep off w l : (1 <= M)%nat -> spaced M off repls -> commit_loop repls rep off = Ok (w, l) ->
  off <= len (rr_word rep) /\ Z.of_nat (length w) <= Z.of_nat M * (len (rr_word rep) - off).
Proof.
  intros HM Hs; revert w l; induction Hs as [off|off x rest Hx Hw Hs IH]; intros w l; cbn [commit_loop].
  - destruct (slice (rr_word rep) off _) as [w1| | | | |] eqn:E1; cbn [bind]; try discriminate.
    destruct (slice (rr_levels rep) off _) as [l1| | | | |]; cbn [bind]; try discriminate; intros [= <- _].
    apply slice_inv in E1; nia.
  - destruct (slice (rr_word rep) off _) as [w1| | | | |] eqn:E1; cbn [bind]; try discriminate.
    destruct (slice (rr_levels rep) off _) as [l1| | | | |]; cbn [bind]; try discriminate.
    destruct (commit_loop rest rep (rp_stop x)) as [[w2 l2]| | | | |] eqn:E2; cbn [bind]; try discriminate; intros [= <- _].
    destruct (IH _ _ eq_refl) as [I1 I2]; apply slice_inv in E1; rewrite !app_length; nia.
Qed.
Lemma commit_same repls r1 r2 off w1 l1 w2 l2 : length (rr_word r1) = length (rr_word r2) ->
  commit_loop repls r1 off = Ok (w1, l1) -> commit_loop (map mask repls) r2 off = Ok (w2, l2) -> length w1 = length w2.
Proof.
  intros Hl; revert off w1 l1 w2 l2; induction repls as [|x repls IH]; intros off w1 l1 w2 l2; cbn [map commit_loop].
  - destruct (slice (rr_word r1) off _) as [a1| | | | |] eqn:E1; cbn [bind]; try discriminate.
    destruct (slice (rr_levels r1) off _) as [b1| | | | |]; cbn [bind]; try discriminate; intros [= <- _].
    destruct (slice (rr_word r2) off _) as [a2| | | | |] eqn:E2; cbn [bind]; try discriminate.
    destruct (slice (rr_levels r2) off _) as [b2| | | | |]; cbn [bind]; try discriminate; intros [= <- _].
    apply slice_inv in E1, E2; unfold len in *; lia.
  - destruct (slice (rr_word r1) off _) as [a1| | | | |] eqn:E1; cbn [bind]; try discriminate.
    destruct (slice (rr_levels r1) off _) as [b1| | | | |]; cbn [bind]; try discriminate.
    destruct (commit_loop repls r1 _) as [[v1 m1]| | | | |] eqn:F1; cbn [bind]; try discriminate; intros [= <- _].
    cbn [mask rp_start rp_stop rp_word].
    destruct (slice (rr_word r2) off _) as [a2| | | | |] eqn:E2; cbn [bind]; try discriminate.
    destruct (slice (rr_levels r2) off _) as [b2| | | | |]; cbn [bind]; try discriminate.
    destruct (commit_loop (map mask repls) r2 _) as [[v2 m2]| | | | |] eqn:F2; cbn [bind]; try discriminate; intros [= <- _].
    specialize (IH _ _ _ _ _ F1 F2); apply slice_inv in E1, E2; rewrite !app_length, repeat_length; lia.
Qed.

(** A rule whose matches are in order *)
Definition orders (r : rule) : Prop := forall word ms, find (rule_from r) word (-1) = Ok ms -> ordered word 0 ms.
Lemma replacements_spaced r word repls : orders r -> replacements r word = Ok repls -> spaced (rule_size r) 0 repls.
Proof.
  unfold replacements; intros Ho; destruct (find _ word (-1)) as [ms| | | | |] eqn:Ef; cbn [bind]; try discriminate; apply repls_spaced, Ho, Ef.
Qed.
Lemma string_size M rep repls rep' w : (1 <= M)%nat -> rr_repls rep = [] -> spaced M 0 repls -> replacer_string (replace_by rep repls) = Ok (rep', w) ->
  rr_repls rep' = [] /\ rr_word rep' = w /\ (length w <= M * length (rr_word rep))%nat.
Proof.
  intros HM Hr Hs; unfold replacer_string, commit, replace_by; cbn [rr_repls]; rewrite Hr; cbn [app].
  destruct (commit_loop repls _ 0) as [[w1 l1]| | | | |] eqn:E; cbn [bind]; try discriminate; intros [= <- <-]; cbn [rr_repls rr_word].
  split; [reflexivity|]; split; [reflexivity|]; destruct (commit_size M repls _ 0 w1 l1 HM Hs E) as [_ Hb]; cbn [rr_word] in Hb; unfold len in Hb; nia.
Qed.

(** ** The rules of a section *)
Fixpoint rules_size (rules : list rule) : nat := match rules with [] => 1 | r :: rules' => rule_size r * rules_size rules' end%nat.
Lemma rules_size_pos rules : (1 <= rules_size rules)%nat.
Proof. induction rules as [|r rules IH]; cbn [rules_size]; [lia|]; unfold rule_size in *; nia. Qed.

Lemma rewrite_rules_size n rules i word rep recs rep' recs' : Forall orders rules -> rr_repls rep = [] -> rr_word rep = word ->
  rewrite_rules false n rules i word rep recs = Ok (rep', recs') ->
  rr_repls rep' = [] /\ (length (rr_word rep') <= rules_size rules * length word)%nat.
Proof.
  intros Ho; revert word rep recs; induction Ho as [|r rules Hr Ho IH]; intros word rep recs Hn Hw; cbn [rewrite_rules rules_size].
  - intros [= <- _]; rewrite Hw; split; [exact Hn|lia].
  - destruct (replacements r word) as [repls| | | | |] eqn:Er; cbn [bind]; try discriminate.
    destruct (replacer_string _) as [[rep1 w1]| | | | |] eqn:Es; cbn [bind record_subword negb]; try discriminate; intros E.
    destruct (string_size (rule_size r) rep repls rep1 w1 ltac:(unfold rule_size; lia) Hn (replacements_spaced r word repls Hr Er) Es) as (N1 & W1 & L1).
    destruct (IH _ _ _ N1 W1 E) as [N2 L2]; split; [exact N2|]; rewrite Hw in L1; nia.
Qed.
Lemma transcribe_rules_size n rules i word rep dum recs rep' recs' : Forall orders rules -> rr_repls rep = [] -> rr_repls dum = [] ->
  rr_word dum = word -> length (rr_word rep) = length word ->
  transcribe_rules false n rules i word rep dum recs = Ok (rep', recs') ->
  rr_repls rep' = [] /\ (length (rr_word rep') <= rules_size rules * length word)%nat.
Proof.
  intros Ho; revert word rep dum recs; induction Ho as [|r rules Hr Ho IH]; intros word rep dum recs Hn Hd Hw Hl; cbn [transcribe_rules rules_size].
  - intros [= <- _]; rewrite Hl; split; [exact Hn|lia].
  - destruct (replacements r word) as [repls| | | | |] eqn:Er; cbn [bind]; try discriminate.
    destruct (replacer_string (replace_by dum _)) as [[dum1 w1]| | | | |] eqn:Ed; cbn [bind]; try discriminate.
    destruct (replacer_string (replace_by rep _)) as [[rep1 s1]| | | | |] eqn:Es; cbn [bind record_subword negb]; try discriminate; intros E.
    pose proof (replacements_spaced r word repls Hr Er) as Hs.
    destruct (string_size (rule_size r) rep repls rep1 s1 ltac:(unfold rule_size; lia) Hn Hs Es) as (N1 & W1 & L1).
    assert (rr_repls dum1 = [] /\ rr_word dum1 = w1 /\ length s1 = length w1) as (D1 & D2 & D3).
    { revert Ed Es; unfold replacer_string, commit, replace_by; cbn [rr_repls]; rewrite Hn, Hd; cbn [app].
      destruct (commit_loop (map mask repls) _ 0) as [[a1 b1]| | | | |] eqn:F1; cbn [bind]; try discriminate; intros [= <- <-].
      destruct (commit_loop repls _ 0) as [[a2 b2]| | | | |] eqn:F2; cbn [bind]; try discriminate; intros [= <- <-]; cbn [rr_repls rr_word].
      repeat split; eapply commit_same; [|exact F2|exact F1]; cbn [rr_word]; rewrite Hw; exact Hl. }
    assert (length (rr_word rep1) = length w1) as Hl1 by (rewrite W1; exact D3).
    destruct (IH w1 _ _ _ N1 D1 D2 Hl1 E) as [N2 L2]; split; [exact N2|]; rewrite <- D3 in L2; nia.
Qed.
Lemma subwords_size r r' sws : rr_repls r = [] -> replacer_subwords r = Ok (r', sws) -> (sized sws <= 4 * length (rr_word r))%nat.
Proof.
  intros Hr; unfold replacer_subwords, commit; rewrite Hr; cbn [commit_loop]; rewrite !slice_all; cbn [bind rr_levels rr_word].
  destruct (rr_levels r) as [|l lv]; [intros [= _ <-]; cbn; lia|].
  destruct (subwords_loop _ _ _ _ _) as [t| | | | |] eqn:Et; cbn [bind]; try discriminate; intros [= _ <-].
  destruct (subwords_loop_text _ _ _ _ _ _ Et) as [E _]; unfold sized; rewrite E; cbn [app].
  pose proof (encode_size (map fst (glyphs (rr_word r)))) as H1; pose proof (runes_size (rr_word r)) as H2; unfold runes in H2; rewrite map_length in *; lia.
Qed.
Lemma rewrite_piece_size rules sw out : Forall orders rules -> rewrite_piece rules sw = Ok out -> (sized out <= 4 * rules_size rules * length (sw_word sw))%nat.
Proof.
  intros Ho; unfold rewrite_piece; destruct (rewrite_rules false 0 rules 0 _ _ []) as [[rep rc]| | | | |] eqn:E; cbn [bind]; try discriminate.
  destruct ((fun a b => rewrite_rules_size _ _ _ _ _ _ _ _ Ho a b E) eq_refl eq_refl) as [Hn Hl].
  destruct (replacer_subwords rep) as [[rep1 sws]| | | | |] eqn:Es; cbn [bind]; try discriminate; intros [= <-].
  pose proof (subwords_size _ _ _ Hn Es); nia.
Qed.
Lemma transcribe_piece_size rules sw out : Forall orders rules -> transcribe_piece rules sw = Ok out -> (sized out <= 4 * rules_size rules * length (sw_word sw))%nat.
Proof.
  intros Ho; unfold transcribe_piece; destruct (sw_level sw =? 0).
  - intros [= <-]; unfold sized; cbn [map concat]; rewrite app_nil_r; pose proof (rules_size_pos rules); nia.
  - destruct (transcribe_rules false 0 rules 0 _ _ _ []) as [[rep rc]| | | | |] eqn:E; cbn [bind]; try discriminate.
    destruct ((fun a b c d => transcribe_rules_size _ _ _ _ _ _ _ _ _ Ho a b c d E) eq_refl eq_refl eq_refl eq_refl) as [Hn Hl].
    destruct (replacer_subwords rep) as [[rep1 sws]| | | | |] eqn:Es; cbn [bind]; try discriminate; intros [= <-].
    pose proof (subwords_size _ _ _ Hn Es); nia.
Qed.
Lemma mapm_size f K sws outs : (forall sw out, f sw = Ok out -> (sized out <= K * length (sw_word sw))%nat) ->
  mapm f sws = Ok outs -> (sized (concat outs) <= K * sized sws)%nat.
Proof.
  intros Hf; revert outs; induction sws as [|sw sws IH]; intros outs; cbn [mapm]; [intros [= <-]; cbn; lia|].
  destruct (f sw) as [o| | | | |] eqn:E; cbn [bind]; try discriminate; destruct (mapm f sws) as [os| | | | |]; cbn [bind]; try discriminate; intros [= <-].
  cbn [concat]; rewrite sized_app, sized_cons; specialize (Hf _ _ E); specialize (IH _ eq_refl); nia.
Qed.

(** ** The other steps *)
Lemma compose_size H rs tail score b : (length (compose_loop H rs tail score b) <= length rs + (if is_lmt0 b then 0 else 1))%nat.
Proof.
  assert (forall b, length (Jamo.write H b) = if is_lmt0 b then 0%nat else 1%nat) as Hw.
  { intros [[l m] t]; unfold Jamo.write; destruct (is_lmt0 (l, m, t)); reflexivity. }
  revert tail score b; induction rs as [|ch rs IH]; intros tail score b; cbn [compose_loop length]; [rewrite Hw; lia|].
  destruct (ch =? 0x2D)%N; [specialize (IH true score b); lia|].
  destruct (negb (hl_is_hangul H ch)).
  { rewrite app_length, Hw; cbn [length]; specialize (IH false score lmt0); change (is_lmt0 lmt0) with true in IH; cbn iota in IH; destruct (is_lmt0 b); lia. }
  destruct (negb (hl_is_jaeum H ch) && negb (hl_is_moeum H ch)).
  { rewrite app_length, Hw; specialize (IH false (if (snd (hl_split H ch) =? 0)%N then 1%nat else 2%nat) (hl_split H ch)); destruct (is_lmt0 (hl_split H ch)), (is_lmt0 b); lia. }
  match goal with |- context [(?a <=? score)%nat] => set (score' := a) end.
  destruct (score' <=? score)%nat.
  - rewrite app_length, Hw; specialize (IH false score' (put lmt0 score' ch)); destruct (is_lmt0 (put lmt0 score' ch)), (is_lmt0 b); lia.
  - specialize (IH false score' (put b score' ch)); destruct (is_lmt0 (put b score' ch)), (is_lmt0 b); lia.
Qed.
Lemma compose_hangul_size H w : (length (compose_hangul H w) <= 4 * length w)%nat.
Proof.
  unfold compose_hangul, compose_runes; pose proof (encode_size (compose_loop H (runes w) false 0 lmt0)).
  pose proof (compose_size H (runes w) false 0 lmt0) as Hc; change (is_lmt0 lmt0) with true in Hc; cbn iota in Hc; pose proof (runes_size w); lia.
Qed.
Lemma syllabify_size H sws jb : (length (syllabify_loop H sws jb) <= 4 * (length jb + sized sws))%nat.
Proof.
  revert jb; induction sws as [|sw sws IH]; intros jb; cbn [syllabify_loop]; [pose proof (compose_hangul_size H jb); lia|]; rewrite sized_cons.
  destruct (sw_level sw =? 0); [|specialize (IH (jb ++ sw_word sw)); rewrite app_length in IH; lia].
  rewrite !app_length; specialize (IH []); pose proof (compose_hangul_size H jb); cbn [length] in IH; lia.
Qed.
Lemma discard_size sws : (sized (discard_level1 sws) <= sized sws)%nat.
Proof.
  induction sws as [|sw sws IH]; [cbn; lia|]; unfold discard_level1; cbn [flat_map]; fold (discard_level1 sws); rewrite sized_app, sized_cons.
  destruct (sw_level sw =? 1); [|unfold sized at 1; cbn [map concat]; rewrite app_nil_r; lia].
  destruct (has_space (sw_word sw)) eqn:E; [|cbn; lia]; destruct (sw_word sw); [discriminate|cbn [length]; unfold sized at 1; cbn; lia].
Qed.
Lemma builder_size sws : sized (builder_subwords sws) = sized sws.
Proof. unfold sized; rewrite C32_text_kept; reflexivity. Qed.

Lemma trim_left_size f rs : (length (trim_left_r f rs) <= length rs)%nat.
Proof. induction rs as [|r rs IH]; cbn [trim_left_r length]; [lia|]; destruct (f r); cbn [length]; lia. Qed.
Lemma trim_right_size f rs : (length (trim_right_r f rs) <= length rs)%nat.
Proof. unfold trim_right_r; rewrite rev_length; pose proof (trim_left_size f (rev rs)) as H; rewrite rev_length in H; exact H. Qed.
Lemma localize_punct_size sc ch : (length (localize_punct sc ch) <= 2)%nat.
Proof. unfold localize_punct; destruct sc; repeat match goal with |- context [if ?b then _ else _] => destruct b end; cbn [length]; lia. Qed.
Lemma localize_size sc prev rs : (length (localize_loop sc prev rs) <= 2 * length rs)%nat.
Proof.
  revert prev; induction rs as [|ch rs IH]; intros prev; cbn [localize_loop length]; [lia|]; specialize (IH (ps ch)).
  destruct (ch =? 0x200B)%N; [lia|]; destruct (negb (is_punct ch)); [cbn [length]; lia|]; rewrite app_length.
  assert (length (if prev then trim_left_r is_space (localize_punct sc ch) else localize_punct sc ch) <= 2)%nat as H1.
  { pose proof (localize_punct_size sc ch); pose proof (trim_left_size is_space (localize_punct sc ch)); destruct prev; lia. }
  match goal with |- (length (if ?n then trim_right_r _ ?p else ?p) + _ <= _)%nat => pose proof (trim_right_size is_space p); destruct n; lia end.
Qed.

(** The normalization of characters by a replacer *)
Definition longest (t : list (bytes * bytes)) : nat := list_max (map (fun p => length (snd p)) t).
Lemma rep_lookup_size t s ig v k : rep_lookup t s ig = Some (v, k) -> (length v <= longest t)%nat.
Proof.
  unfold longest; induction t as [|[old new] t IH]; cbn [rep_lookup map]; [discriminate|]; change (list_max (?a :: ?l)) with (Nat.max a (list_max l)); cbn [snd].
  destruct (match old with [] => negb ig | _ => has_prefix s old end); [intros [= <- _]; lia|intros E; specialize (IH E); lia].
Qed.
Lemma rep_from_size t s skip : (length (rep_from skip t s) <= (2 * longest t + 1) * length s + longest t)%nat.
Proof.
  revert skip; induction s as [|c s IH]; intros skip; cbn [rep_from length].
  - destruct skip; [|cbn; lia]; destruct (rep_lookup t [] false) as [[v k]|] eqn:E; [apply rep_lookup_size in E; lia|cbn; lia].
  - rewrite Nat.mul_succ_r; set (P := ((2 * longest t + 1) * length s)%nat) in *.
    destruct skip as [|k]; [|specialize (IH k); lia].
    assert (forall pre r, (length pre <= longest t)%nat -> (forall v k, r = Some (v, k) -> (length v <= longest t)%nat) ->
      (length (match r with Some (v, S k) => pre ++ v ++ rep_from k t s | _ => pre ++ c :: rep_from 0 t s end) <= P + (2 * longest t + 1) + longest t)%nat) as Hgo.
    { intros pre r Hp Hr; destruct r as [[v [|k]]|]; rewrite !app_length; cbn [length].
      - specialize (IH 0%nat); lia.
      - specialize (IH k); specialize (Hr _ _ eq_refl); lia.
      - specialize (IH 0%nat); lia. }
    destruct (rep_lookup t (c :: s) false) as [[v [|k]]|] eqn:E.
    + apply Hgo; [eapply rep_lookup_size; exact E|intros v' k' E'; eapply rep_lookup_size; exact E'].
    + apply (Hgo [] (Some (v, S k))); [cbn; lia|intros v' k' [= <- _]; eapply rep_lookup_size; exact E].
    + apply (Hgo [] None); [cbn; lia|discriminate].
Qed.
Lemma replacer_size t s : (length (replacer_replace t s) <= (2 * longest t + 1) * length s + longest t)%nat.
Proof. apply rep_from_size. Qed.

(** ** All together *)
Definition growth (s : spec) : nat := (2048 * (2 * longest (s_normReplacer s) + 1) * rules_size (s_rewrite s) * rules_size (s_transcribe s))%nat.

Lemma inner_size H s word x : utf8_text word -> Forall orders (s_rewrite s) -> Forall orders (s_transcribe s) ->
  inner H s word = Ok x -> (length x <= 64 * rules_size (s_rewrite s) * rules_size (s_transcribe s) * length word)%nat.
Proof.
  intros Hw Hr Ht; rewrite inner_pieces; destruct (C52_partition s word Hw) as (sws & Ep & Et & _); rewrite Ep; cbn [bind].
  assert (sized sws = length word) as E0 by (unfold sized; rewrite Et; reflexivity).
  destruct (mapm _ sws) as [o1| | | | |] eqn:E1; cbn [bind]; try discriminate.
  pose proof (mapm_size _ _ _ _ (fun sw out => rewrite_piece_size _ sw out Hr) E1) as S1.
  destruct (mapm _ (builder_subwords _)) as [o2| | | | |] eqn:E2; cbn [bind]; try discriminate; intros [= <-].
  pose proof (mapm_size _ _ _ _ (fun sw out => transcribe_piece_size _ sw out Ht) E2) as S2; rewrite builder_size in S2.
  pose proof (syllabify_size H (builder_subwords (discard_level1 (builder_subwords (concat o2)))) []) as S3; cbn [length] in S3; rewrite builder_size in S3.
  pose proof (discard_size (builder_subwords (concat o2))) as S4; rewrite builder_size in S4.
  unfold settle; nia.
Qed.

(** Transliterators that return at most [a] bytes for each byte, and [a] more *)
Definition modest {W} (a : nat) (reg : list (bytes * translit W)) : Prop :=
  forall scheme t w word w' out, In (scheme, t) reg -> tl_run t w word = (w', Ok out) -> (length out <= a * (length word + 1))%nat.
Lemma transliterate_size {W} a schemes (reg : list (bytes * translit W)) w tr word out : modest a reg ->
  snd (transliterate schemes reg w tr word) = Ok out -> (length out + 1 <= (a + 1) ^ length schemes * (length word + 1))%nat.
Proof.
  intros Hm; revert w tr word; induction schemes as [|sc schemes IH]; intros w tr word; cbn [transliterate length Nat.pow]; [intros [= <-]; lia|].
  destruct (lookup reg sc) as [t|] eqn:El; [|discriminate]; apply PropBundled.lookup_in in El.
  destruct (tl_run t w word) as [w1 [word1| | | | |]] eqn:Er; try discriminate; intros E; apply IH in E; specialize (Hm _ _ _ _ _ _ El Er).
  etransitivity; [exact E|]; rewrite (Nat.mul_comm (a + 1)), <- Nat.mul_assoc; apply Nat.mul_le_mono_l; lia.
Qed.

(** ** C87 *)

(** A spec the rules of which match in order: the result has at most [k] bytes for each byte
    of the word, and [k] more, where [k] depends on the spec and on how much the
    transliterators may write, but not on the word, the Hangul library or the state. *)
Theorem C87_linear : forall s a, spec_numbered s -> Forall orders (s_rewrite s ++ s_transcribe s) ->
  exists k, forall W H (reg : list (bytes * translit W)) on w word w' tr out,
    modest a reg -> forward H s reg on w word = (w', tr, Ok out) -> (length out <= k * (length word + 1))%nat.
Proof.
  intros s a Hn Ho; apply Forall_app in Ho; destruct Ho as [Hr Ht].
  exists (growth s * (a + 1) ^ length (l_translit (s_lang s)))%nat; intros W H reg on w word w' tr out Hm E.
  destruct (forward_inner H s reg on w word w' tr out Hn E) as (mid & x & Et & Ei & ->).
  apply (transliterate_size a _ _ _ _ _ _ Hm) in Et.
  assert (utf8_text (normalized s mid)) as Hu by (destruct (normalized_chars s mid) as (rs & Hs & Er); exists rs; auto).
  apply (inner_size H s _ x Hu Hr Ht) in Ei.
  assert (length (normalized s mid) <= 4 * ((2 * longest (s_normReplacer s) + 1) * (length mid + 1)))%nat as N1.
  { unfold normalized, normalize; cbn [snd].
    etransitivity; [apply encode_size|]; apply Nat.mul_le_mono_l; rewrite map_length; etransitivity; [apply runes_size|].
    pose proof (replacer_size (s_normReplacer s) mid); lia. }
  assert (length (localize_word (s_script s) x) <= 8 * length x)%nat as N2.
  { unfold localize_word; etransitivity; [apply encode_size|].
    pose proof (localize_size (s_script s) true (runes x)); pose proof (runes_size x); lia. }
  unfold growth; set (R := (rules_size (s_rewrite s) * rules_size (s_transcribe s))%nat) in *.
  set (L := (2 * longest (s_normReplacer s) + 1)%nat) in *; set (P := ((a + 1) ^ length (l_translit (s_lang s)))%nat) in *.
  etransitivity; [exact N2|]; replace (64 * rules_size (s_rewrite s) * rules_size (s_transcribe s))%nat with (64 * R)%nat in Ei by (unfold R; lia).
  replace (2048 * L * rules_size (s_rewrite s) * rules_size (s_transcribe s) * P * (length word + 1))%nat with (8 * (64 * R * (4 * (L * (P * (length word + 1))))))%nat by (unfold R; lia).
  apply Nat.mul_le_mono_l; etransitivity; [exact Ei|]; apply Nat.mul_le_mono_l; etransitivity; [exact N1|]; do 2 apply Nat.mul_le_mono_l; exact Et.
Qed.
Print Assumptions C87_linear.

(** The rules of a spec source match in order if the brackets of their patterns are
    balanced, whichever order the macros are taken in. *)
Definition balanced_rule (s : spec) (r : rule) : Prop :=
  forall macros, Permutation (s_macros s) macros -> exists e rb nb, PropPattern.reads (p_expr (rule_from r)) macros (s_vars s) e rb nb.
Theorem C87_source : forall c src s a, choices_ok c -> parse_spec c src = Ok s -> Forall (balanced_rule s) (s_rewrite s ++ s_transcribe s) ->
  exists k, forall W H (reg : list (bytes * translit W)) on w word w' tr out,
    modest a reg -> forward H s reg on w word = (w', tr, Ok out) -> (length out <= k * (length word + 1))%nat.
Proof.
  intros c src s a [Hc _] Hp Hb; apply C87_linear; [apply (parse_spec_rules _ _ _ Hp)|].
  assert (Forall (fun r => exists macros, Permutation (s_macros s) macros /\ new_pattern (p_expr (rule_from r)) macros (s_vars s) = Ok (rule_from r)) (s_rewrite s ++ s_transcribe s)) as Hm.
  { assert (forall tr i pairs macros vars rules, new_rules c tr i pairs macros vars = Ok rules ->
      Forall (fun r => exists macros', Permutation macros macros' /\ new_pattern (p_expr (rule_from r)) macros' vars = Ok (rule_from r)) rules) as Hr.
    { intros tr i pairs macros vars; revert i; induction pairs as [|p pairs IH]; intros i rules; cbn [new_rules]; [intros [= <-]; constructor|].
      destruct (new_pattern _ _ _) as [from| | | | |] eqn:En; cbn [bind]; try discriminate.
      destruct (negative_lookaround_widths from) as [na nb]; destruct ((na =? -1) || (nb =? -1)); [discriminate|].
      destruct (index (pr_right p) 0) as [right| | | | |]; cbn [bind]; try discriminate.
      destruct (new_rules c tr (S i) pairs macros vars) as [rest| | | | |] eqn:Er; cbn [bind]; try discriminate; intros [= <-].
      constructor; [|exact (IH _ _ Er)]; cbn [rule_from]; exists (ch_macros c tr (2 * i) macros); split; [apply Hc|].
      rewrite (PropPuncts.new_pattern_expr _ _ _ _ En); exact En. }
    revert Hp; unfold parse_spec; destruct (parse_hsl_src src) as [[h rest]| | | | |]; cbn [bind]; try discriminate.
    repeat match goal with |- context [bind (with_section ?a ?b ?c ?d) _] =>
      destruct (with_section a b c d); cbn [bind]; try discriminate
    | |- context [bind (new_rules ?a ?b ?c ?d ?e ?f) _] =>
      destruct (new_rules a b c d e f) eqn:?; cbn [bind]; try discriminate end.
    destruct (get_script _); [|discriminate]; intros E; apply LettersFacts.ok_inj in E; subst s; cbn [s_rewrite s_transcribe s_macros s_vars].
    apply Forall_app; split; eapply Hr; eassumption. }
  rewrite Forall_forall in *; intros r Hin word ms Hf; destruct (Hm _ Hin) as (macros & Hperm & En); destruct (Hb _ Hin macros Hperm) as (e & rb & nb & He).
  eapply PropPattern.C08_matches; eassumption.
Qed.
Print Assumptions C87_source.

(** Every bundled language has such a [k], the same for all orders that Go may take the
    entries of its maps in. *)
Theorem C87_bundled : forall path src a, lookup bundled_files path = Some src ->
  exists k, forall c s W H (reg : list (bytes * translit W)) on w word w' tr out, choices_ok c -> parse_spec c src = Ok s ->
    modest a reg -> forward H s reg on w word = (w', tr, Ok out) -> (length out <= k * (length word + 1))%nat.
Proof.
  intros path src a Hl; destruct (file_ok_parses src choices0 (bundled_file_ok _ _ Hl) choices0_ok) as (s0 & s' & E0 & _ & _ & Hu & _).
  destruct (bundled_rules _ _ _ _ Hl choices0_ok E0) as (Hn & Hrw & Htr & _).
  assert (forall r, good_rule r -> orders r) as Hg.
  { intros r (Hc & Hok & _) word ms Hf; unfold RuleFacts.rule_ok in Hok; apply andb_true_iff in Hok; destruct Hok as [Hs _].
    destruct (find_safe (rule_from r) word Hc Hs (-1)) as (ms' & E & Ho); rewrite Hf in E; apply LettersFacts.ok_inj in E; subst; exact Ho. }
  destruct (C87_linear s0 a Hn) as (k & Hk).
  { apply Forall_app; split; eapply Forall_impl; [|exact Hrw| |exact Htr]; [exact Hg|intros r [Hr _]; exact (Hg r Hr)]. }
  exists k; intros c s W H reg on w word w' tr out Hc Ep Hm E.
  destruct (file_ok_parses src c (bundled_file_ok _ _ Hl) Hc) as (s1 & s2 & E1 & Ep2 & Ho & _).
  assert (s1 = s0) as -> by congruence; assert (s2 = s) as -> by congruence.
  rewrite (forward_order H s0 s reg on w word Ho Hu) in E; exact (Hk W H reg on w word w' tr out Hm E).
Qed.
Print Assumptions C87_bundled.

From Verif Require Import SourceFacts PatternFacts SrcFacts.
(** A transliterator that doubles the word and rules each of which write more than they read *)
Definition ex_src87 : bytes := lit
"lang:
 id = x
 codes = x, xx
 english = X
 korean = X
 script = Latn
 translit = twice
rewrite:
 a -> bb
 ""(b|k)"" -> cdc
transcribe:
 c -> 가나
".
Definition ex_spec87 : spec := match parse_spec choices0 ex_src87 with Ok s => s | _ => PropOutput.empty_spec end.
Definition twice : translit nat := {| tl_scheme := lit "twice"; tl_run := fun n word => (S n, Ok (word ++ word)) |}.
Example C87_example :
  parse_spec choices0 ex_src87 = Ok ex_spec87 /\ Forall (balanced_rule ex_spec87) (s_rewrite ex_spec87 ++ s_transcribe ex_spec87) /\
  modest 2 [(lit "twice", twice)] /\
  forward go_hangul ex_spec87 [(lit "twice", twice)] true 0%nat (lit "") = (1%nat, snd (fst (forward go_hangul ex_spec87 [(lit "twice", twice)] true 0%nat (lit ""))), Ok []) /\
  snd (forward go_hangul ex_spec87 [(lit "twice", twice)] true 0%nat (lit "a")) = Ok (lit "가나가나가나가나가나가나가나가나") /\
  snd (forward go_hangul ex_spec87 [(lit "twice", twice)] true 0%nat (lit "ka ")) = Ok (lit "가나가나가나가나가나가나 가나가나가나가나가나가나 ").
Proof.
  split; [vm_compute; reflexivity|]; split; [|split; [|vm_compute; auto]].
  - set (l := s_rewrite ex_spec87 ++ s_transcribe ex_spec87); vm_compute in l; subst l.
    assert (s_macros ex_spec87 = [] /\ s_vars ex_spec87 = []) as [Em Ev] by (vm_compute; auto).
    repeat (constructor; [intros macros Hp; rewrite Em in Hp; apply Permutation_nil in Hp; subst macros; rewrite Ev; cbn [rule_from p_expr]|]); [| | |constructor].
    + exists (Src 0 NoLook (txt "a") NoLook 0); do 2 eexists; PropPattern.read_src.
    + exists (Src 0 NoLook (txt "(b|k)") NoLook 0); do 2 eexists; PropPattern.read_src.
    + exists (Src 0 NoLook (txt "c") NoLook 0); do 2 eexists; PropPattern.read_src.
  - intros scheme t w word w' out [E|[]]; injection E as _ <-; cbn [tl_run twice]; intros [= _ <-]; rewrite app_length; lia.
Qed.
