(** C57: the coverage profile. *)
From Coq Require Import String Lia DecimalZ.
From Verif Require Import GoBase Utf8 Utf8Facts Regex Hre Rule Hsl Scripts Spec SpecOrder Jamo Procedure ProcFacts
  RuleFacts TranslitFacts Api Tracefmt HslInv PropHsl PropSpec LettersFacts TestCmd PropTest.
Open Scope Z_scope.

(** [text] is the [n]-th line of [src], counted from 1, without its end. *)
Definition newlines_in (s : bytes) : Z := Z.of_nat (length (filter (N.eqb 10) s)).
Definition source_line (src : bytes) (n : Z) (text : bytes) : Prop :=
  exists before after, src = before ++ text ++ after /\ n = 1 + newlines_in before /\
    (before = [] \/ exists b, before = b ++ [10%N]) /\ ~ In 10%N text /\ (after = [] \/ exists a, after = 10%N :: a) /\
    (text = [] -> after <> []).
(** The line without a carriage return at its end. *)
Definition without_cr (text shown : bytes) : Prop :=
  text = shown ++ [13%N] \/ (text = shown /\ forall t, text <> t ++ [13%N]).

Lemma newlines_app a b : newlines_in (a ++ b) = newlines_in a + newlines_in b.
Proof. unfold newlines_in; rewrite filter_app, app_length; lia. Qed.
Lemma newlines_none s : ~ In 10%N s -> newlines_in s = 0.
Proof.
  unfold newlines_in; induction s as [|b s IH]; intros H; [reflexivity|]; cbn [filter].
  destruct (N.eqb_spec 10 b) as [E|E]; [exfalso; apply H; left; congruence|]; apply IH; intros Hi; apply H; right; exact Hi.
Qed.

Lemma not_rev (acc : bytes) : ~ In 10%N acc -> ~ In 10%N (rev acc).
Proof. intros H X; apply H, in_rev; exact X. Qed.

(** Line [k] of the list is line [k + 1] of the source. *)
Lemma split_lines_nth src k text acc before :
  ~ In 10%N acc -> (before = [] \/ exists b, before = b ++ [10%N]) ->
  nth_error (split_lines src acc) k = Some text ->
  source_line (before ++ rev acc ++ src) (1 + newlines_in before + Z.of_nat k) text.
Proof.
  revert k acc before; induction src as [|b src IH]; intros k acc before Hacc Hb E; cbn [split_lines] in E.
  - destruct acc as [|a acc]; [destruct k; discriminate|]; destruct k as [|[|k]]; try discriminate; injection E as <-.
    exists before, []; rewrite !app_nil_r; split; [reflexivity|]; split; [cbn; lia|]; split; [exact Hb|].
    split; [exact (not_rev _ Hacc)|]; split; [left; reflexivity|].
    intros X; destruct (app_cons_not_nil (rev acc) [] a); symmetry; exact X.
  - destruct (N.eqb_spec b 10) as [->|Hne].
    + destruct k as [|k].
      * injection E as <-; exists before, (10%N :: src); split; [reflexivity|]; split; [cbn; lia|]; split; [exact Hb|].
        split; [exact (not_rev _ Hacc)|]; split; [right; exists src; reflexivity|discriminate].
      * cbn [nth_error] in E; specialize (IH k [] (before ++ rev acc ++ [10%N]) (fun H => H)).
        cbn [rev app] in IH.
        replace (before ++ rev acc ++ 10%N :: src) with ((before ++ rev acc ++ [10%N]) ++ src)
          by (rewrite <- !app_assoc; reflexivity).
        replace (1 + newlines_in before + Z.of_nat (S k)) with (1 + newlines_in (before ++ rev acc ++ [10%N]) + Z.of_nat k).
        { apply IH; [right; exists (before ++ rev acc); rewrite <- app_assoc; reflexivity|exact E]. }
        rewrite !newlines_app, (newlines_none (rev acc)) by (exact (not_rev _ Hacc)).
        change (newlines_in [10%N]) with 1; lia.
    + specialize (IH k (b :: acc) before); cbn [rev] in IH; rewrite <- app_assoc in IH; apply IH; auto.
      intros [X|X]; [congruence|contradiction].
Qed.
Lemma split_lines_length src acc :
  Z.of_nat (length (split_lines src acc)) =
  newlines_in src + match fold_left (fun acc b => if (b =? 10)%N then [] else b :: acc) src acc with [] => 0 | _ => 1 end.
Proof.
  revert acc; induction src as [|b src IH]; intros acc; cbn [split_lines fold_left]; [destruct acc; reflexivity|].
  change (newlines_in (b :: src)) with (newlines_in ([b] ++ src)); rewrite newlines_app.
  destruct (N.eqb_spec b 10) as [->|Hne].
  - cbn [length]; rewrite Nat2Z.inj_succ, IH; change (newlines_in [10%N]) with 1; lia.
  - rewrite IH, (newlines_none [b]) by (intros [X|[]]; congruence); lia.
Qed.
Lemma split_lines_long a x b : (newlines_in a < Z.of_nat (length (split_lines (a ++ x :: b) []))).
Proof.
  rewrite split_lines_length, newlines_app, fold_left_app.
  generalize (fold_left (fun acc b => if (b =? 10)%N then [] else b :: acc) a []) as acc; intros acc.
  assert (forall s acc, (acc <> [] -> 0 < newlines_in s \/ fold_left (fun acc b => if (b =? 10)%N then [] else b :: acc) s acc <> []) /\
            0 <= newlines_in s) as H.
  { induction s as [|c s IH]; intros acc0; [split; [intros H; right; exact H|cbn; lia]|].
    change (newlines_in (c :: s)) with (newlines_in ([c] ++ s)); rewrite newlines_app; cbn [fold_left].
    destruct (N.eqb_spec c 10) as [->|Hne].
    - change (newlines_in [10%N]) with 1; destruct (IH []) as [_ H0]; split; [intros _; left; lia|lia].
    - rewrite (newlines_none [c]) by (intros [X|[]]; congruence); destruct (IH (c :: acc0)) as [H1 H0].
      split; [intros _; destruct (H1 ltac:(discriminate)); [left; lia|right; assumption]|lia]. }
  change (newlines_in (x :: b)) with (newlines_in ([x] ++ b)); rewrite newlines_app; cbn [fold_left].
  destruct (N.eqb_spec x 10) as [->|Hne].
  - change (newlines_in [10%N]) with 1; destruct (H b []) as [_ H0]; destruct (fold_left _ b []); lia.
  - rewrite (newlines_none [x]) by (intros [X|[]]; congruence); destruct (H b (x :: acc)) as [H1 H0].
    destruct (H1 ltac:(discriminate)) as [H2|H2]; [destruct (fold_left _ b _); lia|].
    destruct (fold_left _ b _); [contradiction|lia].
Qed.

Lemma drop_cr_spec text : without_cr text (drop_cr text).
Proof.
  unfold drop_cr, without_cr; destruct (rev text) as [|c l] eqn:E.
  - right; split; [reflexivity|]; intros t ->; rewrite rev_app_distr in E; discriminate.
  - assert (text = rev l ++ [c]) as Et by (rewrite <- (rev_involutive text), E; reflexivity).
    destruct (N.eq_dec c 13) as [->|Hc]; [left; exact Et|].
    assert (text = text /\ forall t, text <> t ++ [13%N]) as Hr.
    { split; [reflexivity|]; intros t H; rewrite Et in H; apply app_inj_tail in H; destruct H; congruence. }
    right; destruct c as [|p]; [exact Hr|]; do 4 (destruct p as [p|p|]; try exact Hr); congruence.
Qed.
Lemma scan_cols_nth lines k text :
  Forall (fun l => len l < 65536) lines -> nth_error lines k = Some text ->
  nth_error (scan_cols lines) k = Some (len (drop_cr text) + 1).
Proof.
  revert k; induction lines as [|l lines IH]; intros k Hl E; [destruct k; discriminate|].
  inversion Hl as [|? ? H1 H2]; subst; cbn [scan_cols]; destruct (Z.leb_spec 65536 (len l)); [lia|].
  destruct k as [|k]; [injection E as ->; reflexivity|]; apply IH; assumption.
Qed.

Lemma firstn_plus {A} n m (l : list A) : firstn (n + m) l = firstn n l ++ firstn m (skipn n l).
Proof.
  revert l; induction n as [|n IH]; intros l; [reflexivity|]; destruct l as [|x l]; [rewrite firstn_nil; destruct m; reflexivity|].
  cbn [Nat.add firstn skipn app]; rewrite IH; reflexivity.
Qed.

(** Newlines are counted in bytes here and in characters there. *)
Lemma glyphs_newlines s k : Z.of_nat (length (filter (N.eqb 0x0A) (firstn k (runes s)))) =
  newlines_in (firstn (gwidth (firstn k (glyphs s))) s).
Proof.
  revert k; apply (glyphs_ind (fun s => forall k, Z.of_nat (length (filter (N.eqb 0x0A) (firstn k (runes s)))) =
    newlines_in (firstn (gwidth (firstn k (glyphs s))) s))); clear s.
  - intros k; cbn [glyphs runes]; rewrite !firstn_nil; reflexivity.
  - intros s Hs IH [|k]; [reflexivity|].
    unfold runes in *; rewrite (glyphs_step s Hs); cbn [map firstn fst].
    rewrite gwidth_cons; cbn [snd].
    pose proof (decode_width s Hs) as Hw; rewrite firstn_plus.
    rewrite newlines_app, <- IH; clear IH.
    assert (newlines_in (firstn (snd (decode_rune s)) s) = if (10 =? fst (decode_rune s))%N then 1 else 0) as ->.
    { destruct s as [|b s]; [contradiction|].
      destruct (N.eqb_spec 10 (fst (decode_rune (b :: s)))) as [E|E].
      - rewrite (decode_ascii b s) in * by (rewrite <- E; reflexivity); cbn [fst snd] in *; subst b; reflexivity.
      - apply newlines_none; intros Hin; apply In_nth_error in Hin; destruct Hin as (j & Hj).
        assert (j < snd (decode_rune (b :: s)))%nat as Hlt.
        { assert (j < length (firstn (snd (decode_rune (b :: s))) (b :: s)))%nat by (apply nth_error_Some; congruence).
          rewrite firstn_length in H; lia. }
        assert (nth_error (b :: s) j = Some 10%N) as Hj'.
        { rewrite <- Hj; clear - Hlt; generalize dependent (snd (decode_rune (b :: s))); intros n Hlt.
          generalize (b :: s) as l; revert j n Hlt; clear; induction j as [|j IH]; intros [|n] Hlt [|x l]; try lia; try reflexivity.
          cbn [nth_error firstn]; apply IH; lia. }
        destruct j as [|j].
        + injection Hj' as ->; apply E; reflexivity.
        + pose proof (decode_cont (b :: s) (S j) 10 ltac:(lia) Hlt Hj'); discriminate. }
    cbn [filter]; destruct (10 =? fst (decode_rune s))%N; cbn [length]; lia.
Qed.


Lemma Forall2_weaken {A B} (R R' : A -> B -> Prop) l l' : (forall x y, R x y -> R' x y) -> Forall2 R l l' -> Forall2 R' l l'.
Proof. intros H; induction 1; constructor; auto. Qed.
Lemma Forall2_left {A B} (R : A -> B -> Prop) l l' x : Forall2 R l l' -> In x l -> exists y, R x y.
Proof. induction 1 as [|a b l l' Hab H IH]; [intros []|]; intros [<-|Hin]; [exists b; exact Hab|apply IH; exact Hin]. Qed.
Lemma pair_line_exists src h name sec p :
  parse_hsl src = Ok h -> lookup h name = Some sec -> In p (section_pairs sec) ->
  exists text, nth_error (split_lines src []) (Z.to_nat (pr_line p - 1)) = Some text /\ 1 <= pr_line p.
Proof.
  intros Hh Hl Hp; apply HslInv.lookup_in in Hl.
  destruct (C26_order src h name sec Hh Hl) as [(k0 & ks & _ & _ & _ & HF) _].
  destruct (Forall2_left _ _ _ _ HF Hp) as (k & Hop & Hline).
  assert (exists c x, (k <= length (runes src))%nat /\ firstn k (runes src) = c ++ [x] /\ x <> 10%N) as (c & x & Hk & Hc & Hx).
  { destruct Hop as [[Hk (c & Hc)]|[Hk (c & Hc)]]; [exists c, 0x3D%N|exists (c ++ [0x2D%N]), 0x3E%N];
      (split; [exact Hk|]; split; [|discriminate]); [exact Hc|rewrite <- app_assoc; exact Hc]. }
  assert (length (c ++ [x]) = k) as Hlen by (rewrite <- Hc, firstn_length; lia).
  rewrite app_length in Hlen; cbn [length] in Hlen.
  assert (firstn (length c) (runes src) = c) as Hc'.
  { replace (length c) with (Nat.min (length c) k) by lia; rewrite <- firstn_firstn, Hc.
    rewrite firstn_app, Nat.sub_diag, firstn_all, app_nil_r; reflexivity. }
  assert (pr_line p - 1 = newlines_in (firstn (gwidth (firstn (length c) (glyphs src))) src)) as Hn.
  { rewrite Hline; unfold line_of; rewrite <- glyphs_newlines, Hc, Hc', filter_app, app_length; cbn [filter].
    destruct (N.eqb_spec 10 x); [congruence|]; cbn [length]; rewrite Nat.add_0_r, Z.add_comm, Z.add_simpl_r; reflexivity. }
  assert (gwidth (firstn (length c) (glyphs src)) < length src)%nat as Hlt.
  { assert (length src = gwidth (firstn (length c) (glyphs src) ++ skipn (length c) (glyphs src))) as ->
      by (rewrite firstn_skipn, gwidth_glyphs; reflexivity).
    rewrite gwidth_app.
    assert (length (runes src) = length (glyphs src)) by apply map_length.
    destruct (skipn (length c) (glyphs src)) as [|g gs] eqn:Es.
    - apply (f_equal (@length _)) in Es; rewrite skipn_length in Es; cbn in Es; lia.
    - pose proof (glyphs_width_pos src) as Hpos; rewrite Forall_forall in Hpos.
      assert (In g (glyphs src)) as Hg by (rewrite <- (firstn_skipn (length c) (glyphs src)), Es; apply in_or_app; right; left; reflexivity).
      specialize (Hpos g Hg); destruct g as [r w]; rewrite gwidth_cons; cbn [snd] in *; lia. }
  set (m := gwidth (firstn (length c) (glyphs src))) in *.
  destruct (skipn m src) as [|y b] eqn:Es; [apply (f_equal (@length _)) in Es; rewrite skipn_length in Es; cbn in Es; lia|].
  pose proof (split_lines_long (firstn m src) y b) as Hlong; rewrite <- Es, firstn_skipn, <- Hn in Hlong.
  assert (0 <= pr_line p - 1) as H0 by (rewrite Hn; unfold newlines_in; lia).
  destruct (nth_error (split_lines src []) (Z.to_nat (pr_line p - 1))) as [text|] eqn:Et.
  - exists text; split; [reflexivity|lia].
  - apply nth_error_None in Et; lia.
Qed.

(** What a line of the profile says about rule [id] of [step], which stands at [p]. It tells
    whether the rule is one of the [marked]. *)
Definition tells (src name : bytes) (marked : cov -> Prop) (rule : bytes * Z * pair_) (l : profile_line) : Prop :=
  let '(step, id, p) := rule in
  pl_name l = name /\ pl_line l = pr_line p /\
  (exists text shown, source_line src (pl_line l) text /\ without_cr text shown /\ pl_col l = len shown + 1) /\
  (pl_covered l = true <-> marked (name, step, id)).
(** The pairs of a section with their numbers. *)
Fixpoint count_from (step : bytes) (id : Z) (pairs : list pair_) : list (bytes * Z * pair_) :=
  match pairs with [] => [] | p :: pairs' => (step, id, p) :: count_from step (id + 1) pairs' end.

Lemma profile_rules_tell src h sname sec cv name step rules :
  parse_hsl src = Ok h -> lookup h sname = Some sec ->
  (forall n text, source_line src n text -> len text < 65536) ->
  numbered rules -> length rules = length (section_pairs sec) ->
  exists lines, profile_rules cv name step (section_pairs sec) (scan_cols (split_lines src [])) rules = Ok lines /\
    Forall2 (tells src name (fun k => In k (cv_covered cv))) (count_from step 0 (section_pairs sec)) lines.
Proof.
  intros Hh Hl Hshort Hnum Hlen.
  assert (Forall (fun l => len l < 65536) (split_lines src [])) as Hsh.
  { apply Forall_forall; intros text Hin; apply In_nth_error in Hin; destruct Hin as (k & Hk).
    apply (Hshort (1 + newlines_in [] + Z.of_nat k) text).
    apply (split_lines_nth src k text [] [] (fun H => H) (or_introl eq_refl) Hk). }
  assert (forall rest k, (forall i r, nth_error rest i = Some r -> rule_id r = Z.of_nat (k + i)) ->
            (k + length rest = length (section_pairs sec))%nat ->
    exists lines, profile_rules cv name step (section_pairs sec) (scan_cols (split_lines src [])) rest = Ok lines /\
      Forall2 (tells src name (fun k => In k (cv_covered cv))) (count_from step (Z.of_nat k) (skipn k (section_pairs sec))) lines) as Hgen.
  { induction rest as [|r rest IH]; intros k Hn Hk.
    - cbn [length] in Hk; rewrite skipn_all2 by lia; exists []; split; [reflexivity|constructor].
    - cbn [length] in Hk; destruct (IH (S k)) as (lines & El & HF); [|lia|].
      { intros i r' Hi; replace (S k + i)%nat with (k + S i)%nat by lia; apply Hn; exact Hi. }
      assert (rule_id r = Z.of_nat k) as Hr by (rewrite (Hn 0%nat r eq_refl), Nat.add_0_r; reflexivity).
      destruct (nth_error (section_pairs sec) k) as [p|] eqn:Ep; [|apply nth_error_None in Ep; lia].
      destruct (pair_line_exists src h sname sec p Hh Hl (nth_error_In _ _ Ep)) as (text & Et & H1).
      cbn [profile_rules]; rewrite Hr.
      assert (index (section_pairs sec) (Z.of_nat k) = Ok p) as ->.
      { unfold index; rewrite Nat2Z.id, Ep; destruct (Z.leb_spec 0 (Z.of_nat k)); [reflexivity|lia]. }
      cbn [bind].
      assert (index (scan_cols (split_lines src [])) (pr_line p - 1) = Ok (len (drop_cr text) + 1)) as ->.
      { unfold index; rewrite (scan_cols_nth _ _ _ Hsh Et); destruct (Z.leb_spec 0 (pr_line p - 1)); [reflexivity|lia]. }
      cbn [bind]; rewrite El; cbn [bind]; eexists; split; [reflexivity|].
      assert (skipn k (section_pairs sec) = p :: skipn (S k) (section_pairs sec)) as ->.
      { clear - Ep; revert Ep; generalize (section_pairs sec) as l; induction k as [|k IH]; intros [|x l] E; try discriminate.
        - injection E as ->; reflexivity.
        - cbn [skipn]; apply IH; exact E. }
      cbn [count_from]; constructor; [|replace (Z.of_nat k + 1) with (Z.of_nat (S k)) by lia; exact HF].
      split; [reflexivity|]; split; [reflexivity|]; split; [|apply covered_in].
      exists text, (drop_cr text); split; [|split; [apply drop_cr_spec|reflexivity]]; cbn [pl_line].
      replace (pr_line p) with (1 + newlines_in [] + Z.of_nat (Z.to_nat (pr_line p - 1)))
        by (rewrite Z2Nat.id by lia; change (newlines_in []) with 0; lia).
      apply (split_lines_nth src _ text [] [] (fun H => H) (or_introl eq_refl) Et). }
  destruct (Hgen rules 0%nat) as (lines & El & HF); [exact Hnum|exact Hlen|].
  exists lines; split; [exact El|exact HF].
Qed.

(** For a spec with both sections of rules, and lines shorter than 64 KiB: the profile has a
    line for each rule, in the order of the source. *)
Theorem C57_profile_partial : forall fs c cv name src h s rw rwl tr trl,
  fs name = Some src -> parse_hsl src = Ok h -> parse_spec c src = Ok s ->
  lookup h (lit "rewrite") = Some (ListSection rw rwl) -> lookup h (lit "transcribe") = Some (ListSection tr trl) ->
  (forall n text, source_line src n text -> len text < 65536) ->
  exists lines, profile_file fs c cv name = Ok lines /\
    Forall2 (tells src name (fun k => In k (cv_covered cv))) (count_from (lit "Rewrite") 0 rw ++ count_from (lit "Transcribe") 0 tr) lines.
Proof.
  intros fs c cv name src h s rw rwl tr trl Ef Hh Hp Hrw Htr Hshort; unfold profile_file; rewrite Ef, Hh; cbn [bind]; rewrite Hp.
  destruct (parse_spec_pairs _ _ _ Hp) as (h' & Hh' & Hlr & Hlt); rewrite Hh in Hh'; apply ok_inj in Hh'; subst h'.
  destruct (parse_spec_rules _ _ _ Hp) as [[Hnr Hnt] _].
  unfold section_pairs_of; rewrite Hrw, Htr; cbn [bind].
  unfold pairs_of in Hlr, Hlt; rewrite Hrw in Hlr; rewrite Htr in Hlt.
  destruct (profile_rules_tell src h _ _ cv name (lit "Rewrite") (s_rewrite s) Hh Hrw Hshort Hnr Hlr) as (a & Ea & HA).
  destruct (profile_rules_tell src h _ _ cv name (lit "Transcribe") (s_transcribe s) Hh Htr Hshort Hnt Hlt) as (b & Eb & HB).
  cbn [section_pairs] in *; rewrite Ea; cbn [bind]; rewrite Eb; cbn [bind].
  exists (a ++ b); split; [reflexivity|]; apply Forall2_app; assumption.
Qed.
Print Assumptions C57_profile_partial.

(** The whole command. When it ends well, the profile has a block for each of the files, in
    some order, and a rule is marked in it exactly when an example makes it report a trace. *)
Definition profiled (H : hangul_lib) fs cs args (name : bytes) (lines : list profile_line) : Prop :=
  exists src h rw rwl tr trl, fs name = Some src /\ parse_hsl src = Ok h /\
    lookup h (lit "rewrite") = Some (ListSection rw rwl) /\ lookup h (lit "transcribe") = Some (ListSection tr trl) /\
    Forall2 (tells src name (tested H fs cs args))
      (count_from (lit "Rewrite") 0 rw ++ count_from (lit "Transcribe") 0 tr) lines.
Theorem C57_command_partial : forall (H : hangul_lib) fs cs cs' order args lines,
  (forall names, Permutation.Permutation names (order names)) ->
  (forall name src n text, In name args -> fs name = Some src -> source_line src n text -> len text < 65536) ->
  run_profile H fs cs cs' order args = Ok (Some lines) ->
  exists blocks, lines = concat (map snd blocks) /\ NoDup (map fst blocks) /\
    (forall name, In name args <-> In name (map fst blocks)) /\
    Forall (fun b => profiled H fs cs args (fst b) (snd b)) blocks.
Proof.
  intros H fs cs cs' order args lines Hord Hshort E; unfold run_profile in E.
  apply bind_ok in E; destruct E as ([[c reports] done] & Et & E).
  destruct done; cbn [negb orb] in E; [|discriminate].
  destruct (existsb is_differs reports); [discriminate|].
  destruct (test_files_cover H fs cs 0 new_cover args c reports) as (cv & -> & [Hd1 Hd2] & Hc & Hn); [split; constructor|exact Et|].
  apply bind_ok in E; destruct E as (ls & Ew & E); injection E as ->.
  assert (forall k, In k (cv_covered cv) <-> tested H fs cs args k) as Hk.
  { intros k; rewrite Hc; cbn [new_cover cv_covered In Nat.add]; split.
    - intros [[]|(j & s & w & x & st & id & n & Hj & Hl & Hin & Hf & ->)]; exists j, s, w, x; auto.
    - destruct k as [[n st] id]; intros (j & s & w & x & Hj & Hl & Hin & Hf); right; exists j, s, w, x, st, id, n; auto 7. }
  assert (forall name src, In name args -> fs name = Some src -> forall n text, source_line src n text -> len text < 65536) as Hsh
    by (intros name src H1 H2 n text H3; exact (Hshort name src n text H1 H2 H3)).
  assert (forall names lines, (forall n, In n names -> In n args) -> write_profile fs cs' cv names = Ok lines ->
    exists blocks, lines = concat (map snd blocks) /\ map fst blocks = names /\
      Forall (fun b => profiled H fs cs args (fst b) (snd b)) blocks) as Hw.
  { induction names as [|name names IH]; intros lines0 Hin E0; cbn [write_profile] in E0.
    - injection E0 as <-; exists []; split; [reflexivity|]; split; [reflexivity|constructor].
    - apply bind_ok in E0; destruct E0 as (a & Ea & E0); apply bind_ok in E0; destruct E0 as (b & Eb & E0); injection E0 as <-.
      destruct (IH b (fun n Hn' => Hin n (or_intror Hn')) Eb) as (blocks & -> & <- & HF).
      exists ((name, a) :: blocks); split; [reflexivity|]; split; [reflexivity|]; constructor; [|exact HF]; cbn [fst snd].
      pose proof Ea as Ep; unfold profile_file in Ep; destruct (fs name) as [src|] eqn:Ef; [|discriminate].
      apply bind_ok in Ep; destruct Ep as (h & Hh & Ep).
      destruct (parse_spec (cs' name) src) as [s| | | | |] eqn:Es; try discriminate.
      apply bind_ok in Ep; destruct Ep as (rw & Hrw & Ep); apply bind_ok in Ep; destruct Ep as (x1 & _ & Ep).
      apply bind_ok in Ep; destruct Ep as (tr & Htr & Ep).
      assert (forall sname l, section_pairs_of h sname = Ok l -> sname = lit "rewrite" \/ sname = lit "transcribe" ->
                exists n, lookup h sname = Some (ListSection l n)) as Hsec.
      { intros sname l E1 Hs; unfold section_pairs_of in E1; destruct (lookup h sname) as [[l' n|d n]|] eqn:El; try discriminate.
        - injection E1 as ->; exists n; reflexivity.
        - exfalso; destruct (proj1 (C28_accepts (cs' name) src) (ex_intro _ s Es)) as (h' & Hh' & [_ _ _ Hr _]).
          rewrite Hh in Hh'; apply ok_inj in Hh'; subst h'.
          destruct Hr as (macros & vars & mp & vs & _ & _ & _ & _ & Hr).
          destruct Hs as [-> | ->]; [destruct (Hr false) as (l0 & Hl0 & _)|destruct (Hr true) as (l0 & Hl0 & _)];
            unfold list_of in Hl0; cbv iota in Hl0; rewrite El in Hl0; destruct Hl0; discriminate. }
      destruct (Hsec _ _ Hrw (or_introl eq_refl)) as (rwl & Hrw'); destruct (Hsec _ _ Htr (or_intror eq_refl)) as (trl & Htr').
      destruct (C57_profile_partial fs (cs' name) cv name src h s rw rwl tr trl Ef Hh Es Hrw' Htr'
                  (Hsh name src (Hin name (or_introl eq_refl)) Ef)) as (a' & Ea' & HF').
      rewrite Ea in Ea'; apply ok_inj in Ea'; subst a'.
      exists src, h, rw, rwl, tr, trl; repeat (split; [assumption|]).
      eapply Forall2_weaken; [|exact HF']; intros [[st id] p] l (H1 & H2 & H3 & H4); unfold tells.
      rewrite <- Hk; auto. }
  pose proof (Hord (cv_names cv)) as Hperm.
  destruct (Hw (order (cv_names cv)) lines) as (blocks & -> & Hm & HF).
  { intros n Hin; apply (Permutation.Permutation_in _ (Permutation.Permutation_sym Hperm)) in Hin; apply Hn in Hin; destruct Hin as [[]|Hin]; exact Hin. }
  { exact Ew. }
  exists blocks; split; [reflexivity|]; rewrite Hm; split; [exact (Permutation.Permutation_NoDup Hperm Hd2)|]; split; [|exact HF].
  intros n; split; intros Hin.
  - apply (Permutation.Permutation_in _ Hperm), Hn; right; exact Hin.
  - apply (Permutation.Permutation_in _ (Permutation.Permutation_sym Hperm)) in Hin; apply Hn in Hin; destruct Hin as [[]|Hin]; exact Hin.
Qed.
Print Assumptions C57_command_partial.

(** A spec without one of the sections makes it panic, though it passes all its tests. *)
Definition ex_profile (src : bytes) : opened := fun _ => Some src.
Definition ex_one : bytes := lit "transcribe: ""a"" -> ""x""".
Theorem C57_section_refuted : exists src,
  run_test go_hangul (ex_profile src) (fun _ => choices0) (fun _ => choices0) true [lit "x.hsl"]
    = Ok ([], TestPassed (Some (0, 1)%nat)) /\
  run_profile go_hangul (ex_profile src) (fun _ => choices0) (fun _ => choices0) (fun names => names) [lit "x.hsl"]
    = Panic PNil.
Proof. exists ex_one; vm_compute; auto. Qed.
Print Assumptions C57_section_refuted.

(** So does a line of 64 KiB, here a comment of [n] dots before two rules. *)
Definition ex_rules : bytes := lit "rewrite: ""a"" -> ""b""" ++ [10%N] ++ lit "transcribe: ""b"" -> ""x""".
Definition ex_long (n : nat) : bytes := 35%N :: repeat 46%N n ++ 10%N :: ex_rules.

Lemma glyphs_dots n rest : glyphs (repeat 46%N n ++ rest) = repeat (46%N, 1%nat) n ++ glyphs rest.
Proof.
  induction n as [|n IH]; [reflexivity|].
  change (repeat 46%N (S n) ++ rest) with (46%N :: (repeat 46%N n ++ rest)).
  change (repeat (46%N, 1%nat) (S n) ++ glyphs rest) with ((46%N, 1%nat) :: (repeat (46%N, 1%nat) n ++ glyphs rest)).
  rewrite <- IH; exact (glyphs_encode_cons 46%N _ eq_refl).
Qed.
Lemma comment_dots n rest line :
  exists s, read_while_in is_in_line (repeat (46%N, 1%nat) n ++ (10%N, 1%nat) :: rest) line
            = (s, {| lx_rest := (10%N, 1%nat) :: rest; lx_line := line |}).
Proof.
  induction n as [|n IH]; [exists []; reflexivity|].
  destruct IH as (s & IH); eexists; cbn -[repeat]; change (repeat (46%N, 1%nat) (S n)) with ((46%N, 1%nat) :: repeat (46%N, 1%nat) n).
  cbn; rewrite IH; reflexivity.
Qed.
Definition ex_hsl : hsl :=
  [(lit "rewrite", ListSection [{| pr_left := lit "a"; pr_right := [lit "b"]; pr_line := 2 |}] 2);
   (lit "transcribe", ListSection [{| pr_left := lit "b"; pr_right := [lit "x"]; pr_line := 3 |}] 3)].
Lemma parse_ex_long n : parse_hsl_src (ex_long n) = Ok (ex_hsl, []).
Proof.
  unfold parse_hsl_src, ex_long.
  assert (glyphs (35%N :: repeat 46%N n ++ 10%N :: ex_rules)
          = (35%N, 1%nat) :: repeat (46%N, 1%nat) n ++ (10%N, 1%nat) :: glyphs ex_rules) as ->.
  { refine (eq_trans (glyphs_encode_cons 35%N (repeat 46%N n ++ 10%N :: ex_rules) eq_refl) _).
    rewrite glyphs_dots, (glyphs_encode_cons 10%N ex_rules eq_refl : glyphs (10%N :: ex_rules) = _); reflexivity. }
  set (l := (10%N, 1%nat) :: glyphs ex_rules).
  cbn [parse_hsl_loop].
  assert (scan {| lx_rest := (35%N, 1%nat) :: repeat (46%N, 1%nat) n ++ l; lx_line := 1 |}
          = Ok (TComment, {| lx_rest := glyphs ex_rules; lx_line := 2 |})) as ->.
  { destruct (comment_dots n (glyphs ex_rules) 1) as (s & E); fold l in E.
    set (L := {| lx_rest := (35%N, 1%nat) :: repeat (46%N, 1%nat) n ++ l; lx_line := 1 |}).
    change (scan L) with (let! l2 := scan_comment (S (length (lx_rest L))) L in Ok (TComment, l2)).
    change (length (lx_rest L)) with (S (length (repeat (46%N, 1%nat) n ++ l))).
    generalize (length (repeat (46%N, 1%nat) n ++ l)); intros k.
    assert (scan_comment (S (S k)) L = Ok {| lx_rest := glyphs ex_rules; lx_line := 2 |}) as ->; [|reflexivity].
    change (scan_comment (S (S k)) L)
      with (let '(_, l3) := read_while_in is_in_line (repeat (46%N, 1%nat) n ++ l) 1 in
            let '(_, l4) := Hsl.read l3 in scan_comment (S k) l4).
    rewrite E; vm_compute; reflexivity. }
  cbn [bind].
  match goal with |- parse_hsl_loop ?f _ _ = _ => assert (f = (length l + S n)%nat) as -> end.
  { cbn [length]; rewrite app_length, repeat_length; unfold rune in *; lia. }
  generalize (S n); intros k; vm_compute; reflexivity.
Qed.
Lemma split_dots n line rest :
  split_lines (repeat 46%N n ++ 10%N :: rest) line = rev (rev (repeat 46%N n) ++ line) :: split_lines rest [].
Proof.
  revert line; induction n as [|n IH]; intros line; [reflexivity|].
  cbn [repeat app split_lines]; change (46 =? 10)%N with false; cbv iota.
  rewrite IH; f_equal; f_equal; cbn [rev]; rewrite <- app_assoc; reflexivity.
Qed.
Lemma cols_ex_long n : 65535 <= Z.of_nat n -> scan_cols (split_lines (ex_long n) []) = [].
Proof.
  intros Hn; unfold ex_long; cbn [split_lines]; change (35 =? 10)%N with false; cbv iota.
  rewrite split_dots; cbn [scan_cols].
  destruct (Z.leb_spec 65536 (len (rev (rev (repeat 46%N n) ++ [35%N])))) as [|H]; [reflexivity|].
  exfalso; unfold len in H; rewrite rev_length, app_length, rev_length, repeat_length in H; cbn [length] in H; lia.
Qed.
Lemma spec_of_ex_hsl src : parse_hsl_src src = Ok (ex_hsl, []) ->
  exists s, parse_spec choices0 src = Ok s /\ s_test s = [] /\ length (s_rewrite s) = 1%nat /\
            length (s_transcribe s) = 1%nat /\ exists r rs, s_rewrite s = r :: rs /\ rule_id r = 0.
Proof.
  intros E; unfold parse_spec; rewrite E; cbn [bind].
  generalize (firstn (length src - gwidth [] + ch_ahead choices0) src); intros source.
  eexists; split; [vm_compute; reflexivity|]; cbn; repeat split; eauto.
Qed.
Theorem C57_long_line_refuted : exists src,
  run_test go_hangul (ex_profile src) (fun _ => choices0) (fun _ => choices0) true [lit "x.hsl"]
    = Ok ([], TestPassed (Some (0, 2)%nat)) /\
  run_profile go_hangul (ex_profile src) (fun _ => choices0) (fun _ => choices0) (fun names => names) [lit "x.hsl"]
    = Panic PIndex.
Proof.
  exists (ex_long (N.to_nat 65536)).
  assert (65535 <= Z.of_nat (N.to_nat 65536)) as Hn by (rewrite N_nat_Z; lia).
  revert Hn; generalize (N.to_nat 65536); intros n Hn.
  pose proof (parse_ex_long n) as Eh; pose proof (cols_ex_long n Hn) as Ec.
  destruct (spec_of_ex_hsl _ Eh) as (s & Es & Et & Er & Etr & r & rs & Err & Eid).
  revert Eh Ec Es; generalize (ex_long n); intros src Eh Ec Es.
  assert (test_files go_hangul (ex_profile src) (fun _ => choices0) 0 (Some new_cover) [lit "x.hsl"]
          = Ok (Some {| cv_covered := []; cv_names := [lit "x.hsl"] |}, [], true)) as Ef.
  { cbn [test_files]; change (ex_profile src (lit "x.hsl")) with (Some src); cbv iota; rewrite Es, Et; reflexivity. }
  split.
  - unfold run_test; cbv iota; rewrite Ef; cbn [bind negb existsb].
    unfold coverage; cbn [total_rules cv_names cv_covered]; change (ex_profile src (lit "x.hsl")) with (Some src); cbv iota.
    rewrite Es, Er, Etr; reflexivity.
  - unfold run_profile; rewrite Ef; cbn [bind negb existsb orb].
    cbn [write_profile cv_names]; unfold profile_file; change (ex_profile src (lit "x.hsl")) with (Some src); cbv iota.
    unfold parse_hsl; rewrite Eh; cbn [bind]; rewrite Es, Ec.
    change (section_pairs_of ex_hsl (lit "rewrite")) with (Ok [{| pr_left := lit "a"; pr_right := [lit "b"]; pr_line := 2 |}]).
    cbn [bind]; rewrite Err; cbn [profile_rules]; rewrite Eid; reflexivity.
Qed.
Print Assumptions C57_long_line_refuted.

(** Two rules, one of them covered. *)
Example C57_example :
  run_profile go_hangul (ex_plain "가"%string) (fun _ => choices0) (fun _ => choices0) (fun names => names) [lit "y.hsl"] =
  Ok (Some [{| pl_name := lit "y.hsl"; pl_line := 2; pl_col := 8; pl_covered := false |};
            {| pl_name := lit "y.hsl"; pl_line := 3; pl_col := 7; pl_covered := true |};
            {| pl_name := lit "y.hsl"; pl_line := 5; pl_col := 9; pl_covered := true |}]).
Proof. vm_compute; reflexivity. Qed.

(** *** The file

    The text of a profile can be read back: its lines are the header and one line for each
    entry, and the line says what the entry says. *)
Lemma digits_inj u v : digits u = digits v -> u = v.
Proof.
  revert v; induction u; destruct v; cbn [digits]; intros E; try discriminate; try reflexivity;
    injection E as E; f_equal; apply IHu; exact E.
Qed.
Lemma digits_digit u : Forall (fun b => 48 <= b <= 57)%N (digits u).
Proof. induction u; cbn [digits]; constructor; try assumption; split; discriminate. Qed.
Lemma decimal_inj a b : decimal a = decimal b -> a = b.
Proof.
  unfold decimal; intros E; apply to_int_inj; destruct (Z.to_int a) as [u|u], (Z.to_int b) as [v|v].
  - f_equal; apply digits_inj; exact E.
  - exfalso; pose proof (digits_digit u) as H; rewrite E in H; apply Forall_inv in H; destruct H as [H _]; vm_compute in H; apply H; reflexivity.
  - exfalso; pose proof (digits_digit v) as H; rewrite <- E in H; apply Forall_inv in H; destruct H as [H _]; vm_compute in H; apply H; reflexivity.
  - f_equal; apply digits_inj; injection E as E; exact E.
Qed.
Lemma decimal_chars z : Forall (fun b => b = 45 \/ 48 <= b <= 57)%N (decimal z).
Proof.
  unfold decimal; destruct (Z.to_int z) as [u|u]; [|constructor; [left; reflexivity|]];
    (eapply Forall_impl; [|apply digits_digit]); intros b Hb; right; exact Hb.
Qed.
Lemma decimal_no z c : (c < 45 \/ c = 46 \/ c = 47 \/ 57 < c)%N -> ~ In c (decimal z).
Proof. intros Hc Hin; pose proof (proj1 (Forall_forall _ _) (decimal_chars z) c Hin) as H; cbn in H; unfold rune in *; lia. Qed.

(** What stands after the last separator *)
Lemma last_part {A} (x x' : list A) c a a' : ~ In c a -> ~ In c a' -> x ++ c :: a = x' ++ c :: a' -> x = x' /\ a = a'.
Proof.
  intros Ha Ha' E.
  assert (rev a ++ c :: rev x = rev a' ++ c :: rev x') as E'.
  { apply (f_equal (@rev A)) in E; rewrite !rev_app_distr in E; cbn [rev] in E; rewrite <- !app_assoc in E; exact E. }
  assert (forall l m r s : list A, ~ In c l -> ~ In c m -> l ++ c :: r = m ++ c :: s -> l = m /\ r = s) as Hs.
  { clear; induction l as [|y l IH]; intros m r s Hl Hm E.
    - destruct m as [|z m]; [injection E as ->; auto|]; injection E as -> _; exfalso; apply Hm; left; reflexivity.
    - destruct m as [|z m]; [injection E as -> _; exfalso; apply Hl; left; reflexivity|].
      injection E as -> E; destruct (IH m r s) as [-> ->]; auto; [intros H; apply Hl; right; exact H|intros H; apply Hm; right; exact H]. }
  destruct (Hs _ _ _ _ (fun H => Ha (proj2 (in_rev a c) H)) (fun H => Ha' (proj2 (in_rev a' c) H)) E') as [E1 E2].
  rewrite <- (rev_involutive x), <- (rev_involutive a), E1, E2, !rev_involutive; auto.
Qed.
Lemma line_text_inj l m : line_text l = line_text m -> l = m.
Proof.
  destruct l as [n1 a1 b1 c1], m as [n2 a2 b2 c2]; unfold line_text; cbn [pl_name pl_line pl_col pl_covered]; intros E.
  assert (forall (n : bytes) a b c,
    n ++ lit ":" ++ decimal a ++ lit ".1," ++ decimal a ++ lit "." ++ decimal b ++ lit " 1 " ++ decimal c =
    (((n ++ lit ":" ++ decimal a ++ lit ".1," ++ decimal a) ++ 46%N :: decimal b ++ lit " 1") ++ 32%N :: decimal c)) as R.
  { intros n a b c; rewrite <- !app_assoc; do 5 apply f_equal; change (lit ".") with [46%N]; cbn [app]; rewrite <- app_assoc; reflexivity. }
  rewrite !R in E; clear R.
  apply last_part in E; [|apply decimal_no; lia..]; destruct E as [E Ec].
  assert (forall z, ~ In 46%N (decimal z ++ lit " 1")) as H46.
  { intros z Hin; apply in_app_or in Hin; destruct Hin as [Hin|[Hin|[Hin|[]]]]; try discriminate; revert Hin; apply decimal_no; lia. }
  apply last_part in E; [|apply H46..]; destruct E as [E Eb]; apply app_inv_tail in Eb.
  assert (forall (n : bytes) a, n ++ lit ":" ++ decimal a ++ lit ".1," ++ decimal a = (n ++ lit ":" ++ decimal a ++ lit ".1") ++ 44%N :: decimal a) as R.
  { intros n a; rewrite <- !app_assoc; reflexivity. }
  rewrite !R in E; apply last_part in E; [|apply decimal_no; lia..]; destruct E as [E Ea]; apply decimal_inj in Ea; subst a2.
  apply decimal_inj in Eb; apply decimal_inj in Ec; subst b2; apply app_inv_tail in E; subst n2.
  destruct c1, c2; try discriminate; reflexivity.
Qed.
Lemma split_lines_line x rest acc : ~ In 10%N x -> split_lines (x ++ 10%N :: rest) acc = (rev acc ++ x) :: split_lines rest [].
Proof.
  revert acc; induction x as [|b x IH]; intros acc Hx; cbn [app split_lines].
  - rewrite app_nil_r; reflexivity.
  - destruct (N.eqb_spec b 10) as [->|Hb]; [exfalso; apply Hx; left; reflexivity|].
    rewrite IH by (intros H; apply Hx; right; exact H); cbn [rev]; rewrite <- app_assoc; reflexivity.
Qed.
Theorem C57_text : forall lines, Forall (fun l => ~ In 10%N (pl_name l)) lines ->
  split_lines (profile_text lines) [] = lit "mode: count" :: map line_text lines /\
  (forall l m, line_text l = line_text m -> l = m).
Proof.
  intros lines Hn; split; [|exact line_text_inj]; unfold profile_text.
  change ([10%N] ++ ?x) with (10%N :: x); rewrite split_lines_line by (vm_compute; intuition discriminate).
  cbn [rev app]; f_equal; induction Hn as [|l lines Hl Hn IH]; [reflexivity|]; cbn [map concat].
  rewrite <- app_assoc; change ([10%N] ++ ?x) with (10%N :: x); rewrite split_lines_line; [cbn [rev app]; f_equal; exact IH|].
  unfold line_text; intros Hin; repeat (apply in_app_or in Hin; destruct Hin as [Hin|Hin]);
    try (apply Hl; exact Hin); try (revert Hin; apply decimal_no; lia); revert Hin; vm_compute; intuition discriminate.
Qed.
Print Assumptions C57_text.
(** A numeral and its value: digits, the first of them not a zero unless it is alone. *)
Definition value (ds : bytes) : N := fold_left (fun v b => 10 * v + (b - 48))%N ds 0%N.
Definition numeral (ds : bytes) (z : Z) : Prop :=
  Forall (fun b => 48 <= b <= 57)%N ds /\ ds <> [] /\ (hd 0%N ds = 48%N -> ds = [48%N]) /\ Z.of_N (value ds) = z.
Lemma value_acc u p : fold_left (fun v b => 10 * v + (b - 48))%N (digits u) (N.pos p) = N.pos (Pos.of_uint_acc u p).
Proof.
  revert p; induction u as [|u IH|u IH|u IH|u IH|u IH|u IH|u IH|u IH|u IH|u IH]; intros p; [reflexivity|..]; cbn [digits fold_left];
    cbn [Pos.of_uint_acc]; rewrite <- IH; apply f_equal; lia.
Qed.
Lemma value_digits u : value (digits u) = Pos.of_uint u.
Proof.
  unfold value; induction u as [|u IH|u IH|u IH|u IH|u IH|u IH|u IH|u IH|u IH|u IH]; [reflexivity|exact IH|..]; cbn [digits fold_left Pos.of_uint];
    rewrite <- value_acc; reflexivity.
Qed.
Lemma decimal_numeral z : 0 <= z -> numeral (decimal z) z.
Proof.
  intros Hz; assert (exists u, Z.to_int z = Decimal.Pos u /\ Decimal.unorm u = u /\ u <> Decimal.Nil) as (u & E & Hu & Hnil).
  { destruct z as [|p|p]; [exists (Decimal.D0 Decimal.Nil); repeat split; discriminate| |lia].
    exists (Pos.to_uint p); split; [reflexivity|]; split; [|apply DecimalPos.Unsigned.to_uint_nonnil].
    rewrite <- (DecimalPos.Unsigned.to_of (Pos.to_uint p)), DecimalPos.Unsigned.of_to; reflexivity. }
  pose proof (DecimalZ.of_to z) as Hv; unfold decimal; rewrite E in *; split; [apply digits_digit|]; split; [|split].
  - destruct u; [congruence|discriminate..].
  - intros H0; destruct u; try discriminate.
    unfold Decimal.unorm in Hu; cbn [Decimal.nzhead] in Hu.
    destruct (Decimal.nzhead u) eqn:En; try (exfalso; revert En Hu; clear; intros En Hu; pose proof (DecimalFacts.nzhead_nonzero u u) as X; congruence).
    injection Hu as <-; reflexivity.
  - rewrite value_digits; exact Hv.
Qed.
(** Every line has its fields in the format of Go's coverage tools: from the first column of a
    line to its end, one statement, and how often it ran. *)
Theorem C57_fields : forall l, 0 <= pl_line l -> 0 <= pl_col l -> exists line col,
  numeral line (pl_line l) /\ numeral col (pl_col l) /\
  line_text l = pl_name l ++ lit ":" ++ line ++ lit ".1," ++ line ++ lit "." ++ col ++ lit " 1 " ++ lit (if pl_covered l then "1" else "0").
Proof.
  intros l Hl Hc; exists (decimal (pl_line l)), (decimal (pl_col l)); split; [apply decimal_numeral; exact Hl|].
  split; [apply decimal_numeral; exact Hc|]; unfold line_text; destruct (pl_covered l); reflexivity.
Qed.
Print Assumptions C57_fields.
Example C57_text_example : profile_text [{| pl_name := lit "it a.hsl"; pl_line := 120; pl_col := 17; pl_covered := true |};
                                         {| pl_name := lit "b"; pl_line := 3; pl_col := 9; pl_covered := false |}] =
  lit "mode: count" ++ [10%N] ++ lit "it a.hsl:120.1,120.17 1 1" ++ [10%N] ++ lit "b:3.1,3.9 1 0" ++ [10%N].
Proof. reflexivity. Qed.

(** The file is that text if it did not exist or was not longer. *)
Theorem C57_saved_partial : forall old lines,
  match old with None => True | Some b => (length b <= length (profile_text lines))%nat end -> save_profile old lines = profile_text lines.
Proof.
  intros [b|] lines Hb; unfold save_profile; [rewrite skipn_all2 by exact Hb|]; apply app_nil_r.
Qed.
Print Assumptions C57_saved_partial.

(** Otherwise lines of the older profile stay. Here a rule was taken out of a file between
    two runs, and the second profile still has a line for it. *)
Definition ex_longer : bytes := ex_rules ++ 10%N :: 32%N :: 32%N :: lit """c"" -> ""y""".
Theorem C57_saved_refuted : exists first second lines1 lines2,
  let run src := run_profile go_hangul (ex_profile src) (fun _ => choices0) (fun _ => choices0) (fun names => names) [lit "x.hsl"] in
  run first = Ok (Some lines1) /\ run second = Ok (Some lines2) /\
  let first_file := save_profile None lines1 in
  let second_file := save_profile (Some first_file) lines2 in
  length (split_lines second_file []) = S (S (length lines2)) /\
  In (lit "x.hsl:3.1,3.13 1 0") (split_lines second_file []) /\ ~ In 3 (map pl_line lines2).
Proof.
  exists ex_longer, ex_rules; vm_compute.
  do 2 eexists; split; [reflexivity|]; split; [reflexivity|]; cbn; split; [reflexivity|]; split; [tauto|]; intuition discriminate.
Qed.
Print Assumptions C57_saved_refuted.
