(** Facts about Letters (pkg/hre) and about the letters exempt from normalization. *)
From Coq Require Import Permutation Sorted String.
From Verif Require Import GoBase Utf8 Utf8Facts Regex RegexParse Hre Hsl Scripts Spec Rule Procedure.
Open Scope N_scope.

Lemma insert_rune_perm r l : Permutation (r :: l) (insert_rune r l).
Proof.
  induction l as [|x l IH]; cbn [insert_rune]; [reflexivity|].
  destruct (r <=? x); [reflexivity|].
  rewrite perm_swap; constructor; exact IH.
Qed.
Lemma sort_runes_perm l : Permutation l (sort_runes l).
Proof.
  induction l as [|x l IH]; [constructor|]; cbn [sort_runes fold_right].
  rewrite <- insert_rune_perm; constructor; exact IH.
Qed.
Lemma insert_rune_sorted r l :
  StronglySorted N.lt l -> ~ In r l -> StronglySorted N.lt (insert_rune r l).
Proof.
  induction 1 as [|x l Hs IH Hx]; intros Hn; cbn [insert_rune]; [constructor; constructor|].
  destruct (r <=? x) eqn:E.
  - assert (r < x) as Hlt by (cbn [In] in Hn; assert (r <> x) by (intros ->; tauto); lia).
    constructor; [constructor; assumption|].
    constructor; [exact Hlt|]; eapply Forall_impl; [|exact Hx]; cbn; lia.
  - constructor; [apply IH; cbn [In] in Hn; tauto|].
    apply Forall_forall; intros y Hy.
    apply (Permutation_in _ (Permutation_sym (insert_rune_perm r l))) in Hy.
    destruct Hy as [<-|Hy]; [lia|]; rewrite Forall_forall in Hx; auto.
Qed.
Lemma sort_runes_sorted l : NoDup l -> StronglySorted N.lt (sort_runes l).
Proof.
  induction 1 as [|x l Hn Hd IH]; [constructor|]; cbn [sort_runes fold_right].
  apply insert_rune_sorted; [exact IH|].
  intros Hin; apply Hn; eapply Permutation_in; [apply Permutation_sym, sort_runes_perm|exact Hin].
Qed.

(** A strictly ascending list is determined by its elements. *)
Lemma sorted_unique (a b : list N) :
  StronglySorted N.lt a -> StronglySorted N.lt b -> (forall x, In x a <-> In x b) -> a = b.
Proof.
  intros Ha; revert b; induction Ha as [|x a Ha IH Hx]; intros b Hb Hsame.
  - destruct b as [|y b]; [reflexivity|]; exfalso; apply (Hsame y); left; reflexivity.
  - destruct Hb as [|y b Hb Hy]; [exfalso; apply (Hsame x); left; reflexivity|].
    rewrite Forall_forall in Hx, Hy.
    assert (x = y) as ->.
    { destruct (proj1 (Hsame x) (or_introl eq_refl)) as [E|Hin]; [auto|].
      destruct (proj2 (Hsame y) (or_introl eq_refl)) as [E|Hin']; [auto|].
      specialize (Hx _ Hin'); specialize (Hy _ Hin); lia. }
    f_equal; apply IH; [exact Hb|]; intros z; split; intros Hz.
    + destruct (proj1 (Hsame z) (or_intror Hz)) as [E|Hin]; [|exact Hin].
      subst z; specialize (Hx _ Hz); lia.
    + destruct (proj2 (Hsame z) (or_intror Hz)) as [E|Hin]; [|exact Hin].
      subst z; specialize (Hy _ Hz); lia.
Qed.

Lemma ok_inj {A} (a b : A) : Ok a = Ok b -> a = b.
Proof. intros E; injection E as E; exact E. Qed.

Lemma letter_set_nodup l : NoDup (letter_set l).
Proof. apply NoDup_nodup. Qed.

Lemma new_pattern_letters e m v p :
  new_pattern e m v = Ok p -> NoDup (p_letters p).
Proof.
  unfold new_pattern; destruct e as [|c e]; [discriminate|].
  destruct (expand_vars _ _) as [re0 used].
  destruct (expand_lookaround re0) as [[[[[re1 na] nb] wa] wb]| | | | |]; cbn [bind]; try discriminate.
  destruct (compile_re _) as [x| | | | |]; cbn [bind]; try discriminate.
  destruct (compile_opt na) as [x1| | | | |]; cbn [bind]; try discriminate.
  destruct (compile_opt nb) as [x2| | | | |]; cbn [bind]; try discriminate.
  intros E; apply ok_inj in E; subst p; apply letter_set_nodup.
Qed.

(** ** The letters a spec exempts from normalization *)
Lemma norm_letters_in t normalize to rest :
  In (t, to) normalize -> runes t = rest -> t <> [] ->
  In (hd 0 rest) (norm_letters normalize).
Proof.
  intros Hin <- Hn; unfold norm_letters; apply in_flat_map; exists (t, to); split; [exact Hin|].
  cbn [fst]; destruct t as [|b t]; [contradiction|].
  unfold runes; rewrite glyphs_step by discriminate; cbn [map hd]; left; reflexivity.
Qed.
Lemma nmem_in x l : In x l -> nmem x l = true.
Proof. intros H; apply existsb_exists; exists x; split; [exact H|apply N.eqb_refl]. Qed.
Lemma nmem_in_iff x l : nmem x l = true <-> In x l.
Proof.
  split; [|apply nmem_in]; unfold nmem; intros H; apply existsb_exists in H.
  destruct H as (y & Hy & E); apply N.eqb_eq in E; subst; exact Hy.
Qed.

Lemma parse_spec_norm c src s :
  parse_spec c src = Ok s -> s_normLetters s = norm_letters (s_normalize s).
Proof.
  unfold parse_spec.
  destruct (parse_hsl_src src) as [[h rest]| | | | |]; cbn [bind]; try discriminate.
  destruct (with_section h (lit "lang") _ _) as [lang| | | | |]; cbn [bind]; try discriminate.
  destruct (with_section h (lit "config") _ _) as [conf| | | | |]; cbn [bind]; try discriminate.
  destruct (with_section h (lit "macros") _ _) as [macros| | | | |]; cbn [bind]; try discriminate.
  destruct (with_section h (lit "vars") _ _) as [vars| | | | |]; cbn [bind]; try discriminate.
  destruct (with_section h (lit "normalize") _ _) as [normalize| | | | |]; cbn [bind]; try discriminate.
  destruct (with_section h (lit "rewrite") _ _) as [rp| | | | |]; cbn [bind]; try discriminate.
  destruct (new_rules _ _ _ _ _ _) as [rw| | | | |]; cbn [bind]; try discriminate.
  destruct (with_section h (lit "transcribe") _ _) as [tp| | | | |]; cbn [bind]; try discriminate.
  destruct (new_rules _ _ _ _ _ _) as [ts| | | | |]; cbn [bind]; try discriminate.
  destruct (with_section h (lit "test") _ _) as [test| | | | |]; cbn [bind]; try discriminate.
  destruct (get_script (l_script lang)) as [script|]; [|discriminate].
  intros E; apply ok_inj in E; subst s; reflexivity.
Qed.

Lemma first_target_kept c src s target sources l rest :
  parse_spec c src = Ok s -> In (target, sources) (s_normalize s) -> runes target = l :: rest ->
  norm_rune s l = l.
Proof.
  intros Hp Hin Hr; unfold norm_rune; rewrite (parse_spec_norm c src s Hp).
  rewrite nmem_in; [reflexivity|].
  change l with (hd 0 (l :: rest)); eapply norm_letters_in; [exact Hin|exact Hr|].
  intros ->; discriminate.
Qed.

Lemma letters_sorted_gen (set ls : list rune) :
  NoDup set -> Permutation set ls ->
  StronglySorted N.lt (sort_runes ls) /\ (forall l, In l (sort_runes ls) <-> In l set) /\
  sort_runes ls = sort_runes set.
Proof.
  intros Hd Hp.
  assert (NoDup ls) as Hd' by (eapply Permutation_NoDup; eassumption).
  assert (forall l, In l (sort_runes ls) <-> In l set) as Hin.
  { intros l; split; apply Permutation_in.
    - rewrite <- sort_runes_perm; symmetry; exact Hp.
    - rewrite <- sort_runes_perm; exact Hp. }
  split; [apply sort_runes_sorted; exact Hd'|]; split; [exact Hin|].
  apply sorted_unique; [apply sort_runes_sorted; exact Hd'|apply sort_runes_sorted; exact Hd|].
  intros x; rewrite Hin; split; apply Permutation_in; [apply sort_runes_perm|symmetry; apply sort_runes_perm].
Qed.
Lemma letters_sorted expr macros vars p ls :
  new_pattern expr macros vars = Ok p -> Permutation (p_letters p) ls ->
  StronglySorted N.lt (sort_runes ls) /\
  (forall l, In l (sort_runes ls) <-> In l (p_letters p)) /\
  sort_runes ls = pattern_letters p.
Proof. intros Hp; apply letters_sorted_gen; eapply new_pattern_letters; exact Hp. Qed.
Lemma rletters_sorted expr macros vars ls :
  Permutation (r_letters (new_rpattern expr macros vars)) ls ->
  StronglySorted N.lt (sort_runes ls) /\
  (forall l, In l (sort_runes ls) <-> In l (r_letters (new_rpattern expr macros vars))) /\
  sort_runes ls = rpattern_letters (new_rpattern expr macros vars).
Proof. apply letters_sorted_gen; apply letter_set_nodup. Qed.
