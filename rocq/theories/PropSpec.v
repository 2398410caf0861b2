(** Property C28 (ParseSpec reports malformed specs as errors). *)
From Coq Require Import String.
From Verif Require Import GoBase Utf8 Utf8Facts Replacer Regex RegexSpec RegexFacts RegexParse ParseFacts
  Hre SourceFacts Rule Hsl HslFacts HslInv Scripts Spec PropFind PropHsl.
Open Scope Z_scope.

(** ** NewPattern never panics *)
Lemma index_ok {A} (l : list A) i : 0 <= i < len l -> exists x, index l i = Ok x.
Proof.
  intros H; unfold index; destruct (Z.leb_spec 0 i); [|lia].
  destruct (nth_error l (Z.to_nat i)) as [x|] eqn:E; [exists x; reflexivity|].
  apply nth_error_None in E; unfold len in H; lia.
Qed.
Lemma slice_ok {A} (l : list A) i j : 0 <= i <= j -> j <= len l -> exists x, slice l i j = Ok x.
Proof.
  intros H1 H2; unfold slice.
  destruct ((0 <=? i) && (i <=? j) && (j <=? len l)) eqn:E; [eexists; reflexivity|lia].
Qed.
Lemma captured_ok s m n : 0 <= n -> 2 * n + 1 < len m -> exists x, captured s m n = Ok x.
Proof.
  intros H1 H2; unfold captured.
  destruct (index_ok m (n * 2)) as (a & ->); [lia|]; destruct (index_ok m (n * 2 + 1)) as (b & ->); [lia|].
  eexists; reflexivity.
Qed.
Lemma cap_array_length c i n : length (cap_array c i n) = (2 * n)%nat.
Proof.
  revert i; induction n as [|n IH]; intros i; [reflexivity|]; cbn [cap_array]; rewrite app_length, IH.
  destruct (cap_lookup c i) as [[a b]|]; cbn; lia.
Qed.

(** The expressions that look for lookaround match any text. *)
Lemma found_bounds e s : search (prog e) (glyphs s) 0 <> None ->
  exists a b rest, find_submatch_index e s = a :: b :: rest /\ length rest = (2 * numcap e)%nat /\
    0 <= a <= b /\ b <= len s.
Proof.
  intros H; unfold find_submatch_index; destruct (search (prog e) (glyphs s) 0) as [[[a b] c]|] eqn:E; [|contradiction].
  exists (Z.of_nat a), (Z.of_nat b), (cap_array c 1 (numcap e)); split; [reflexivity|]; split; [apply cap_array_length|].
  apply search_sound in E; destruct E as (u & v & s' & Eg & -> & -> & _).
  pose proof (gwidth_glyphs s) as Hl; rewrite Eg, !gwidth_app in Hl; unfold len; lia.
Qed.
Lemma lookahead_always s : search (prog reLookahead) (glyphs s) 0 <> None.
Proof.
  destruct (search_leftmost (prog reLookahead) (glyphs s) 0 (glyphs s) [] [] (0 + gwidth (glyphs s))
    [(2, (0 + gwidth (glyphs s), 0 + gwidth (glyphs s)))]%nat) as (a & b & c & -> & _); [rewrite app_nil_r; reflexivity| |discriminate].
  rewrite lookahead_prog; eapply X_cat; [apply X_altr, X_eps|]; eapply X_cat; [apply X_cap, X_star_none|apply X_end].
Qed.
Lemma lookbehind_always s : search (prog reLookbehind) (glyphs s) 0 <> None.
Proof.
  destruct (search_leftmost (prog reLookbehind) (glyphs s) 0 [] [] (glyphs s) 0 [(1, (0, 0))]%nat) as (a & b & c & -> & _);
    [reflexivity| |discriminate].
  rewrite lookbehind_prog; eapply X_cat; [apply X_begin|]; eapply X_cat; [apply X_cap, X_star_none|apply X_altr, X_eps].
Qed.

Lemma dissolve_clean f l e : clean (dissolve_lookaround f l e).
Proof.
  unfold dissolve_lookaround; destruct l as [|c l]; [exact I|]; destruct (c =? 0x7E)%N, e; try exact I.
  pose proof (parse_re_clean (f l)) as H; destruct (parse_re (f l)) as [[r n]| | | | |]; cbn in *; tauto.
Qed.
Lemma expand_lookahead_clean s : clean (expand_lookahead s).
Proof.
  unfold expand_lookahead; destruct (found_bounds reLookahead s (lookahead_always s)) as (a & b & rest & -> & Hl & H1 & H2).
  change (2 * numcap reLookahead)%nat with 4%nat in Hl.
  cbn [index Z.leb Z.compare Z.to_nat nth_error bind].
  destruct (slice_ok s 0 a) as (o & ->); [lia|lia|]; cbn [bind].
  assert (len (a :: b :: rest) = 6) as Hlen by (unfold len; cbn [length]; rewrite Hl; reflexivity).
  destruct (captured_ok s (a :: b :: rest) 2) as (x & ->); [lia|lia|]; cbn [bind].
  destruct (captured_ok s (a :: b :: rest) 1) as (y & ->); [lia|lia|]; cbn [bind].
  apply clean_bind; [apply dissolve_clean|]; intros [[[p q] w] ok] _; destruct ok; exact I.
Qed.
Lemma expand_lookbehind_clean s : clean (expand_lookbehind s).
Proof.
  unfold expand_lookbehind; destruct (found_bounds reLookbehind s (lookbehind_always s)) as (a & b & rest & -> & Hl & H1 & H2).
  change (2 * numcap reLookbehind)%nat with 4%nat in Hl.
  change (index (a :: b :: rest) 1) with (@Ok Z b); cbn [bind].
  assert (len (a :: b :: rest) = 6) as Hlen by (unfold len; cbn [length]; rewrite Hl; reflexivity).
  destruct (slice_ok s b (len s)) as (o & ->); [lia|lia|]; cbn [bind].
  destruct (captured_ok s (a :: b :: rest) 1) as (x & ->); [lia|lia|]; cbn [bind].
  destruct (captured_ok s (a :: b :: rest) 2) as (y & ->); [lia|lia|]; cbn [bind].
  apply clean_bind; [apply dissolve_clean|]; intros [[[p q] w] ok] _; destruct ok; exact I.
Qed.
Lemma new_pattern_clean e macros vars : clean (new_pattern e macros vars).
Proof.
  unfold new_pattern; destruct e as [|c e]; [exact I|]; destruct (expand_vars _ vars) as [re used].
  apply clean_bind.
  { unfold expand_lookaround; apply clean_bind; [apply expand_lookahead_clean|]; intros [[p1 na] wa] _.
    apply clean_bind; [apply expand_lookbehind_clean|]; intros [[p2 nb] wb] _; destruct (match_string _ _); exact I. }
  intros [[[[p na] nb] wa] wb] _.
  apply clean_bind; [apply compile_re_clean|]; intros r _.
  assert (forall x, clean (compile_opt x)) as Ho.
  { intros [|b x]; [exact I|]; unfold compile_opt; apply clean_bind; [apply compile_re_clean|intros; exact I]. }
  apply clean_bind; [apply Ho|]; intros r1 _; apply clean_bind; [apply Ho|]; intros r2 _; exact I.
Qed.

(** ** C28

    What ParseSpec asks of the sections it knows. *)
Definition dict_names : list bytes := [lit "lang"; lit "config"; lit "macros"; lit "vars"; lit "normalize"].
Definition list_names : list bytes := [lit "rewrite"; lit "transcribe"; lit "test"].
Definition is_dict (s : section) : Prop := match s with DictSection _ _ => True | ListSection _ _ => False end.
Definition is_list (s : section) : Prop := match s with ListSection _ _ => True | DictSection _ _ => False end.
Definition pairs_of (s : section) : list pair_ := match s with ListSection l _ => l | DictSection d _ => d end.

(** A section of the wrong kind. *)
Definition wrong_kind (h : hsl) : Prop :=
  exists name sec, lookup h name = Some sec /\ (In name dict_names /\ is_list sec \/ In name list_names /\ is_dict sec).
(** An arrow with nothing on its right. *)
Definition no_right (h : hsl) : Prop :=
  exists name sec p, lookup h name = Some sec /\ In name list_names /\ In p (pairs_of sec) /\ pr_right p = [].

(** How a computation may end badly, given a reason for each panic. *)
Definition because (P : gpanic -> Prop) {A} (r : res A) : Prop :=
  match r with Ok _ | Err _ | Unmodelled => True | Panic p => P p | _ => False end.
Lemma because_bind P {A B} (r : res A) (k : A -> res B) :
  because P r -> (forall a, r = Ok a -> because P (k a)) -> because P (bind r k).
Proof. destruct r; cbn; try tauto; intros _ H; apply H; reflexivity. Qed.
Lemma because_clean P {A} (r : res A) : clean r -> because P r.
Proof. destruct r; cbn; tauto. Qed.

Section Outcome.
  Context (h : hsl).
  Definition reason (p : gpanic) : Prop := p = PTypeAssert /\ wrong_kind h \/ p = PIndex /\ no_right h.

  Lemma with_dict {A} name (f : list pair_ -> res A) d : In name dict_names -> (forall l, clean (f l)) ->
    because reason (with_section h name (fun s => bind (as_dict s) f) d).
  Proof.
    intros Hn Hf; unfold with_section; destruct (lookup h name) as [s|] eqn:E; [|exact I].
    destruct s as [l n|l n]; cbn [as_dict bind because]; [|apply because_clean, Hf].
    left; split; [reflexivity|]; exists name, (ListSection l n); split; [exact E|left; split; [exact Hn|exact I]].
  Qed.
  Lemma with_list {A} name (f : list pair_ -> res A) d : In name list_names ->
    (forall l n, lookup h name = Some (ListSection l n) -> because reason (f l)) ->
    because reason (with_section h name (fun s => bind (as_list s) f) d).
  Proof.
    intros Hn Hf; unfold with_section; destruct (lookup h name) as [s|] eqn:E; [|exact I].
    destruct s as [l n|l n]; cbn [as_list bind because]; [eapply Hf; reflexivity|].
    left; split; [reflexivity|]; exists name, (DictSection l n); split; [exact E|right; split; [exact Hn|exact I]].
  Qed.
  Lemma first_right name l n p : In name list_names -> lookup h name = Some (ListSection l n) -> In p l ->
    because reason (index (pr_right p) 0).
  Proof.
    intros Hn E Hp; destruct (pr_right p) as [|v r] eqn:Er; [|exact I].
    right; split; [reflexivity|]; exists name, (ListSection l n), p; auto.
  Qed.
  Lemma new_rules_because c tr i l macros vars : (forall p, In p l -> because reason (index (pr_right p) 0)) ->
    because reason (new_rules c tr i l macros vars).
  Proof.
    revert i; induction l as [|p l IH]; intros i H; [exact I|]; cbn [new_rules].
    apply because_bind; [apply because_clean, new_pattern_clean|]; intros from _.
    destruct (negative_lookaround_widths from) as [wa wb]; destruct (_ || _)%bool; [exact I|].
    apply because_bind; [apply H; left; reflexivity|]; intros r _.
    apply because_bind; [apply IH; intros q Hq; apply H; right; exact Hq|]; intros rest _; exact I.
  Qed.
  Lemma collect_tests_because l : (forall p, In p l -> because reason (index (pr_right p) 0)) ->
    because reason (collect_tests l).
  Proof.
    induction l as [|p l IH]; intros H; [exact I|]; cbn [collect_tests].
    apply because_bind; [apply H; left; reflexivity|]; intros r _.
    apply because_bind; [apply IH; intros q Hq; apply H; right; exact Hq|]; intros rest _; exact I.
  Qed.
End Outcome.

(** Everything ParseSpec may do: return a spec, return an error, fail like the parser of
    HSL, or panic because of a section of the wrong kind or an arrow with nothing on its
    right. In particular no pattern, replacement, variable or macro makes it panic. *)
Theorem C28_outcomes_partial : forall c src,
  match parse_spec c src with
  | Ok _ | Err _ | Unmodelled => True
  | Panic p => parse_hsl src = Panic p \/
               exists h, parse_hsl src = Ok h /\ (p = PTypeAssert /\ wrong_kind h \/ p = PIndex /\ no_right h)
  | Hang => parse_hsl src = Hang
  | NoFuel => False
  end.
Proof.
  intros c src; pose proof (C25_outcomes_partial src) as O; unfold parse_spec, parse_hsl in *.
  destruct (parse_hsl_src src) as [[h rest]|e|p| | |]; cbn [bind] in *; auto; try contradiction.
  match goal with |- match ?x with _ => _ end =>
    assert (because (reason h) x) as B; [|destruct x as [| |p| | |]; cbn [because] in B; auto; try contradiction;
      right; exists h; split; [reflexivity|exact B]] end.
  apply because_bind.
  { apply with_dict; [cbn; auto|]; intros l; unfold new_language; destruct (dict_all l (lit "codes")) as [|c0 [|c1 [|c2 r]]]; exact I. }
  intros lang _; apply because_bind; [apply with_dict; [cbn; auto|intros l; exact I]|].
  intros conf _; apply because_bind.
  { apply with_dict; [cbn; auto|]; intros l; induction l as [|p l IH]; [exact I|]; cbn [dict_injective].
    destruct (pr_right p) as [|v [|v' r]]; [exact I| |exact I]; apply clean_bind; [exact IH|intros; exact I]. }
  intros macros _; apply because_bind; [apply with_dict; [cbn; tauto|intros l; exact I]|].
  intros vars _; apply because_bind; [apply with_dict; [cbn; tauto|intros l; exact I]|].
  intros norm _.
  assert (forall name, In name list_names -> because (reason h) (with_section h name as_list [])) as Hl.
  { intros name Hn; pose proof (with_list h name (fun l => Ok l) [] Hn ltac:(intros; exact I)) as B.
    unfold with_section in *; destruct (lookup h name) as [[l n|l n]|]; exact B. }
  assert (forall name l, In name list_names -> with_section h name as_list [] = Ok l ->
    forall p, In p l -> because (reason h) (index (pr_right p) 0)) as Hr.
  { intros name l Hn E p Hp; unfold with_section in E; destruct (lookup h name) as [[l' n|l' n]|] eqn:El; cbn in E; try discriminate.
    - injection E as ->; eapply first_right; eassumption.
    - injection E as <-; destruct Hp. }
  apply because_bind; [apply Hl; cbn; tauto|]; intros rw Erw.
  apply because_bind; [apply new_rules_because; exact (Hr (lit "rewrite") _ ltac:(cbn; tauto) Erw)|]; intros rewrite_ _.
  apply because_bind; [apply Hl; cbn; tauto|]; intros tr Etr.
  apply because_bind; [apply new_rules_because; exact (Hr (lit "transcribe") _ ltac:(cbn; tauto) Etr)|]; intros transcribe_ _.
  apply because_bind.
  { apply with_list; [cbn; tauto|]; intros l n E; apply collect_tests_because; intros p Hp.
    eapply first_right; [|exact E|exact Hp]; cbn; tauto. }
  intros test _; destruct (get_script _); exact I.
Qed.
Print Assumptions C28_outcomes_partial.

Theorem C28_no_panic_partial : forall c src h,
  parse_hsl src = Ok h -> ~ wrong_kind h -> ~ no_right h ->
  (exists s, parse_spec c src = Ok s) \/ (exists e, parse_spec c src = Err e) \/ parse_spec c src = Unmodelled.
Proof.
  intros c src h E H1 H2; pose proof (C28_outcomes_partial c src) as O.
  destruct (parse_spec c src) as [s|e|p| | |]; eauto; try contradiction; try congruence.
  destruct O as [O|(h' & E' & [[_ O]|[_ O]])]; [congruence| |]; rewrite E in E'; injection E' as <-; contradiction.
Qed.
Print Assumptions C28_no_panic_partial.

(** The property itself is false in each of these ways. *)
Theorem C28_kind_refuted : exists src, forall c, parse_spec c src = Panic PTypeAssert.
Proof. exists (lit "lang: id -> ""xx"""); intros c; vm_compute; reflexivity. Qed.
Print Assumptions C28_kind_refuted.
Theorem C28_right_refuted : exists src, forall c, parse_spec c src = Panic PIndex.
Proof. exists (lit "test: ""a"" ->"); intros c; vm_compute; reflexivity. Qed.
Print Assumptions C28_right_refuted.
Theorem C28_hsl_refuted : exists src, forall c, parse_spec c src = Panic PNotArrow.
Proof. exists (lit "lang: -"); intros c; vm_compute; reflexivity. Qed.
Print Assumptions C28_hsl_refuted.
Theorem C28_hang_refuted : exists src, forall c, parse_spec c src = Hang.
Proof. exists (lit "lang: """); intros c; vm_compute; reflexivity. Qed.
Print Assumptions C28_hang_refuted.

(** ** Which specs are accepted

    [rule_ok]: the pattern of the pair is accepted with the macros in one of their orders,
    its negative lookaround is bounded, and there is a replacement. *)
Definition rule_ok (macros : macros_map) (vars : vars_map) (p : pair_) : Prop :=
  (exists pt, new_pattern (pr_left p) macros vars = Ok pt /\ p_negAWidth pt <> -1 /\ p_negBWidth pt <> -1) /\
  pr_right p <> [].
Definition dict_of (h : hsl) (name : bytes) (d : list pair_) : Prop :=
  match lookup h name with None => d = [] | Some s => exists n, s = DictSection d n end.
Definition list_of (h : hsl) (name : bytes) (l : list pair_) : Prop :=
  match lookup h name with None => l = [] | Some s => exists n, s = ListSection l n end.

Definition known_scripts : list bytes := [lit ""; lit "Latn"; lit "Cyrl"; lit "Geor"; lit "Grek"; lit "Hrkt"].

(** The sections of an acceptable spec. *)
Record acceptable (c : choices) (h : hsl) : Prop := {
  acc_lang : lookup h (lit "lang") = None \/
    exists d n c1 c2, lookup h (lit "lang") = Some (DictSection d n) /\ dict_all d (lit "codes") = [c1; c2] /\
      In (dict_one d (lit "script")) known_scripts;
  acc_config : exists d, dict_of h (lit "config") d;
  acc_normalize : exists d, dict_of h (lit "normalize") d;
  acc_rules : exists macros vars mp vs, dict_of h (lit "macros") mp /\ dict_of h (lit "vars") vs /\
    Forall2 (fun p m => pr_left p = fst m /\ pr_right p = [snd m]) mp macros /\
    vars = map (fun p => (pr_left p, pr_right p)) vs /\
    forall tr, exists l, list_of h (if tr : bool then lit "transcribe" else lit "rewrite") l /\
      forall i p, nth_error l i = Some p -> rule_ok (ch_macros c tr (2 * i) macros) vars p;
  acc_test : exists l, list_of h (lit "test") l /\ Forall (fun p => pr_right p <> []) l
}.

Lemma script_known name : get_script name <> None <-> In name known_scripts.
Proof.
  unfold get_script, known_scripts; split.
  - repeat match goal with |- context [if beqb name ?n then _ else _] =>
      let E := fresh in destruct (beqb name n) eqn:E; [apply beqb_eq in E; intros _; rewrite E; cbn; tauto|clear E] end.
    intros H; contradiction.
  - cbn [In]; intros H; repeat (destruct H as [<-|H]; [vm_compute; discriminate|]); destruct H.
Qed.
Lemma with_dict_ok {A} h name (f : list pair_ -> res A) d x :
  with_section h name (fun s => bind (as_dict s) f) d = Ok x <->
  lookup h name = None /\ d = x \/ exists l n, lookup h name = Some (DictSection l n) /\ f l = Ok x.
Proof.
  unfold with_section; destruct (lookup h name) as [[l n|l n]|]; cbn [as_dict bind]; split.
  - discriminate.
  - intros [[H _]|(l' & n' & H & _)]; discriminate.
  - intros H; right; exists l, n; auto.
  - intros [[H _]|(l' & n' & H & E)]; [discriminate|]; injection H as -> ->; exact E.
  - intros H; injection H as ->; auto.
  - intros [[_ ->]|(l' & n' & H & _)]; [reflexivity|discriminate].
Qed.
Lemma with_list_ok {A} h name (f : list pair_ -> res A) d x :
  with_section h name (fun s => bind (as_list s) f) d = Ok x <->
  lookup h name = None /\ d = x \/ exists l n, lookup h name = Some (ListSection l n) /\ f l = Ok x.
Proof.
  unfold with_section; destruct (lookup h name) as [[l n|l n]|]; cbn [as_list bind]; split.
  - intros H; right; exists l, n; auto.
  - intros [[H _]|(l' & n' & H & E)]; [discriminate|]; injection H as -> ->; exact E.
  - discriminate.
  - intros [[H _]|(l' & n' & H & _)]; discriminate.
  - intros H; injection H as ->; auto.
  - intros [[_ ->]|(l' & n' & H & _)]; [reflexivity|discriminate].
Qed.
Lemma as_list_of h name l : with_section h name as_list [] = Ok l <-> list_of h name l.
Proof.
  unfold with_section, list_of; destruct (lookup h name) as [[l' n|l' n]|]; cbn [as_list]; split.
  - intros H; injection H as ->; exists n; reflexivity.
  - intros (n' & H); injection H as -> _; reflexivity.
  - discriminate.
  - intros (n' & H); discriminate.
  - intros H; injection H as <-; reflexivity.
  - intros ->; reflexivity.
Qed.
Lemma dict_of_ok {A} h name (f : list pair_ -> A) x : f [] = x \/ lookup h name <> None ->
  (exists d, dict_of h name d /\ f d = x) <-> with_section h name (fun s => bind (as_dict s) (fun d => Ok (f d))) (f []) = Ok x.
Proof.
  intros Hx; rewrite with_dict_ok; unfold dict_of; destruct (lookup h name) as [s|]; split.
  - intros (d & (n & ->) & <-); right; exists d, n; auto.
  - intros [[H _]|(l & n & H & E)]; [discriminate|]; injection H as ->; injection E as <-; exists l; split; [exists n; reflexivity|reflexivity].
  - intros (d & -> & <-); auto.
  - intros [[_ E]|(l & n & H & _)]; [|discriminate]; exists []; auto.
Qed.
Lemma injective_ok d m : dict_injective d = Ok m <-> Forall2 (fun p m => pr_left p = fst m /\ pr_right p = [snd m]) d m.
Proof.
  revert m; induction d as [|p d IH]; intros m; cbn [dict_injective]; split.
  - intros H; injection H as <-; constructor.
  - intros H; inversion H; reflexivity.
  - destruct (pr_right p) as [|v [|v' r]] eqn:Er; try discriminate.
    destruct (dict_injective d) as [t| | | | |]; cbn [bind]; try discriminate.
    intros H; injection H as <-; constructor; [auto|apply IH; reflexivity].
  - intros H; inversion H as [|p0 m0 d0 m1 [E1 E2] H1]; subst; rewrite E2; apply IH in H1; rewrite H1; cbn [bind].
    rewrite E1; destruct m0; reflexivity.
Qed.
Lemma new_rules_ok c tr i l macros vars :
  (exists rs, new_rules c tr i l macros vars = Ok rs) <->
  forall k p, nth_error l k = Some p -> rule_ok (ch_macros c tr (2 * (i + k)) macros) vars p.
Proof.
  revert i; induction l as [|p l IH]; intros i; cbn [new_rules]; split.
  - intros _ [|k] q H; discriminate.
  - intros _; eexists; reflexivity.
  - intros (rs & H).
    destruct (new_pattern (pr_left p) (ch_macros c tr (2 * i) macros) vars) as [from| | | | |] eqn:Ep; cbn [bind] in H; try discriminate.
    unfold negative_lookaround_widths in H; destruct (Z.eqb_spec (p_negAWidth from) (-1)), (Z.eqb_spec (p_negBWidth from) (-1)); try discriminate.
    cbn [orb] in H; destruct (pr_right p) as [|v r] eqn:Er; [discriminate|].
    change (index (v :: r) 0) with (@Ok bytes v) in H; cbn [bind] in H.
    destruct (new_rules c tr (S i) l macros vars) as [rest| | | | |] eqn:El; cbn [bind] in H; try discriminate.
    intros [|k] q Hq.
    + injection Hq as <-; rewrite Nat.add_0_r; split; [exists from; auto|rewrite Er; discriminate].
    + replace (i + S k)%nat with (S i + k)%nat by lia; apply (proj1 (IH (S i)) (ex_intro _ rest El)); exact Hq.
  - intros H; destruct (H 0%nat p eq_refl) as [(from & Ep & Ha & Hb) Hr]; rewrite Nat.add_0_r in Ep; rewrite Ep; cbn [bind].
    unfold negative_lookaround_widths; destruct (Z.eqb_spec (p_negAWidth from) (-1)), (Z.eqb_spec (p_negBWidth from) (-1)); try contradiction.
    cbn [orb]; destruct (pr_right p) as [|v r]; [contradiction|]; change (index (v :: r) 0) with (@Ok bytes v); cbn [bind].
    destruct (proj2 (IH (S i))) as (rest & ->); [|eexists; reflexivity].
    intros k q Hq; replace (S i + k)%nat with (i + S k)%nat by lia; apply (H (S k) q Hq).
Qed.
Lemma collect_tests_ok l : (exists t, collect_tests l = Ok t) <-> Forall (fun p => pr_right p <> []) l.
Proof.
  induction l as [|p l IH]; cbn [collect_tests]; split.
  - constructor.
  - eexists; reflexivity.
  - intros (t & H); destruct (pr_right p) as [|v r] eqn:E; [discriminate|].
    change (index (v :: r) 0) with (@Ok bytes v) in H; cbn [bind] in H.
    destruct (collect_tests l) as [t'| | | | |]; cbn [bind] in H; try discriminate.
    constructor; [rewrite E; discriminate|apply IH; eexists; reflexivity].
  - intros H; inversion H as [|p0 l0 Hp Hl]; subst; destruct (pr_right p) as [|v r]; [contradiction|].
    change (index (v :: r) 0) with (@Ok bytes v); cbn [bind]; destruct (proj2 IH Hl) as (t & ->); eexists; reflexivity.
Qed.

Lemma bind_ok {A B} (r : res A) (k : A -> res B) x : bind r k = Ok x <-> exists a, r = Ok a /\ k a = Ok x.
Proof.
  split; [|intros (a & -> & H); exact H].
  destruct r; cbn [bind]; intros H; try discriminate; eexists; split; [reflexivity|exact H].
Qed.

(** A spec is accepted exactly when its sections are acceptable: everything else gives an
    error (or one of the panics above). *)
Theorem C28_accepts : forall c src,
  (exists s, parse_spec c src = Ok s) <-> exists h, parse_hsl src = Ok h /\ acceptable c h.
Proof.
  intros c src; unfold parse_spec, parse_hsl; split.
  - intros (s & H); apply bind_ok in H; destruct H as ([h rest] & -> & H); cbn [bind]; exists h; split; [reflexivity|].
    apply bind_ok in H; destruct H as (lang & Hlang & H).
    apply bind_ok in H; destruct H as (conf & Hconf & H).
    apply bind_ok in H; destruct H as (macros & Hmacros & H).
    apply bind_ok in H; destruct H as (vars & Hvars & H).
    apply bind_ok in H; destruct H as (norm & Hnorm & H).
    apply bind_ok in H; destruct H as (rw & Hrw & H).
    apply bind_ok in H; destruct H as (rws & Hrws & H).
    apply bind_ok in H; destruct H as (tr & Htr & H).
    apply bind_ok in H; destruct H as (trs & Htrs & H).
    apply bind_ok in H; destruct H as (test & Htest & H).
    split.
    + apply with_dict_ok in Hlang; destruct Hlang as [[E _]|(d & n & E & Hl)]; [left; exact E|right].
      unfold new_language in Hl; destruct (dict_all d (lit "codes")) as [|c1 [|c2 [|c3 r]]] eqn:Ec; try discriminate.
      exists d, n, c1, c2; split; [exact E|]; split; [exact Ec|].
      apply script_known; injection Hl as <-; cbn [l_script] in H; intros X; rewrite X in H; discriminate.
    + apply with_dict_ok in Hconf; unfold dict_of; destruct Hconf as [[-> _]|(d & n & -> & _)];
        [exists []; reflexivity|exists d, n; reflexivity].
    + apply with_dict_ok in Hnorm; unfold dict_of; destruct Hnorm as [[-> _]|(d & n & -> & _)];
        [exists []; reflexivity|exists d, n; reflexivity].
    + apply as_list_of in Hrw, Htr.
      assert (exists mp, dict_of h (lit "macros") mp /\ dict_injective mp = Ok macros) as (mp & Hmp & Hm).
      { apply with_dict_ok in Hmacros; unfold dict_of; destruct Hmacros as [[-> <-]|(d & n & -> & Hm)];
          [exists []; split; reflexivity|exists d; split; [exists n; reflexivity|exact Hm]]. }
      assert (exists vs, dict_of h (lit "vars") vs /\ vars = dict_map vs) as (vs & Hvs & Hv).
      { apply with_dict_ok in Hvars; unfold dict_of; destruct Hvars as [[-> <-]|(d & n & -> & Hv)];
          [exists []; split; reflexivity|exists d; split; [exists n; reflexivity|injection Hv as <-; reflexivity]]. }
      exists macros, vars, mp, vs; split; [exact Hmp|]; split; [exact Hvs|]; split; [apply injective_ok; exact Hm|]; split; [exact Hv|].
      intros [|]; [exists tr; split; [exact Htr|]|exists rw; split; [exact Hrw|]]; intros i p Hp.
      * exact (proj1 (new_rules_ok c true 0 tr macros vars) (ex_intro _ _ Htrs) i p Hp).
      * exact (proj1 (new_rules_ok c false 0 rw macros vars) (ex_intro _ _ Hrws) i p Hp).
    + apply with_list_ok in Htest; unfold list_of; destruct Htest as [[-> _]|(l & n & -> & Ht)];
        [exists []; split; [reflexivity|constructor]|exists l; split; [exists n; reflexivity|]].
      apply collect_tests_ok; exists test; exact Ht.
  - intros (h & Hh & [Hlang (cd & Hcd) (nd & Hnd) (macros & vars & mp & vs & Hmp & Hvs & Hm & Hv & Hrules) (tl & Htl & Htests)]).
    destruct (parse_hsl_src src) as [[h' rest]| | | | |]; cbn [bind] in *; try discriminate; injection Hh as ->.
    assert (exists lang, with_section h (lit "lang") (fun s => let! d := as_dict s in new_language d) language0 = Ok lang /\
      get_script (l_script lang) <> None) as (lang & Elang & Hscript).
    { destruct Hlang as [E|(d & n & c1 & c2 & E & Ec & Es)].
      - exists language0; split; [apply with_dict_ok; left; split; [exact E|reflexivity]|discriminate].
      - eexists; split.
        + apply with_dict_ok; right; exists d, n; split; [exact E|]; unfold new_language; rewrite Ec; reflexivity.
        + apply script_known; exact Es. }
    rewrite Elang; cbn [bind].
    assert (forall name d (A : Type) (f : list pair_ -> A) dflt, dict_of h name d ->
      exists x, with_section h name (fun s => let! d := as_dict s in Ok (f d)) dflt = Ok x) as Hany.
    { intros name d A f dflt Hd; unfold dict_of in Hd; unfold with_section; destruct (lookup h name) as [s|]; [|eexists; reflexivity].
      destruct Hd as (n & ->); eexists; reflexivity. }
    destruct (Hany _ _ _ new_config {| c_authors := []; c_stage := [] |} Hcd) as (conf & ->); cbn [bind].
    assert (with_section h (lit "macros") (fun s => let! d := as_dict s in dict_injective d) [] = Ok macros) as ->.
    { apply injective_ok in Hm; unfold dict_of in Hmp; unfold with_section; destruct (lookup h (lit "macros")) as [s|].
      - destruct Hmp as (n & ->); exact Hm.
      - subst mp; exact Hm. }
    cbn [bind].
    assert (with_section h (lit "vars") (fun s => let! d := as_dict s in Ok (dict_map d)) [] = Ok vars) as ->.
    { unfold dict_of in Hvs; unfold with_section; destruct (lookup h (lit "vars")) as [s|].
      - destruct Hvs as (n & ->); rewrite Hv; reflexivity.
      - subst vs; rewrite Hv; reflexivity. }
    cbn [bind].
    destruct (Hany _ _ _ dict_map [] Hnd) as (norm & ->); cbn [bind].
    destruct (Hrules false) as (rw & Hrw & Hrws); apply as_list_of in Hrw; rewrite Hrw; cbn [bind].
    destruct (proj2 (new_rules_ok c false 0 rw macros vars) Hrws) as (rws & ->); cbn [bind].
    destruct (Hrules true) as (tr & Htr & Htrs); apply as_list_of in Htr; rewrite Htr; cbn [bind].
    destruct (proj2 (new_rules_ok c true 0 tr macros vars) Htrs) as (trs & ->); cbn [bind].
    assert (exists t, with_section h (lit "test") (fun s => let! l := as_list s in collect_tests l) [] = Ok t) as (t & ->).
    { unfold list_of in Htl; unfold with_section; destruct (lookup h (lit "test")) as [s|]; [|eexists; reflexivity].
      destruct Htl as (n & ->); cbn [as_list bind]; apply collect_tests_ok; exact Htests. }
    cbn [bind]; destruct (get_script (l_script lang)); [eexists; reflexivity|contradiction].
Qed.
Print Assumptions C28_accepts.

Example C28_example :
  let src := lit ("lang:" ++ nl ++ "codes = ""it"", ""ita""" ++ nl ++ "rewrite:" ++ nl ++ """{~a}b"" -> ""c""" ++ nl)%string in
  (exists h, parse_hsl src = Ok h /\ acceptable choices0 h) /\
  parse_spec choices0 (lit ("lang:" ++ nl ++ "codes = ""it""" ++ nl)%string) = Err ErrCodes /\
  parse_spec choices0 (lit ("rewrite:" ++ nl ++ """(a"" -> ""c""" ++ nl)%string) = Err ErrRegexp.
Proof.
  split; [|split; vm_compute; reflexivity].
  apply C28_accepts; match goal with |- exists s, ?x = _ => let y := eval vm_compute in x in
    match y with Ok ?s => exists s; vm_compute; reflexivity end end.
Qed.
