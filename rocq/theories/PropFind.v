(** Properties C08, C09, C10, C11, C12 and C17: searching and replacing with HRE patterns. *)
From Coq Require Import String.
From Verif Require Import GoBase Utf8 Utf8Facts Regex RegexFacts RegexParse Hre FindFacts Subword SubwordFacts
  Rule RuleFacts.
Open Scope Z_scope.

(** A pattern without macros and variables, for the examples. *)
Definition pat (e : string) : pattern :=
  match new_pattern (lit e) [] [] with
  | Ok p => p
  | _ => {| p_expr := []; p_re := {| source := []; tree := RNoMatch; prog := XFail; numcap := 0 |};
            p_negA := None; p_negB := None; p_negAWidth := 0; p_negBWidth := 0; p_letters := [];
            p_usedVars := [] |}
  end.

(** ** C08 Find returns ordered, disjoint, non-empty, in-bounds matches

    [well_grouped] (FindFacts.v) is a decidable condition on the compiled expression: every
    alternative at the top has the lookbehind groups in front, the lookahead groups behind,
    and something that cannot be empty in between.  [ordered word 0 ms] says that the
    matches are non-empty, in order, disjoint, and start and stop between characters. *)
Theorem C08_matches_partial : forall p word n,
  compiled p -> well_grouped (tree (p_re p)) (numcap (p_re p)) = true ->
  exists ms, find p word n = Ok ms /\ ordered word 0 ms.
Proof. intros p word n Hc Hs; exact (find_safe p word Hc Hs n). Qed.
Print Assumptions C08_matches_partial.

(** Every accepted pattern is compiled. *)
Theorem C08_accepted_compiled : forall e macros vars p,
  new_pattern e macros vars = Ok p -> compiled p.
Proof. exact new_pattern_compiled. Qed.
Print Assumptions C08_accepted_compiled.

(** What [ordered] gives, in words of byte positions. *)
Lemma ordered_in word lo ms m :
  ordered word lo ms -> In m ms ->
  exists start stop core, m = start :: stop :: core /\
    lo <= start < stop /\ stop <= len word /\ boundary word start /\ boundary word stop.
Proof.
  induction 1 as [lo|lo start stop core ms Hle Hb1 Hb2 H IH]; intros Hin; [contradiction|].
  destruct Hin as [<-|Hin].
  - exists start, stop, core; pose proof (boundary_le _ _ Hb2); repeat split; try assumption; lia.
  - destruct (IH Hin) as (a & b & c & -> & Ha & Hr); exists a, b, c; split; [reflexivity|].
    split; [lia|exact Hr].
Qed.
Lemma ordered_disjoint word lo ms1 m1 ms2 m2 ms3 :
  ordered word lo (ms1 ++ m1 :: ms2 ++ m2 :: ms3) ->
  exists a b c d core core', m1 = a :: b :: core /\ m2 = c :: d :: core' /\ b <= c.
Proof.
  revert lo; induction ms1 as [|m ms1 IH]; intros lo H; cbn [app] in H; inversion H; subst.
  - match goal with Ho : ordered word stop _ |- _ =>
      destruct (ordered_in _ _ _ m2 Ho) as (c & d & core' & -> & Hc & _);
        [apply in_or_app; right; left; reflexivity|] end.
    do 6 eexists; split; [reflexivity|]; split; [reflexivity|lia].
  - eapply IH; eassumption.
Qed.

Theorem C08_disjoint_partial : forall p word n ms1 m1 ms2 m2 ms3,
  compiled p -> well_grouped (tree (p_re p)) (numcap (p_re p)) = true ->
  find p word n = Ok (ms1 ++ m1 :: ms2 ++ m2 :: ms3) ->
  exists a b c d core core', m1 = a :: b :: core /\ m2 = c :: d :: core' /\
    0 <= a < b /\ b <= c < d /\ d <= len word.
Proof.
  intros p word n ms1 m1 ms2 m2 ms3 Hc Hs Hf.
  destruct (C08_matches_partial p word n Hc Hs) as (ms & E & Ho); rewrite Hf in E; injection E as <-.
  destruct (ordered_disjoint _ _ _ _ _ _ _ Ho) as (a & b & c & d & core & core' & -> & -> & Hbc).
  destruct (ordered_in _ _ _ (a :: b :: core) Ho) as (a' & b' & k & E & Ha & _);
    [apply in_or_app; right; left; reflexivity|]; injection E as <- <- _.
  destruct (ordered_in _ _ _ (c :: d :: core') Ho) as (c' & d' & k' & E & Hd & Hl & _);
    [apply in_or_app; right; right; apply in_or_app; right; left; reflexivity|]; injection E as <- <- _.
  exists a, b, c, d, core, core'; repeat split; lia.
Qed.
Print Assumptions C08_disjoint_partial.

Example C08_example :
  let p := pat "{h}(a|e+)r?{l}" in
  compiled p /\ well_grouped (tree (p_re p)) (numcap (p_re p)) = true /\
  find p (lit "halheerlharhal") (-1) = Ok [[1; 2; 1; 2]; [4; 7; 4; 6]; [12; 13; 12; 13]].
Proof. vm_compute; repeat split. Qed.

(** Brackets hidden in a character class get past the dissolving of lookaround: the match
    reported here stops before it starts. *)
Theorem C08_order_refuted : exists e p word start stop core,
  new_pattern e [] [] = Ok p /\ find p word (-1) = Ok [start :: stop :: core] /\ stop < start.
Proof.
  exists (lit "{[}]a{b)}"), (pat "{[}]a{b)}"), (lit ")ab"), 3, 2, [].
  vm_compute; repeat split.
Qed.
Print Assumptions C08_order_refuted.

(** ** C09 Find terminates *)

(** [find] is defined with fuel; [Hang] is the state in which the loop of Find cannot
    advance any more, and [NoFuel] would be a lack of fuel. *)
Theorem C09_terminates_partial : forall p word n,
  compiled p -> well_grouped (tree (p_re p)) (numcap (p_re p)) = true ->
  find p word n <> Hang /\ find p word n <> NoFuel.
Proof.
  intros p word n Hc Hs; destruct (find_safe p word Hc Hs n) as (ms & -> & _); split; discriminate.
Qed.
Print Assumptions C09_terminates_partial.

Theorem C09_hang_refuted : exists e p word,
  new_pattern e [] [] = Ok p /\ find p word (-1) = Hang.
Proof. exists (lit "{[}]?{b)}"), (pat "{[}]?{b)}"), (lit "b"); vm_compute; split; reflexivity. Qed.
Print Assumptions C09_hang_refuted.

(** ** C10 Find(word, n) is the first n of Find(word, -1) *)
Theorem C10_limit : forall p word n ms,
  0 <= n -> find p word (-1) = Ok ms -> find p word n = Ok (firstn (Z.to_nat n) ms).
Proof. intros; apply find_limit; assumption. Qed.
Print Assumptions C10_limit.

Theorem C10_negative : forall p word n, n < 0 -> find p word n = find p word (-1).
Proof. exact find_negative. Qed.
Print Assumptions C10_negative.

Theorem C10_zero : forall p word, find p word 0 = Ok [].
Proof.
  intros p word; unfold find; cbn [find_loop].
  destruct (length word + Z.to_nat 0)%nat; cbn [find_loop]; rewrite Z.ltb_irrefl;
    change (len (@nil (list Z)) <? 0) with false; cbn [orb]; rewrite andb_false_r; reflexivity.
Qed.
Print Assumptions C10_zero.

(** A word with a rejected candidate between the accepted ones. *)
Example C10_example :
  find (pat "a{~b}") (lit "acabaca") (-1) = Ok [[0; 1]; [4; 5]; [6; 7]] /\
  find (pat "a{~b}") (lit "acabaca") 2 = Ok [[0; 1]; [4; 5]].
Proof. vm_compute; split; reflexivity. Qed.

(** ** C11 Rule.Replace equals Pattern.Replace and only touches matches *)

(** Whatever the rule, when Pattern.Replace returns a string, Rule.Replace returns it too. *)
Theorem C11_same : forall r word out,
  pattern_replace (rule_from r) word (rule_to r) (-1) = Ok out -> rule_replace r word = Ok out.
Proof. exact replace_same. Qed.
Print Assumptions C11_same.

(** [edited r word 0 ms out] (RuleFacts.v): [out] is [word] with the span of each match
    in [ms] exchanged for the interpolated text, or left as it is when the interpolation is
    an error, and every byte outside of the spans kept. *)
Theorem C11_edits_partial : forall r word ms,
  compiled (rule_from r) ->
  well_grouped (tree (p_re (rule_from r))) (numcap (p_re (rule_from r))) = true ->
  find (rule_from r) word (-1) = Ok ms ->
  Forall (fun m => fine (interpolate (rule_to r) (rule_from r) word m)) ms ->
  exists out, edited r word 0 ms out /\ rule_replace r word = Ok out /\
    pattern_replace (rule_from r) word (rule_to r) (-1) = Ok out.
Proof.
  intros r word ms Hc Hs Hf Hi; destruct (safe_matches _ _ _ Hc Hs Hf) as [Ho _].
  destruct (ordered_edited r word 0 ms Ho ltac:(lia) Hi) as (out & He); exists out.
  split; [exact He|exact (replace_agree r word ms out Hf He)].
Qed.
Print Assumptions C11_edits_partial.

Definition mk_rule (from to : string) (vars : vars_map) : rule :=
  {| rule_id := 0;
     rule_from := match new_pattern (lit from) [] vars with Ok p => p | _ => pat "" end;
     rule_to := new_rpattern (lit to) [] vars |}.
Definition ex_vars : vars_map := [(lit "v", [lit "a"; lit "e"; lit "o"]); (lit "w", [lit "X"; lit "Y"])].
Example C11_example :
  let r := mk_rule "<v>r" "<w>-" ex_vars in
  well_grouped (tree (p_re (rule_from r))) (numcap (p_re (rule_from r))) = true /\
  find (rule_from r) (lit "tarmerkor") (-1) = Ok [[1; 3; 1; 2]; [4; 6; 4; 5]; [7; 9; 7; 8]] /\
  rule_replace r (lit "tarmerkor") = Ok (lit "tX-mY-kX-").
Proof. vm_compute; repeat split. Qed.
(** A replacement with more variables than the pattern fails and keeps the text. *)
Example C11_failing_example :
  let r := mk_rule "<v>r" "<w><w>" ex_vars in
  rule_replace r (lit "tarm") = Ok (lit "tarm").
Proof. vm_compute; reflexivity. Qed.

(** The converse of [C11_same] fails: a match whose interpolation fails and that stops
    before it starts makes Pattern.Replace panic while Rule.Replace skips it. *)
Theorem C11_converse_refuted : exists r word out,
  new_pattern (p_expr (rule_from r)) [] [] = Ok (rule_from r) /\
  rule_replace r word = Ok out /\
  pattern_replace (rule_from r) word (rule_to r) (-1) = Panic PSlice.
Proof.
  exists {| rule_id := 0; rule_from := pat "{[}]a{b)}"; rule_to := new_rpattern (lit "<v>") [] ex_vars |},
         (lit ")ab"), (lit ")ab").
  vm_compute; repeat split.
Qed.
Print Assumptions C11_converse_refuted.

(** ** C12 Accepted patterns never panic at match time *)
Theorem C12_no_panic_partial : forall p word n k,
  compiled p -> well_grouped (tree (p_re p)) (numcap (p_re p)) = true ->
  find p word n <> Panic k.
Proof.
  intros p word n k Hc Hs; destruct (find_safe p word Hc Hs n) as (ms & -> & _); discriminate.
Qed.
Print Assumptions C12_no_panic_partial.

(** Patterns that can match nothing are accepted and panic as soon as they do. *)
Theorem C12_zero_width_refuted : exists e p word,
  new_pattern e [] [] = Ok p /\ find p word (-1) = Panic PZeroWidth.
Proof. exists (lit "a*"), (pat "a*"), (lit "b"); vm_compute; split; reflexivity. Qed.
Print Assumptions C12_zero_width_refuted.
Theorem C12_lookaround_only_refuted : exists e p word,
  new_pattern e [] [] = Ok p /\ find p word (-1) = Panic PZeroWidth.
Proof. exists (lit "{a}"), (pat "{a}"), (lit "ba"); vm_compute; split; reflexivity. Qed.
Print Assumptions C12_lookaround_only_refuted.
Theorem C12_submatches_refuted : exists e p word,
  new_pattern e [] [] = Ok p /\ find p word (-1) = Panic PSubmatches.
Proof. exists (lit "(?:a[{]}"), (pat "(?:a[{]}"), (lit "a("); vm_compute; split; reflexivity. Qed.
Print Assumptions C12_submatches_refuted.

(** ** C17 ^^ matches only at the beginning of the word

    False: after a match, Find searches the rest of the word as if it were a word of its
    own, so the beginning of the rest counts as a beginning. *)
Theorem C17_later_start_refuted : exists e p word,
  new_pattern (lit "^^" ++ e) [] [] = Ok p /\ find p word (-1) = Ok [[0; 1]; [1; 2]].
Proof. exists (lit "a"), (pat "^^a"), (lit "aa"); vm_compute; split; reflexivity. Qed.
Print Assumptions C17_later_start_refuted.
