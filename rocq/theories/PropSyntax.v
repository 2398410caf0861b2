(** C68: the syntax of regular expressions inside of HRE. *)
From Coq Require Import String Lia.
From Verif Require Import GoBase Utf8 Utf8Facts LettersFacts Regex RegexSpec RegexFacts RegexParse ParseFacts SourceFacts.
Open Scope N_scope.

(** ** What the syntax means

    A language says which parts of a text are matched: [M before part after]. *)
Definition lang := list rune -> list rune -> list rune -> Prop.
Definition same (A B : lang) : Prop := forall a b d, A a b d <-> B a b d.
Definition one (P : rune -> Prop) : lang := fun _ b _ => exists c, b = [c] /\ P c.
Definition then_ (A B : lang) : lang := fun a b d => exists x y, b = x ++ y /\ A a x (y ++ d) /\ B (a ++ x) y d.
Definition either (A B : lang) : lang := fun a b d => A a b d \/ B a b d.
Definition empty : lang := fun _ b _ => b = [].
Fixpoint power (n : nat) (A : lang) : lang := match n with O => empty | S n' => then_ A (power n' A) end.
Definition some_power (K : nat -> Prop) (A : lang) : lang := fun a b d => exists n, K n /\ power n A a b d.

(** The characters with a meaning, outside and inside of brackets. *)
Definition meta : list rune := runes (lit "()|^$.[*+?{\").
Definition class_meta : list rune := runes (lit "\]-[^").
(** A backslash makes any other character of ASCII but letters and digits stand for itself. *)
Definition mark (r : rune) : Prop :=
  r < 0x80 /\ ~ (0x30 <= r <= 0x39) /\ ~ (0x41 <= r <= 0x5A) /\ ~ (0x61 <= r <= 0x7A).
Definition controls : list (rune * rune) :=
  [(0x61, 7); (0x66, 12); (0x6E, 10); (0x72, 13); (0x74, 9); (0x76, 11)]. (* a f n r t v *)
Inductive escaped : list rune -> rune -> Prop :=
| es_mark r : mark r -> escaped [0x5C; r] r
| es_control l r : In (l, r) controls -> escaped [0x5C; l] r.

Definition digit (c : rune) : Prop := 0x30 <= c <= 0x39.
Definition blank (c : rune) : Prop := In c [9; 10; 12; 13; 32].
Definition wordlike (c : rune) : Prop := digit c \/ 0x41 <= c <= 0x5A \/ 0x61 <= c <= 0x7A \/ c = 0x5F.
Definition other_than (P : rune -> Prop) (c : rune) : Prop := c <= 0x10FFFF /\ ~ P c.
Inductive shorthand : rune -> (rune -> Prop) -> Prop := (* d s w D S W *)
| sh_d : shorthand 0x64 digit
| sh_s : shorthand 0x73 blank
| sh_w : shorthand 0x77 wordlike
| sh_D : shorthand 0x44 (other_than digit)
| sh_S : shorthand 0x53 (other_than blank)
| sh_W : shorthand 0x57 (other_than wordlike).

(** Inside of brackets. *)
Inductive member : list rune -> rune -> Prop :=
| mb_plain r : ~ In r class_meta -> member [r] r
| mb_escaped t r : escaped t r -> member t r.
Inductive members : list rune -> (rune -> Prop) -> Prop :=
| ms_one t r : member t r -> members t (eq r)
| ms_range t1 r1 t2 r2 : member t1 r1 -> member t2 r2 -> r1 <= r2 -> members (t1 ++ 0x2D :: t2) (fun c => r1 <= c <= r2)
| ms_short l P : shorthand l P -> members [0x5C; l] P
| ms_more t1 P1 t2 P2 : members t1 P1 -> members t2 P2 -> members (t1 ++ t2) (fun c => P1 c \/ P2 c).

(** Decimal numbers. *)
Inductive number : list rune -> N -> Prop :=
| nu_digit d : d <= 9 -> number [0x30 + d] d
| nu_more t n d : number t n -> 0 < n -> d <= 9 -> number (t ++ [0x30 + d]) (10 * n + d).

(** How often. *)
Inductive times_ : list rune -> (nat -> Prop) -> Prop :=
| ti_star : times_ [0x2A] (fun _ => True)
| ti_plus : times_ [0x2B] (fun k => 1 <= k)%nat
| ti_quest : times_ [0x3F] (fun k => k <= 1)%nat
| ti_exact t n : number t n -> n <= 1000 -> times_ (0x7B :: t ++ [0x7D]) (fun k => N.of_nat k = n)
| ti_least t n : number t n -> n <= 1000 -> times_ (0x7B :: t ++ [0x2C; 0x7D]) (fun k => n <= N.of_nat k)
| ti_range t n u m : number t n -> number u m -> n <= m -> m <= 1000 ->
    times_ (0x7B :: t ++ 0x2C :: u ++ [0x7D]) (fun k => n <= N.of_nat k <= m).
(** A question mark after it asks for the fewest instead of the most. *)
Inductive quantifier : list rune -> (nat -> Prop) -> Prop :=
| qu_most t K : times_ t K -> quantifier t K
| qu_fewest t K : times_ t K -> quantifier (t ++ [0x3F]) K.

(** [alternatives t M n]: the text [t] is an expression for [M] with [n] capturing groups. *)
Inductive atom : list rune -> lang -> nat -> Prop :=
| at_char r : ~ In r meta -> atom [r] (one (eq r)) 0
| at_escaped t r : escaped t r -> atom t (one (eq r)) 0
| at_dot : atom [0x2E] (one (other_than (eq 10))) 0
| at_short l P : shorthand l P -> atom [0x5C; l] (one P) 0
| at_caret : atom [0x5E] (fun a b _ => a = [] /\ b = []) 0
| at_begin : atom [0x5C; 0x41] (fun a b _ => a = [] /\ b = []) 0
| at_dollar : atom [0x24] (fun _ b d => b = [] /\ d = []) 0
| at_end : atom [0x5C; 0x7A] (fun _ b d => b = [] /\ d = []) 0
| at_class t P : members t P -> atom (0x5B :: t ++ [0x5D]) (one P) 0
| at_no_class t P : members t P -> atom (0x5B :: 0x5E :: t ++ [0x5D]) (one (other_than P)) 0
| at_group t M n : alternatives t M n -> atom (0x28 :: t ++ [0x29]) M (S n)
| at_quiet t M n : alternatives t M n -> atom (0x28 :: 0x3F :: 0x3A :: t ++ [0x29]) M n
with sequence : list rune -> lang -> nat -> Prop :=
| sq_nil : sequence [] empty 0
| sq_once t M n t' M' n' : atom t M n -> sequence t' M' n' -> sequence (t ++ t') (then_ M M') (n + n')
| sq_often t M n q K t' M' n' : atom t M n -> quantifier q K -> sequence t' M' n' ->
    sequence (t ++ q ++ t') (then_ (some_power K M) M') (n + n')
with alternatives : list rune -> lang -> nat -> Prop :=
| al_one t M n : sequence t M n -> alternatives t M n
| al_more t M n t' M' n' : sequence t M n -> alternatives t' M' n' ->
    alternatives (t ++ 0x7C :: t') (either M M') (n + n').

(** ** The parser reads it *)

Lemma parse_escaped t r u : escaped t r -> exists l, t = [0x5C; l] /\
  parse_escape (l :: u) = Ok (r, u) /\ perl_class l = None /\ nmem l [0x41; 0x7A; 0x62; 0x42; 0x51; 0x70; 0x50] = false.
Proof.
  intros [r0 (H1 & H2 & H3 & H4)|l r0 H].
  - exists r0; split; [reflexivity|].
    assert (is_alnum r0 = false) as Ha.
    { unfold is_alnum; rewrite !orb_false_iff, !andb_false_iff, !N.leb_gt; lia. }
    assert (forall x, is_alnum x = true -> (r0 =? x) = false) as Hn by (intros x Hx; apply N.eqb_neq; congruence).
    assert ((0x30 <=? r0) && (r0 <=? 0x37) = false) as Ho by (rewrite andb_false_iff, !N.leb_gt; lia).
    apply N.ltb_lt in H1; unfold parse_escape, perl_class, nmem; cbn [existsb]; rewrite Ha, Ho, H1, !Hn by reflexivity; auto.
  - exists l; split; [reflexivity|]; cbn in H; repeat (destruct H as [H|H]; [injection H as <- <-; repeat split; reflexivity|]); contradiction.
Qed.

Definition set_is (l : list (N * N)) (P : rune -> Prop) : Prop := forall c, in_set l c = true <-> P c.
Lemma in_set_app l l' c : in_set (l ++ l') c = true <-> in_set l c = true \/ in_set l' c = true.
Proof. unfold in_set; rewrite existsb_app, orb_true_iff; reflexivity. Qed.
Lemma in_set_rev l c : in_set (rev l) c = true <-> in_set l c = true.
Proof.
  unfold in_set; rewrite !existsb_exists; split; intros (x & H1 & H2); exists x; split; auto; [apply in_rev|apply -> in_rev]; exact H1.
Qed.
Lemma set_one lo hi : set_is [(lo, hi)] (fun c => lo <= c <= hi).
Proof. intros c; cbn; rewrite orb_false_r, andb_true_iff, !N.leb_le; reflexivity. Qed.
Lemma shorthand_set l P : shorthand l P -> exists k, perl_class l = Some k /\ set_is k P /\ nmem l [0x41; 0x7A; 0x62; 0x42; 0x51; 0x70; 0x50] = false.
Proof.
  intros H; destruct H; eexists; (split; [reflexivity|split; [|reflexivity]]); intros c;
    unfold in_set, cls_d, cls_s, cls_w, ncls_d, ncls_s, ncls_w, digit, blank, wordlike, other_than, digit; cbn [existsb fst snd In];
    rewrite !orb_true_iff, !andb_true_iff, !N.leb_le; lia.
Qed.
Lemma member_parse t r : member t r -> exists c t1, t = c :: t1 /\ (c =? 0x5D) = false /\ (c =? 0x5B) = false /\ (c =? 0x2D) = false /\
  (c =? 0x5C = true -> exists l, t1 = [l] /\ perl_class l = None /\ (l =? 0x70) || (l =? 0x50) = false) /\
  forall u, parse_class_char (t ++ u) = Ok (r, u).
Proof.
  intros [r0 Hr|t0 r0 He].
  - exists r0, []; split; [reflexivity|].
    assert (forall x, In x class_meta -> (r0 =? x) = false) as Hn by (intros x Hx; apply N.eqb_neq; intros ->; contradiction).
    repeat (split; [apply Hn; cbn; tauto|]); split.
    + intros E; rewrite Hn in E by (cbn; tauto); discriminate.
    + intros u; cbn; rewrite Hn by (cbn; tauto); reflexivity.
  - destruct (parse_escaped _ _ [] He) as (l & -> & _ & H2 & H3).
    exists 0x5C, [l]; split; [reflexivity|]; repeat (split; [reflexivity|]); split.
    + intros _; exists l; split; [reflexivity|]; split; [exact H2|].
      unfold nmem in H3; cbn [existsb] in H3; rewrite !orb_false_iff in H3; rewrite orb_false_iff; tauto.
    + intros u; destruct (parse_escaped _ _ u He) as (l' & El & H1 & _); injection El as <-.
      cbn [app parse_class_char]; exact H1.
Qed.

Lemma subtract_set lo hi acc c :
  in_set (subtract_range lo hi acc) c = true <-> in_set acc c = true /\ ~ (lo <= c <= hi).
Proof.
  unfold in_set, subtract_range; rewrite !existsb_exists; split.
  - intros (x & H1 & H2); apply in_flat_map in H1; destruct H1 as ([a b] & H1 & H3).
    apply andb_true_iff in H2; rewrite !N.leb_le in H2; apply in_app_iff in H3.
    destruct H3 as [H3|H3].
    + destruct (N.ltb_spec a lo); [|contradiction]; destruct H3 as [<-|[]]; cbn [fst snd] in H2.
      split; [exists (a, b); split; [exact H1|cbn [fst snd]; rewrite andb_true_iff, !N.leb_le; lia]|lia].
    + destruct (N.ltb_spec hi b); [|contradiction]; destruct H3 as [<-|[]]; cbn [fst snd] in H2.
      split; [exists (a, b); split; [exact H1|cbn [fst snd]; rewrite andb_true_iff, !N.leb_le; lia]|lia].
  - intros (([a b] & H1 & H2) & H3); cbn [fst snd] in H2; rewrite andb_true_iff, !N.leb_le in H2.
    assert (c < lo \/ hi < c) as [H|H] by lia.
    + exists (a, N.min b (lo - 1)); split; [|cbn [fst snd]; rewrite andb_true_iff, !N.leb_le; lia].
      apply in_flat_map; exists (a, b); split; [exact H1|]; apply in_app_iff; left.
      destruct (N.ltb_spec a lo); [left; reflexivity|lia].
    + exists (N.max a (hi + 1), b); split; [|cbn [fst snd]; rewrite andb_true_iff, !N.leb_le; lia].
      apply in_flat_map; exists (a, b); split; [exact H1|]; apply in_app_iff; right.
      destruct (N.ltb_spec hi b); [left; reflexivity|lia].
Qed.
Lemma negate_set l P : set_is l P -> set_is (negate_ranges l) (other_than P).
Proof.
  intros Hl c; unfold negate_ranges.
  assert (forall l acc, in_set (fold_left (fun acc p => subtract_range (fst p) (snd p) acc) l acc) c = true <->
    in_set acc c = true /\ in_set l c <> true) as H.
  { clear; induction l as [|[lo hi] l IH]; intros acc; cbn [fold_left fst snd].
    - cbn; split; [intros H; split; [exact H|discriminate]|tauto].
    - rewrite IH, subtract_set; change ((lo, hi) :: l) with ([(lo, hi)] ++ l); rewrite in_set_app, (set_one lo hi c); tauto. }
  rewrite H, (set_one 0 0x10FFFF c), (Hl c); unfold other_than; split; intros [H1 H2]; split; try assumption; lia.
Qed.

Definition starts (t : list rune) : Prop := exists c t1, t = c :: t1 /\ ~ In c [0x5D; 0x5B; 0x2D; 0x5E].
Lemma member_starts t r : member t r -> starts t.
Proof.
  intros [r0 Hr|t0 r0 He].
  - exists r0, []; split; [reflexivity|]; intros H; apply Hr; cbn in H |- *; tauto.
  - destruct (parse_escaped _ _ [] He) as (l & -> & _); exists 0x5C, [l]; split; [reflexivity|]; intros H; cbn in H; intuition discriminate.
Qed.
Lemma starts_app t u : starts t -> starts (t ++ u).
Proof. intros (c & t1 & -> & H); exists c, (t1 ++ u); auto. Qed.
Lemma members_start t P : members t P -> starts t.
Proof.
  induction 1 as [t r H|t1 r1 t2 r2 H1 H2 Hle|l P H|t1 P1 t2 P2 H1 IH1 H2 IH2].
  - eapply member_starts; exact H.
  - apply starts_app; eapply member_starts; exact H1.
  - exists 0x5C, [l]; split; [reflexivity|]; intros Hin; cbn in Hin; intuition discriminate.
  - apply starts_app; exact IH1.
Qed.

(** Reading one member. *)
Lemma parse_class_one f t r u first acc : member t r -> (length (t ++ u) < S f)%nat ->
  parse_class (S f) (t ++ u) first acc =
  match u with
  | d :: t3 =>
    if (d =? 0x2D) && (match t3 with e :: _ => negb (e =? 0x5D) | [] => false end)
    then let! '(hi, t4) := parse_class_char t3 in
         if hi <? r then Err ErrRegexp else parse_class f t4 false ((r, hi) :: acc)
    else parse_class f u false ((r, r) :: acc)
  | [] => parse_class f u false ((r, r) :: acc)
  end.
Proof.
  intros Hm Hf; destruct (member_parse _ _ Hm) as (c & t1 & -> & N1 & N2 & N3 & Hb & Hc).
  specialize (Hc u); cbn [app] in Hc |- *; cbn [parse_class]; rewrite N1, N2; cbn [andb].
  destruct (c =? 0x5C) eqn:E5.
  - destruct (Hb eq_refl) as (l & -> & Hl1 & Hl2); cbn [app] in *; rewrite Hl1, Hl2; cbn [andb]; rewrite Hc; reflexivity.
  - cbn [andb]; rewrite Hc; reflexivity.
Qed.
Lemma parse_members t P : members t P -> exists l, set_is l P /\
  forall u first acc f, (length (t ++ u) < f)%nat -> (exists d u', u = d :: u' /\ d <> 0x2D) ->
    exists f', (length u < f')%nat /\ parse_class f (t ++ u) first acc = parse_class f' u false (rev l ++ acc).
Proof.
  induction 1 as [t r H|t1 r1 t2 r2 H1 H2 Hle|l P H|t1 P1 t2 P2 H1 (l1 & S1 & IH1) H2 (l2 & S2 & IH2)].
  - exists [(r, r)]; split; [intros c; rewrite (set_one r r c); split; intros; lia|].
    intros u first acc f Hf (d & u' & -> & Hd); destruct f as [|f]; [lia|]; exists f; split.
    { destruct (member_parse _ _ H) as (c & t1 & -> & _); rewrite app_length in Hf; cbn [length] in *; lia. }
    rewrite (parse_class_one f t r) by assumption.
    destruct (N.eqb_spec d 0x2D); [contradiction|]; reflexivity.
  - exists [(r1, r2)]; split; [apply set_one|].
    intros u first acc f Hf _; destruct f as [|f]; [lia|]; exists f.
    rewrite <- app_assoc in Hf |- *; cbn [app] in Hf |- *.
    split; [rewrite app_length in Hf; cbn [length] in Hf; rewrite app_length in Hf; lia|].
    rewrite (parse_class_one f t1 r1) by assumption.
    destruct (member_starts _ _ H2) as (c & t3 & E & Hc); destruct (member_parse _ _ H2) as (c' & t3' & E' & _ & _ & _ & _ & Hp).
    specialize (Hp u); rewrite E in *; cbn [app] in *.
    assert ((c =? 0x5D) = false) as -> by (apply N.eqb_neq; intros ->; apply Hc; cbn; tauto).
    cbn [N.eqb Pos.eqb negb andb]; rewrite Hp; cbn [bind].
    destruct (N.ltb_spec r2 r1); [lia|]; reflexivity.
  - destruct (shorthand_set _ _ H) as (k & Hk & Hs & _); exists k; split; [exact Hs|].
    intros u first acc f Hf _; destruct f as [|f]; [lia|]; exists f.
    cbn [app length] in *; split; [lia|]; cbn [parse_class]; rewrite Hk; reflexivity.
  - exists (l1 ++ l2); split; [intros c; rewrite in_set_app, (S1 c), (S2 c); reflexivity|].
    intros u first acc f Hf Hu; rewrite <- app_assoc in Hf |- *.
    destruct (IH1 (t2 ++ u) first acc f Hf) as (f1 & Hf1 & E1).
    { destruct (members_start _ _ H2) as (c & t3 & -> & Hc); exists c, (t3 ++ u); split; [reflexivity|]; intros ->; apply Hc; cbn; tauto. }
    destruct (IH2 u false (rev l1 ++ acc) f1 Hf1 Hu) as (f2 & Hf2 & E2).
    exists f2; split; [exact Hf2|]; rewrite E1, E2, rev_app_distr, app_assoc; reflexivity.
Qed.
Lemma parse_brackets t P u : members t P -> exists l, set_is l P /\
  parse_class (S (length (t ++ 0x5D :: u))) (t ++ 0x5D :: u) true [] = Ok (l, u).
Proof.
  intros H; destruct (parse_members _ _ H) as (l & Hl & Hp); exists l; split; [exact Hl|].
  destruct (Hp (0x5D :: u) true [] (S (length (t ++ 0x5D :: u)))) as (f' & Hf' & E); [lia|exists 0x5D, u; split; [reflexivity|discriminate]|].
  rewrite E; destruct f' as [|f']; [cbn in Hf'; lia|].
  cbn [parse_class]; rewrite app_nil_r, rev_involutive; reflexivity.
Qed.

(** Numbers and repetitions. *)
Definition value (t : list rune) : N := fold_left (fun a d => a * 10 + (d - 0x30)) t 0.
Lemma value_snoc t x : value (t ++ [x]) = value t * 10 + (x - 0x30).
Proof. unfold value; rewrite fold_left_app; reflexivity. Qed.
Lemma number_facts t n : number t n -> value t = n /\ Forall (fun c => is_dig c = true) t /\
  (exists c t1, t = c :: t1 /\ (0 < n -> c <> 0x30) /\ (t1 <> [] -> 0 < n)).
Proof.
  induction 1 as [d Hd|t n d H (IH1 & IH2 & c & t1 & -> & IH3 & IH4) Hn Hd].
  - unfold value; cbn [fold_left]; split; [lia|]; split.
    + constructor; [unfold is_dig; rewrite andb_true_iff, !N.leb_le; lia|constructor].
    + exists (0x30 + d), []; split; [reflexivity|]; split; [lia|congruence].
  - split; [rewrite value_snoc, IH1; unfold rune in *; lia|]; split.
    + apply Forall_app; split; [exact IH2|]; constructor; [unfold is_dig; rewrite andb_true_iff, !N.leb_le; lia|constructor].
    + exists c, (t1 ++ [0x30 + d]); split; [reflexivity|]; split; [auto|intros _; lia].
Qed.
Definition no_digit (u : list rune) : Prop := match u with c :: _ => is_dig c = false | [] => True end.
Lemma take_all t u : Forall (fun c => is_dig c = true) t -> no_digit u -> take_digits (t ++ u) = (t, u).
Proof.
  intros Ht Hu; induction Ht as [|c t Hc Ht IH]; cbn [app take_digits].
  - destruct u as [|c u]; [reflexivity|]; cbn [take_digits]; cbn in Hu; rewrite Hu; reflexivity.
  - rewrite Hc, IH; reflexivity.
Qed.
Lemma parse_number t n u : number t n -> no_digit u -> parse_int (t ++ u) = Some (n, u).
Proof.
  intros H Hu; destruct (number_facts _ _ H) as (Hv & Hd & c & t1 & -> & H1 & H2).
  unfold parse_int; rewrite take_all by assumption; destruct t1 as [|c2 t1]; unfold value in Hv; rewrite Hv; [reflexivity|].
  destruct (N.eqb_spec c 0x30) as [E|_]; [exfalso; apply H1; [apply H2; discriminate|exact E]|reflexivity].
Qed.

Lemma same_sym A B : same A B -> same B A.
Proof. intros H a b d; symmetry; apply H. Qed.
Lemma same_trans A B C : same A B -> same B C -> same A C.
Proof. intros H1 H2 a b d; rewrite (H1 a b d); apply H2. Qed.
Lemma same_then A A' B B' : same A A' -> same B B' -> same (then_ A B) (then_ A' B').
Proof.
  intros H1 H2 a b d; split; intros (x & y & -> & H3 & H4); exists x, y; (split; [reflexivity|]); split; try (apply H1; exact H3); apply H2; exact H4.
Qed.
Lemma same_power n A A' : same A A' -> same (power n A) (power n A').
Proof. intros H; induction n as [|n IH]; [intros a b d; reflexivity|]; apply same_then; assumption. Qed.
Lemma same_some K A A' : same A A' -> same (some_power K A) (some_power K A').
Proof. intros H a b d; split; intros (n & H1 & H2); exists n; (split; [exact H1|]); eapply (same_power n); try eassumption; apply same_sym, H. Qed.
Lemma power_times n M : same (times n M nothing) (power n M).
Proof.
  induction n as [|n IH]; intros a b d; [reflexivity|]; cbn [times power]; unfold then_.
  split; intros (x & y & E & H1 & H2); exists x, y; (split; [exact E|split; [exact H1|apply IH; exact H2]]).
Qed.
Lemma star_power g r : same (rmatch (RStar g r)) (some_power (fun _ => True) (rmatch r)).
Proof.
  intros a b d; rewrite rmatch_star, many_times; split; intros (n & H); [exists n; split; [exact I|apply power_times; exact H]|].
  destruct H as [_ H]; exists n; apply power_times; exact H.
Qed.
Lemma plus_power g r : same (rmatch (RPlus g r)) (some_power (fun k => 1 <= k)%nat (rmatch r)).
Proof.
  intros a b d; split.
  - intros H; inversion H; subst.
    match goal with X : rmatch (RStar _ _) _ _ _ |- _ => pose proof (proj1 (star_power _ _ _ _ _) X) as (n & _ & Hs) end.
    exists (S n); split; [lia|]; eexists; eexists; split; [reflexivity|]; split; [eassumption|exact Hs].
  - intros ([|n] & Hn & H); [lia|]; destruct H as (x & y & -> & H1 & H2); constructor; [exact H1|].
    apply star_power; exists n; auto.
Qed.
Lemma power_one M : same (power 1 M) M.
Proof.
  intros a b d; split.
  - intros (x & y & -> & H1 & H2); cbn in H2; unfold empty in H2; subst y; rewrite app_nil_r in *; exact H1.
  - intros H; exists b, []; rewrite app_nil_r; split; [reflexivity|split; [exact H|reflexivity]].
Qed.
Lemma quest_power g r : same (rmatch (RQuest g r)) (some_power (fun k => k <= 1)%nat (rmatch r)).
Proof.
  intros a b d; split.
  - intros H; inversion H; subst; [exists O; split; [lia|reflexivity]|exists 1%nat; split; [lia|apply power_one; assumption]].
  - intros ([|[|n]] & Hn & H); [|apply M_quest_one; apply power_one; exact H|lia].
    cbn in H; unfold empty in H; subst; apply M_quest_none.
Qed.
Lemma repeat_power g mn mx r : match mx with Some m => mn <= m | None => True end%nat ->
  same (rmatch (RRepeat g mn mx r)) (some_power (fun k => mn <= k /\ match mx with Some m => k <= m | None => True end)%nat (rmatch r)).
Proof.
  intros Hm a b d; split.
  - intros H; inversion H; subst; match goal with Hr : rmatch (RCat (repeat _ ?n)) _ _ _ |- _ => exists n; apply rmatch_cat_repeat in Hr end.
    split; [split; [assumption|destruct mx; [lia|exact I]]|apply power_times; assumption].
  - intros (n & [H1 H2] & H); apply (M_repeat g mn mx n); [exact H1|destruct mx; [lia|exact I]|].
    apply rmatch_cat_repeat, power_times; exact H.
Qed.
Lemma some_ext K K' M : (forall k, K k <-> K' k) -> same (some_power K M) (some_power K' M).
Proof. intros H a b d; split; intros (n & H1 & H2); exists n; (split; [apply H; exact H1|exact H2]). Qed.

Definition no_quest (u : list rune) : Prop := match u with c :: _ => c <> 0x3F | [] => True end.
Lemma lazy_no u : no_quest u -> lazy_suffix u = (true, u).
Proof. destruct u as [|c u]; [reflexivity|]; cbn; intros H; destruct (N.eqb_spec c 0x3F); [contradiction|reflexivity]. Qed.
(** The operator and the text left, when [q] has been read but for a question mark. *)
Lemma parse_times q K : times_ q K -> exists op : bool -> re -> re,
  (forall g r, same (rmatch (op g r)) (some_power K (rmatch r))) /\
  forall u outer cur r k, parse_all (q ++ u) outer (push cur r) k false =
    (let '(g, u') := lazy_suffix u in parse_all u' outer (push cur (op g r)) k true).
Proof.
  intros H; destruct H as [| | |t n Hn Hl|t n Hn Hl|t n t2 m Hn Hm Hnm Hl].
  - exists RStar; split; [apply star_power|]; intros u outer cur r k; cbn [app]; rewrite parse_all_step; unfold pstep; cbn.
    destruct (lazy_suffix u); reflexivity.
  - exists RPlus; split; [apply plus_power|]; intros u outer cur r k; cbn [app]; rewrite parse_all_step; unfold pstep; cbn.
    destruct (lazy_suffix u); reflexivity.
  - exists RQuest; split; [apply quest_power|]; intros u outer cur r k; cbn [app]; rewrite parse_all_step; unfold pstep; cbn.
    destruct (lazy_suffix u); reflexivity.
  - exists (fun g => RRepeat g (N.to_nat n) (Some (N.to_nat n))); split.
    { intros g r; eapply same_trans; [apply repeat_power; lia|apply some_ext; intros; lia]. }
    intros u outer cur r k; cbn [app]; rewrite parse_all_step; unfold pstep; cbn [N.eqb Pos.eqb orb].
    assert (parse_repeat ((t ++ [0x7D]) ++ u) = Some (n, Some n, u)) as ->
      by (rewrite <- app_assoc; unfold parse_repeat; rewrite (parse_number _ _ _ Hn) by reflexivity; reflexivity).
    destruct (N.ltb_spec 1000 n); [lia|]; rewrite N.ltb_irrefl; cbn [orb].
    destruct (lazy_suffix u); reflexivity.
  - exists (fun g => RRepeat g (N.to_nat n) None); split.
    { intros g r; eapply same_trans; [apply repeat_power; exact I|apply some_ext; intros; lia]. }
    intros u outer cur r k; cbn [app]; rewrite parse_all_step; unfold pstep; cbn [N.eqb Pos.eqb orb].
    assert (parse_repeat ((t ++ [0x2C; 0x7D]) ++ u) = Some (n, None, u)) as ->
      by (rewrite <- app_assoc; unfold parse_repeat; rewrite (parse_number _ _ _ Hn) by reflexivity; reflexivity).
    destruct (N.ltb_spec 1000 n); [lia|]; cbn [orb].
    destruct (lazy_suffix u); reflexivity.
  - exists (fun g => RRepeat g (N.to_nat n) (Some (N.to_nat m))); split.
    { intros g r; eapply same_trans; [apply repeat_power; lia|apply some_ext; intros; lia]. }
    intros u outer cur r k; cbn [app]; rewrite parse_all_step; unfold pstep; cbn [N.eqb Pos.eqb orb].
    assert (parse_repeat ((t ++ 0x2C :: t2 ++ [0x7D]) ++ u) = Some (n, Some m, u)) as ->.
    { rewrite <- app_assoc; cbn [app]; rewrite <- app_assoc; cbn [app]; unfold parse_repeat; rewrite (parse_number _ _ _ Hn) by reflexivity; cbn [N.eqb Pos.eqb].
      pose proof (parse_number _ _ (0x7D :: u) Hm eq_refl) as Ep.
      destruct (number_facts _ _ Hm) as (_ & Hd & c & t3 & -> & _); cbn [app] in *.
      inversion Hd as [|? ? Hc _]; subst; destruct (N.eqb_spec c 0x7D) as [->|_]; [discriminate|].
      unfold rune in *; rewrite Ep; reflexivity. }
    destruct (N.ltb_spec 1000 n); [lia|]; destruct (N.ltb_spec 1000 m); [lia|]; destruct (N.ltb_spec m n); [lia|]; cbn [orb].
    destruct (lazy_suffix u); reflexivity.
Qed.
Lemma parse_quantifier q K : quantifier q K -> exists op : re -> re,
  (forall r, same (rmatch (op r)) (some_power K (rmatch r))) /\
  forall u outer cur r k, no_quest u ->
    parse_all (q ++ u) outer (push cur r) k false = parse_all u outer (push cur (op r)) k true.
Proof.
  intros [t K0 H|t K0 H]; destruct (parse_times _ _ H) as (op & Hop & Hp).
  - exists (op true); split; [apply Hop|]; intros u outer cur r k Hu; rewrite Hp, lazy_no by exact Hu; reflexivity.
  - exists (op false); split; [apply Hop|]; intros u outer cur r k Hu; rewrite <- app_assoc, Hp; reflexivity.
Qed.

Scheme atom_mut := Induction for atom Sort Prop
with sequence_mut := Induction for sequence Sort Prop
with alternatives_mut := Induction for alternatives Sort Prop.
Combined Scheme syntax_ind from atom_mut, sequence_mut, alternatives_mut.

Lemma no_quest_app t u : no_quest t -> no_quest u -> no_quest (t ++ u).
Proof. destruct t; cbn; auto. Qed.
Lemma same_refl A : same A A.
Proof. intros a b d; reflexivity. Qed.
Lemma lit_one r : same (rmatch (RLit [r])) (one (eq r)).
Proof.
  intros a b d; split; [intros H; inversion H; subst; exists r; auto|intros (c & -> & <-); constructor].
Qed.
Lemma class_one l P : set_is l P -> same (rmatch (RClass l)) (one P).
Proof.
  intros Hl a b d; split.
  - intros H; inversion H; subst; exists c; split; [reflexivity|apply Hl; assumption].
  - intros (c & -> & Hc); constructor; apply Hl; exact Hc.
Qed.
Lemma any_one : same (rmatch RAnyNotNL) (one (other_than (eq 10))).
Proof.
  intros a b d; split; [intros H; inversion H; subst; exists c; repeat split; congruence|].
  intros (c & -> & H1 & H2); constructor; congruence.
Qed.
Lemma begin_same : same (rmatch RBegin) (fun a b _ => a = [] /\ b = []).
Proof. intros a b d; split; [intros H; inversion H; auto|intros [-> ->]; constructor]. Qed.
Lemma end_same : same (rmatch REnd) (fun _ b d => b = [] /\ d = []).
Proof. intros a b d; split; [intros H; inversion H; auto|intros [-> ->]; constructor]. Qed.
Lemma mk_cat_same l : same (rmatch (mk_cat l)) (rmatch (RCat (rev l))).
Proof.
  destruct l as [|r [|r2 l]]; intros a b d; cbn [mk_cat rev app].
  - split; intros H; inversion H; constructor.
  - split; intros H.
    + replace b with (b ++ []) by apply app_nil_r; constructor; [exact H|constructor].
    + inversion H as [| | | | | | | | | | | | | | |r' l pre b1 b2 post H1 H2 E1|]; subst; inversion H2; subst; rewrite app_nil_r; exact H1.
  - reflexivity.
Qed.
Lemma cat_then r l : same (rmatch (RCat (r :: l))) (then_ (rmatch r) (rmatch (RCat l))).
Proof.
  intros a b d; split.
  - intros H; inversion H as [| | | | | | | | | | | | | | |r' l' pre b1 b2 post H1 H2 E1|]; subst; exists b1, b2; auto.
  - intros (x & y & -> & H1 & H2); constructor; assumption.
Qed.

Definition closes (u : list rune) : Prop := u = [] \/ exists u', u = 0x29 :: u'.
Definition add (f : frame) (items : list re) : frame :=
  {| f_cap := f_cap f; f_alts := f_alts f; f_cur := rev items ++ f_cur f |}.
Definition P_atom t M n := no_quest t /\ forall k u outer cur lr, exists r, same (rmatch r) M /\
  parse_all (t ++ u) outer cur k lr = parse_all u outer (push cur r) (k + n) false.
Definition P_sequence t M n := no_quest t /\ forall k u outer cur lr, no_quest u ->
  exists items lr', same (rmatch (RCat items)) M /\ (t <> [] -> items <> []) /\
    parse_all (t ++ u) outer cur k lr = parse_all u outer (add cur items) (k + n) lr'.
Definition P_alternatives t M n := no_quest t /\ forall k u outer cap alts lr, closes u ->
  exists f lr', f_cap f = cap /\
    same (rmatch (finish f)) (fun a b d => (exists r, In r alts /\ rmatch r a b d) \/ M a b d) /\
    parse_all (t ++ u) outer {| f_cap := cap; f_alts := alts; f_cur := [] |} k lr = parse_all u outer f (k + n) lr'.

Lemma finish_same cap alts cur :
  same (rmatch (finish {| f_cap := cap; f_alts := alts; f_cur := cur |}))
       (fun a b d => (exists r, In r alts /\ rmatch r a b d) \/ rmatch (RCat (rev cur)) a b d).
Proof.
  intros a b d; unfold finish; cbn [f_alts f_cur]; destruct alts as [|r alts].
  - rewrite (mk_cat_same cur a b d); split; [auto|intros [(r & [] & _)|H]; exact H].
  - split.
    + intros H; remember (rev (mk_cat cur :: r :: alts)) as l eqn:El.
      inversion H as [| | | | | | | | | | | | | | | |r' l' pre mid post Hin Hm]; subst.
      apply <- in_rev in Hin; destruct Hin as [<-|Hin]; [right; apply mk_cat_same; exact Hm|left; exists r'; auto].
    + intros [(r' & Hin & Hm)|H]; (eapply M_alt; [apply -> in_rev|]).
      * right; exact Hin.
      * exact Hm.
      * left; reflexivity.
      * apply mk_cat_same; exact H.
Qed.

Lemma no_quest_ne c t : c <> 0x3F -> no_quest (c :: t).
Proof. auto. Qed.
Lemma atom_some t M n : atom t M n -> t <> [].
Proof.
  intros H; destruct H as [r H|t r H| | | | | | | | | |]; try discriminate.
  destruct (parse_escaped _ _ [] H) as (l & -> & _); discriminate.
Qed.
Lemma syntax_parse : (forall t M n, atom t M n -> P_atom t M n) /\ (forall t M n, sequence t M n -> P_sequence t M n) /\
  (forall t M n, alternatives t M n -> P_alternatives t M n).
Proof.
  apply syntax_ind.
  - (* a character *)
    intros r Hr; assert (forall x, In x meta -> (r =? x) = false) as Hn by (intros x Hx; apply N.eqb_neq; intros ->; contradiction).
    split; [intros ->; apply Hr; cbn; tauto|].
    intros k u outer cur lr; exists (RLit [r]); split; [apply lit_one|]; rewrite Nat.add_0_r; cbn [app].
    rewrite parse_all_step; unfold pstep; rewrite !Hn by (cbn; tauto); reflexivity.
  - (* an escaped one *)
    intros t r He; split.
    { destruct (parse_escaped _ _ [] He) as (l & -> & _); discriminate. }
    intros k u outer cur lr; destruct (parse_escaped _ _ u He) as (l & -> & H1 & H2 & H3).
    exists (RLit [r]); split; [apply lit_one|]; rewrite Nat.add_0_r; cbn [app].
    unfold nmem in H3; cbn [existsb] in H3; rewrite !orb_false_iff in H3; destruct H3 as (N1 & N2 & N3 & N4 & N5 & N6 & N7 & _).
    rewrite parse_all_step; unfold pstep, nmem; cbn [N.eqb Pos.eqb orb existsb]; rewrite N1, N2, N3, N4, N5, N6, N7; cbn [orb].
    unfold rune in *; rewrite H2, H1; reflexivity.
  - split; [discriminate|]; intros k u outer cur lr; exists RAnyNotNL; split; [apply any_one|]; rewrite Nat.add_0_r; reflexivity.
  - (* shorthands *)
    intros l P Hs; split; [discriminate|]; intros k u outer cur lr; destruct (shorthand_set _ _ Hs) as (s & H1 & H2 & H3).
    exists (RClass s); split; [apply class_one; exact H2|]; rewrite Nat.add_0_r; cbn [app].
    unfold nmem in H3; cbn [existsb] in H3; rewrite !orb_false_iff in H3; destruct H3 as (N1 & N2 & N3 & N4 & N5 & N6 & N7 & _).
    rewrite parse_all_step; unfold pstep, nmem; cbn [N.eqb Pos.eqb orb existsb]; rewrite N1, N2, N3, N4, N5, N6, N7; cbn [orb].
    rewrite H1; reflexivity.
  - split; [discriminate|]; intros k u outer cur lr; exists RBegin; split; [apply begin_same|]; rewrite Nat.add_0_r; cbn [app]; rewrite parse_all_step; reflexivity.
  - split; [discriminate|]; intros k u outer cur lr; exists RBegin; split; [apply begin_same|]; rewrite Nat.add_0_r; cbn [app]; rewrite parse_all_step; reflexivity.
  - split; [discriminate|]; intros k u outer cur lr; exists REnd; split; [apply end_same|]; rewrite Nat.add_0_r; cbn [app]; rewrite parse_all_step; reflexivity.
  - split; [discriminate|]; intros k u outer cur lr; exists REnd; split; [apply end_same|]; rewrite Nat.add_0_r; cbn [app]; rewrite parse_all_step; reflexivity.
  - (* brackets *)
    intros t P Hm; split; [discriminate|]; intros k u outer cur lr; destruct (parse_brackets _ _ u Hm) as (l & Hl & Hp).
    exists (RClass l); split; [apply class_one; exact Hl|]; rewrite Nat.add_0_r; cbn [app].
    rewrite parse_all_step; unfold pstep; cbn [N.eqb Pos.eqb orb]; rewrite <- app_assoc; cbn [app].
    destruct (members_start _ _ Hm) as (c & t1 & -> & Hc); cbn [app] in *.
    destruct (N.eqb_spec c 0x5E) as [->|_]; [exfalso; apply Hc; cbn; tauto|].
    unfold rune in *; rewrite Hp; reflexivity.
  - intros t P Hm; split; [discriminate|]; intros k u outer cur lr; destruct (parse_brackets _ _ u Hm) as (l & Hl & Hp).
    exists (RClass (negate_ranges l)); split; [apply class_one, negate_set; exact Hl|]; rewrite Nat.add_0_r; cbn [app].
    rewrite parse_all_step; unfold pstep; cbn [N.eqb Pos.eqb orb]; rewrite <- app_assoc; cbn [app].
    unfold rune in *; rewrite Hp; reflexivity.
  - (* groups *)
    intros t M n _ [Hq IH]; split; [discriminate|]; intros k u outer cur lr.
    destruct (IH (S k) (0x29 :: u) (cur :: outer) (Some (S k)) [] false) as (f & lr' & Hc & Hf & E); [right; exists u; reflexivity|].
    exists (RCap (S k) (finish f)); split.
    { intros a b d; split.
      - intros H; inversion H as [| | | | | | |i0 r0 pre mid post Hm| | | | | | | | |]; subst; apply Hf in Hm; destruct Hm as [(r & [] & _)|Hm]; exact Hm.
      - intros H; constructor; apply Hf; right; exact H. }
    cbn [app]; rewrite parse_all_step; unfold pstep; cbn [N.eqb Pos.eqb orb]; rewrite <- app_assoc; cbn [app].
    assert (exists q t2, t ++ 0x29 :: u = q :: t2 /\ (q =? 0x3F) = false) as (q & t2 & Et & Eq).
    { destruct t as [|c t]; [exists 0x29, u; split; reflexivity|]; exists c, (t ++ 0x29 :: u); split; [reflexivity|apply N.eqb_neq; exact Hq]. }
    unfold rune in *; rewrite Et in *; rewrite Eq; cbn [bind]; rewrite E, parse_all_step; unfold pstep; cbn [N.eqb Pos.eqb orb bind].
    unfold group_of; rewrite Hc, Nat.add_succ_r; reflexivity.
  - intros t M n _ [Hq IH]; split; [discriminate|]; intros k u outer cur lr.
    destruct (IH k (0x29 :: u) (cur :: outer) None [] false) as (f & lr' & Hc & Hf & E); [right; exists u; reflexivity|].
    exists (finish f); split.
    { intros a b d; rewrite (Hf a b d); split; [intros [(r & [] & _)|H]; exact H|auto]. }
    cbn [app]; rewrite parse_all_step; unfold pstep; cbn [N.eqb Pos.eqb orb bind]; rewrite <- app_assoc; cbn [app].
    unfold rune, frame0 in *; rewrite E, parse_all_step; unfold pstep; cbn [N.eqb Pos.eqb orb bind].
    unfold group_of; rewrite Hc; reflexivity.
  - (* sequences *)
    split; [exact I|]; intros k u outer cur lr Hu; exists [], lr; split.
    { intros a b d; split; [intros H; inversion H; reflexivity|intros ->; constructor]. }
    split; [congruence|]; rewrite Nat.add_0_r; destruct cur; reflexivity.
  - intros t M n t' M' n' _ [Hq IH] _ [Hq' IH']; split; [apply no_quest_app; assumption|].
    intros k u outer cur lr Hu; rewrite <- app_assoc.
    destruct (IH k (t' ++ u) outer cur lr) as (r & Hr & E); destruct (IH' (k + n)%nat u outer (push cur r) false Hu) as (items & lr' & Hi & _ & E').
    exists (r :: items), lr'; split; [eapply same_trans; [apply cat_then|apply same_then; assumption]|].
    split; [discriminate|].
    rewrite E, E', Nat.add_assoc; unfold add, push; cbn [f_cap f_alts f_cur rev]; rewrite <- app_assoc; reflexivity.
  - intros t M n q K t' M' n' Ha [Hq IH] Hk _ [Hq' IH']; split.
    { destruct t as [|c t]; [|exact Hq].
      exfalso; apply (atom_some _ _ _ Ha); reflexivity. }
    intros k u outer cur lr Hu; rewrite <- !app_assoc.
    destruct (IH k (q ++ t' ++ u) outer cur lr) as (r & Hr & E).
    destruct (parse_quantifier _ _ Hk) as (op & Hop & Eop).
    destruct (IH' (k + n)%nat u outer (push cur (op r)) true Hu) as (items & lr' & Hi & _ & E').
    exists (op r :: items), lr'; split.
    { eapply same_trans; [apply cat_then|apply same_then; [|exact Hi]]; eapply same_trans; [apply Hop|apply same_some; exact Hr]. }
    split; [discriminate|]; rewrite E, Eop, E', Nat.add_assoc by (apply no_quest_app; assumption).
    unfold add, push; cbn [f_cap f_alts f_cur rev]; rewrite <- app_assoc; reflexivity.
  - (* alternatives *)
    intros t M n _ [Hq IH]; split; [exact Hq|]; intros k u outer cap alts lr Hu.
    destruct (IH k u outer {| f_cap := cap; f_alts := alts; f_cur := [] |} lr) as (items & lr' & Hi & _ & E).
    { destruct Hu as [->|(u' & ->)]; [exact I|discriminate]. }
    exists (add {| f_cap := cap; f_alts := alts; f_cur := [] |} items), lr'; split; [reflexivity|]; split; [|exact E].
    unfold add; cbn [f_cap f_alts f_cur]; eapply same_trans; [apply finish_same|].
    intros a b d; rewrite app_nil_r, rev_involutive, (Hi a b d); reflexivity.
  - intros t M n t' M' n' _ [Hq IH] _ [Hq' IH']; split; [apply no_quest_app; [exact Hq|discriminate]|].
    intros k u outer cap alts lr Hu; rewrite <- app_assoc; cbn [app].
    destruct (IH k (0x7C :: t' ++ u) outer {| f_cap := cap; f_alts := alts; f_cur := [] |} lr) as (items & lr1 & Hi & _ & E); [discriminate|].
    destruct (IH' (k + n)%nat u outer cap (mk_cat (rev items ++ []) :: alts) false Hu) as (f & lr' & Hc & Hf & E').
    exists f, lr'; split; [exact Hc|]; split.
    { intros a b d; rewrite (Hf a b d); split.
      - intros [(r & [<-|Hin] & Hm)|Hm]; [|left; exists r; auto|right; right; exact Hm].
        apply mk_cat_same in Hm; rewrite app_nil_r, rev_involutive in Hm; right; left; apply Hi; exact Hm.
      - intros [(r & Hin & Hm)|[Hm|Hm]]; [left; exists r; split; [right; exact Hin|exact Hm]| |right; exact Hm].
        left; eexists; split; [left; reflexivity|]; apply mk_cat_same; rewrite app_nil_r, rev_involutive; apply Hi; exact Hm. }
    unfold rune in *; rewrite E, parse_all_step; unfold pstep; cbn [N.eqb Pos.eqb orb bind add f_cap f_alts f_cur].
    rewrite Nat.add_assoc; exact E'.
Qed.

(** ** C68 *)

Lemma syntax_from t M n : alternatives t M n -> exists r, parse_from 0 t = Ok (r, n) /\ same (rmatch r) M.
Proof.
  intros H; destruct (proj2 (proj2 syntax_parse) t M n H) as [_ IH].
  destruct (IH O [] [] None [] false) as (f & lr & _ & Hf & E); [left; reflexivity|].
  exists (finish f); split.
  - unfold parse_from, frame0; rewrite app_nil_r in E; unfold rune in *; rewrite E, Nat.add_0_l; reflexivity.
  - intros a b d; rewrite (Hf a b d); split; [intros [(r & [] & _)|H']; exact H'|auto].
Qed.

(** Every expression compiles, to a tree that matches what the expression means. *)
Theorem C68_syntax t M n : alternatives t M n -> scalars t ->
  exists e, compile_re (encode t) = Ok e /\ numcap e = n /\ same (rmatch (tree e)) M.
Proof.
  intros H Hs; destruct (syntax_from t M n H) as (r & E & Hr).
  exists {| source := encode t; tree := r; prog := simplify r; numcap := n |}.
  split; [|split; [reflexivity|exact Hr]].
  unfold compile_re; rewrite parse_re_from.
  assert (valid_utf8 (encode t) = true) as -> by (apply valid_utf8_text; exists t; auto).
  rewrite runes_encode by exact Hs; rewrite E; reflexivity.
Qed.
Print Assumptions C68_syntax.

Lemma wide_app_gl a b : wide (map gl a ++ map gl b).
Proof. rewrite <- map_app; apply wide_gl. Qed.
Lemma shorter_encode rs a b a' b' : rs = a ++ b -> rs = a' ++ b' ->
  (length (encode a) <= length (encode a'))%nat -> (length a <= length a')%nat.
Proof.
  intros -> E Hl; destruct (Nat.le_gt_cases (length a) (length a')) as [H|H]; [exact H|].
  destruct (app_eq_app _ _ _ _ E) as (z & [[-> Eb]|[-> Eb]]).
  - rewrite encode_app, !app_length in *; destruct z as [|r z]; [cbn in H; lia|].
    cbn [encode flat_map] in Hl; rewrite app_length in Hl; pose proof (encode_rune_length r); lia.
  - rewrite app_length in H; lia.
Qed.

Lemma cap_array_pairs c k : forall i, length (cap_array c i k) = (2 * k)%nat.
Proof.
  induction k as [|k IH]; intros i; [reflexivity|]; cbn [cap_array].
  rewrite app_length, IH; destruct (cap_lookup c i) as [[x y]|]; cbn [length]; lia.
Qed.

(** The search finds the leftmost place where the expression matches, if there is one. *)
Theorem C68_search t M n e rs : alternatives t M n -> scalars t -> compile_re (encode t) = Ok e -> scalars rs ->
  (find_submatch_index e (encode rs) = [] /\ forall a b d, rs = a ++ b ++ d -> ~ M a b d) \/
  (exists a b d groups, rs = a ++ b ++ d /\ M a b d /\
     find_submatch_index e (encode rs) = len (encode a) :: len (encode (a ++ b)) :: groups /\ length groups = (2 * n)%nat /\
     forall a' b' d', rs = a' ++ b' ++ d' -> M a' b' d' -> (length a <= length a')%nat).
Proof.
  intros H Ht He Hs; destruct (C68_syntax t M n H Ht) as (e' & He' & Hn & HM).
  rewrite He in He'; apply ok_inj in He'; subst e'.
  assert (prog e = simplify (tree e)) as Hp.
  { unfold compile_re in He; destruct (parse_re (encode t)) as [[r k]| | | | |]; try discriminate; apply ok_inj in He; subst e; reflexivity. }
  assert (at_start (@nil rune) 0) as A0 by (split; reflexivity).
  assert (forall a b d, rs = a ++ b ++ d -> M a b d -> exists a0 b0 c0,
    search (prog e) (glyphs (encode rs)) 0 = Some (a0, b0, c0) /\ (a0 <= length (encode a))%nat) as Hfound.
  { intros a b d -> Hm; rewrite glyphs_encode, !map_app by exact Hs.
    apply HM in Hm; rewrite <- (runes_of_gl b), <- (runes_of_gl d) in Hm.
    pose proof (at_start_app _ _ _ A0 (wide_gl a)) as A1; cbn [app] in A1; rewrite runes_of_gl in A1.
    destruct (proj2 (means_simplify (tree e)) (map gl b) (map gl d) _ a (wide_app_gl b d) A1 Hm []) as (c & Hr).
    rewrite <- Hp in Hr; destruct (search_leftmost (prog e) _ 0 (map gl a) (map gl b) (map gl d) _ _ eq_refl Hr)
      as (a0 & b0 & c0 & Hs0 & Hle).
    exists a0, b0, c0; split; [exact Hs0|]; rewrite gwidth_gl in Hle; exact Hle. }
  unfold find_submatch_index.
  destruct (search (prog e) (glyphs (encode rs)) 0) as [[[a0 b0] c0]|] eqn:E.
  - right; pose proof E as E0; rewrite glyphs_encode in E0 by exact Hs; apply search_sound in E0.
    destruct E0 as (u & v & s' & Eg & -> & -> & Hr).
    destruct (map_gl_split _ _ _ Eg) as (a & bd & -> & -> & Ebd); symmetry in Ebd.
    destruct (map_gl_split _ _ _ Ebd) as (b & d & -> & -> & ->); clear Eg Ebd.
    exists a, b, d, (cap_array c0 1 (numcap e)); split; [reflexivity|].
    split; [|split; [|split]].
    + rewrite Hp in Hr; pose proof (at_start_app _ _ _ A0 (wide_gl a)) as A1; cbn [app] in A1; rewrite runes_of_gl in A1.
      apply (proj1 (means_simplify (tree e)) (map gl b) (map gl d) _ _ _ _ a (wide_app_gl b d) A1) in Hr.
      rewrite !runes_of_gl in Hr; apply HM; exact Hr.
    + unfold len; rewrite encode_app, app_length, !gwidth_gl, !Nat.add_0_l; reflexivity.
    + rewrite <- Hn; apply cap_array_pairs.
    + intros a' b' d' Ers Hm; destruct (Hfound a' b' d' Ers Hm) as (x & y & z & E1 & Hle).
      injection E1 as <- _ _; rewrite gwidth_gl in Hle; cbn [Nat.add] in Hle.
      eapply shorter_encode; [reflexivity|exact Ers|exact Hle].
  - left; split; [reflexivity|]; intros a b d Ers Hm; destruct (Hfound a b d Ers Hm) as (x & y & z & E1 & _); discriminate.
Qed.
Print Assumptions C68_search.

(** a[^b-d\d]{2,3}?(x|yz)* *)
Definition ex_lang : lang :=
  then_ (one (eq 0x61))
    (then_ (some_power (fun k => 2 <= N.of_nat k <= 3) (one (other_than (fun c => 0x62 <= c <= 0x64 \/ digit c))))
      (then_ (some_power (fun _ => True) (either (then_ (one (eq 0x78)) empty) (then_ (one (eq 0x79)) (then_ (one (eq 0x7A)) empty))))
        empty)).
Lemma not_meta_b r : nmem r meta = false -> ~ In r meta.
Proof. intros H Hin; apply nmem_in in Hin; congruence. Qed.
Example C68_example :
  alternatives (txt "a[^b-d\d]{2,3}?(x|yz)*") ex_lang 1 /\ scalars (txt "a[^b-d\d]{2,3}?(x|yz)*") /\
  ex_lang (txt "5") (txt "aefyzx") (txt "!") /\
  (exists e, compile_re (lit "a[^b-d\d]{2,3}?(x|yz)*") = Ok e /\
     find_submatch_index e (lit "5aefyzx!") = [1; 7; 6; 7]%Z /\ find_submatch_index e (lit "abe") = []).
Proof.
  split; [|split; [apply scalars_b; reflexivity|split]].
  - apply al_one.
    refine (sq_once (txt "a") _ 0 (txt "[^b-d\d]{2,3}?(x|yz)*") _ 1 _ _); [apply at_char, not_meta_b; reflexivity|].
    refine (sq_often (txt "[^b-d\d]") _ 0 (txt "{2,3}?") _ (txt "(x|yz)*") _ 1 _ _ _).
    + refine (at_no_class (txt "b-d\d") _ _).
      refine (ms_more (txt "b-d") _ (txt "\d") _ _ _).
      * refine (ms_range (txt "b") 0x62 (txt "d") 0x64 _ _ _); [apply mb_plain|apply mb_plain|discriminate];
          intros H; cbn in H; intuition discriminate.
      * apply (ms_short 0x64); constructor.
    + refine (qu_fewest (txt "{2,3}") _ _); refine (ti_range (txt "2") 2 (txt "3") 3 _ _ _ _);
        [apply (nu_digit 2); discriminate|apply (nu_digit 3); discriminate|discriminate|discriminate].
    + refine (sq_often (txt "(x|yz)") _ 1 (txt "*") _ [] _ 0 _ _ sq_nil); [|apply qu_most, ti_star].
      refine (at_group (txt "x|yz") _ 0 _); refine (al_more (txt "x") _ 0 (txt "yz") _ 0 _ _).
      * refine (sq_once (txt "x") _ 0 [] _ 0 _ sq_nil); apply at_char, not_meta_b; reflexivity.
      * apply al_one; refine (sq_once (txt "y") _ 0 (txt "z") _ 0 _ _); [apply at_char, not_meta_b; reflexivity|].
        refine (sq_once (txt "z") _ 0 [] _ 0 _ sq_nil); apply at_char, not_meta_b; reflexivity.
  - exists (txt "a"), (txt "efyzx"); split; [reflexivity|]; split; [exists 0x61; split; reflexivity|].
    exists (txt "ef"), (txt "yzx"); split; [reflexivity|]; split.
    { exists 2%nat; split; [lia|]; exists (txt "e"), (txt "f"); split; [reflexivity|]; split.
      - exists 0x65; split; [reflexivity|]; unfold other_than, digit; lia.
      - exists (txt "f"), []; split; [reflexivity|]; split; [|reflexivity].
        exists 0x66; split; [reflexivity|]; unfold other_than, digit; lia. }
    exists (txt "yzx"), []; split; [reflexivity|]; split; [|reflexivity].
    exists 2%nat; split; [exact I|]; exists (txt "yz"), (txt "x"); split; [reflexivity|]; split.
    { right; exists (txt "y"), (txt "z"); split; [reflexivity|]; split; [exists 0x79; split; reflexivity|].
      exists (txt "z"), []; split; [reflexivity|]; split; [exists 0x7A; split; reflexivity|reflexivity]. }
    exists (txt "x"), []; split; [reflexivity|]; split; [|reflexivity].
    left; exists (txt "x"), []; split; [reflexivity|]; split; [exists 0x78; split; reflexivity|reflexivity].
  - eexists; split; [vm_compute; reflexivity|]; split; vm_compute; reflexivity.
Qed.
