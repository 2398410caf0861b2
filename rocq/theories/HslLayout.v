(** Reading a document back: every layout of a document parses to it. *)
From Coq Require Import String.
From Verif Require Import GoBase Utf8 Utf8Facts Unicode Replacer LocalizeFacts Hsl HslFacts HslInv HslDoc.
Open Scope N_scope.

Definition lx (r : reader) (n : Z) : lexer := {| lx_rest := r; lx_line := n |}.

(** ** Characters *)

Lemma blank_sp c : blank c <-> is_sp c = true.
Proof.
  unfold blank, is_sp. rewrite andb_true_iff, negb_true_iff, N.eqb_neq. tauto.
Qed.

Lemma space_no_letter c : is_space c = true -> is_lex_letter c = false.
Proof.
  intros H. apply is_space_in in H.
  assert (A : forallb (fun c => negb (is_lex_letter c)) space_list = true) by (vm_compute; reflexivity).
  rewrite forallb_forall in A. apply A in H. apply negb_true_iff in H. exact H.
Qed.

Lemma letter_initial c : letter c <-> is_initial_letter c = true.
Proof. unfold letter, is_initial_letter. rewrite orb_true_iff, N.eqb_eq. tauto. Qed.
Lemma letter_or_digit_lex c : letter_or_digit c <-> is_lex_letter c = true.
Proof. unfold letter_or_digit, is_lex_letter. rewrite orb_true_iff, letter_initial. tauto. Qed.

(** A character at which a bare word stops. *)
Definition stops_word (r : reader) : Prop :=
  r = [] \/ exists c w r', r = (c, w) :: r' /\ is_lex_letter c = false.

(** ** Spaces and comments, in both loops *)

Section Skipping.
  Context {X : Type} (F : lexer -> X).
  Context (HF : forall l tok l1, scan l = Ok (tok, l1) -> tok = TSpace \/ tok = TComment -> F l = F l1).

  Lemma scan_spaces c r n :
    c <> [] -> Forall (fun g => is_sp (fst g) = true) c ->
    (r = [] \/ exists ch w r', r = (ch, w) :: r' /\ is_sp ch = false) ->
    scan (lx (c ++ r) n) = Ok (TSpace, lx r n).
  Proof.
    intros Hn H T. destruct c as [|[ch w] c]; [congruence|].
    assert (Hs : is_sp ch = true) by (inversion H; assumption).
    unfold scan, read. cbn [lx lx_rest app lx_line].
    assert (E0 : (ch =? eof) = false) by (apply N.eqb_neq; intros ->; discriminate Hs).
    assert (Es : (ch =? 10) = false) by (apply N.eqb_neq, is_sp_not_nl, Hs).
    rewrite E0, Es.
    assert (Ei : is_space ch = true) by (unfold is_sp in Hs; rewrite Es in Hs; exact Hs).
    rewrite Ei. unfold lx. change ((ch, w) :: c ++ r) with (((ch, w) :: c) ++ r).
    rewrite read_while_run.
    - rewrite newlines_none; [rewrite Z.add_0_r; reflexivity|].
      eapply Forall_impl; [|exact H]. intros g G. apply is_sp_not_nl, G.
    - eapply Forall_impl; [|exact H]. cbn. intros g G. split; [|exact G].
      intros Z. rewrite Z in G. discriminate G.
    - destruct T as [->|(ch' & w' & r' & -> & T)]; [left; reflexivity|]. right. eauto 8.
  Qed.

  Lemma split_spaces (r : reader) :
    exists a b, r = a ++ b /\ Forall (fun g => is_sp (fst g) = true) a /\
      (b = [] \/ exists ch w r', b = (ch, w) :: r' /\ is_sp ch = false).
  Proof.
    induction r as [|[ch w] r (a & b & -> & H & T)].
    - exists [], []. split; [reflexivity|]. split; [constructor|]. left. reflexivity.
    - destruct (is_sp ch) eqn:E.
      + exists ((ch, w) :: a), b. split; [reflexivity|]. split; [constructor; assumption|exact T].
      + exists [], ((ch, w) :: a ++ b). split; [reflexivity|]. split; [constructor|]. right. eauto 6.
  Qed.

  Lemma skip_spaces c r n :
    Forall (fun g => is_sp (fst g) = true) c -> F (lx (c ++ r) n) = F (lx r n).
  Proof.
    intros H. destruct (split_spaces r) as (a & b & -> & Ha & T).
    assert (G : forall d, Forall (fun g => is_sp (fst g) = true) d -> F (lx (d ++ b) n) = F (lx b n)).
    { intros d Hd. destruct d as [|g d]; [reflexivity|].
      eapply HF; [|left; reflexivity]. apply scan_spaces; [discriminate|exact Hd|exact T]. }
    rewrite app_assoc, G, (G a) by (try apply Forall_app; auto). reflexivity.
  Qed.

  Lemma scan_comment_fuel f f' r n l :
    (length r < f)%nat -> (length r < f')%nat ->
    scan_comment f (lx r n) = Ok l -> scan_comment f' (lx r n) = Ok l.
  Proof.
    intros Hf Hf' H. destruct (scan_comment_spec f (lx r n) Hf) as (l' & c & E & [S _] & _).
    rewrite H in E. injection E as <-. destruct l as [x m]. cbn in S. subst r.
    unfold lx in *. eapply scan_comment_local; [exact Hf|exact Hf'|exact H|].
    destruct x; [left; reflexivity|right; split; [discriminate|reflexivity]].
  Qed.

  (** Where the comment scanner stops is as good as where it started. *)
  Lemma skip_scan_comment f r n l :
    (length r < f)%nat -> scan_comment f (lx r n) = Ok l -> F (lx r n) = F l.
  Proof.
    intros Hf H. destruct (split_spaces r) as (a & b & -> & Ha & T).
    rewrite skip_spaces by exact Ha.
    destruct f as [|f]; [lia|]. cbn [scan_comment] in H. unfold lx in H at 1.
    assert (A : Forall (fun g => fst g <> eof /\ is_sp (fst g) = true) a).
    { eapply Forall_impl; [|exact Ha]. cbn. intros g G. split; [|exact G].
      intros Z. rewrite Z in G. discriminate G. }
    assert (Nl : newlines a = 0%Z).
    { apply newlines_none. eapply Forall_impl; [|exact Ha]. intros g G. apply is_sp_not_nl, G. }
    rewrite read_while_run in H; [|exact A|destruct T as [->|(ch' & w' & r' & -> & T)]; eauto 8].
    rewrite Nl, Z.add_0_r in H.
    destruct T as [->|(ch & w & r' & -> & T)].
    { cbn in H. injection H as <-. reflexivity. }
    unfold read in H at 1. cbn [lx_rest lx_line] in H.
    destruct (ch =? 0x23) eqn:Ech; [|injection H as <-; reflexivity].
    apply N.eqb_eq in Ech. subst ch.
    eapply HF; [|right; reflexivity].
    unfold scan, read at 1. cbn [lx lx_rest lx_line N.eqb Pos.eqb eof].
    change (is_space 0x23) with false. change (is_initial_letter 0x23) with false.
    cbn [N.eqb Pos.eqb].
    assert (E : scan_comment (S (length ((35, w) :: r'))) (lx ((35, w) :: r') n) = Ok l).
    { cbn [scan_comment]. unfold lx at 1.
      pose proof (read_while_run is_sp [] ((35, w) :: r') n (Forall_nil _)) as Q.
      cbn [app] in Q. rewrite Q by eauto 8.
      change (newlines []) with 0%Z. rewrite Z.add_0_r.
      unfold read at 1. cbn [lx_rest lx_line N.eqb Pos.eqb].
      cbn [N.eqb Pos.eqb] in H.
      destruct (read_while is_in_line {| lx_rest := r'; lx_line := n |}) as [s3 l3] eqn:E3.
      destruct (read_while_spec _ _ _ _ E3) as (c3 & S3 & _).
      destruct (read l3) as [ch4 [r4 n4]] eqn:E4.
      assert (L : (length r4 <= length r')%nat).
      { apply step_length in S3. cbn [lx_rest] in S3.
        destruct (read_step _ _ _ E4) as [(_ & _ & <-)|(w4 & W & _)]; [cbn [lx_rest] in S3; lia|].
        cbn [lx_rest] in W. rewrite W in S3. cbn [length] in S3. lia. }
      apply (scan_comment_fuel f _ r4 n4 l).
      + rewrite app_length in Hf. cbn [length] in Hf. lia.
      + cbn [length]. apply le_n_S. exact L.
      + exact H. }
    unfold lx in E |- *. cbn [lx_rest] in E |- *. setoid_rewrite E. reflexivity.
  Qed.

  Lemma scan_comment_head f w0 x n :
    scan_comment (S f) (lx ((0x23, w0) :: x) n) =
    let '(_, l3) := read_while is_in_line (lx x n) in
    let '(_, l4) := read l3 in scan_comment f l4.
  Proof.
    cbn [scan_comment]. unfold lx at 1.
    pose proof (read_while_run is_sp [] ((35, w0) :: x) n (Forall_nil _)) as Q. cbn [app] in Q.
    rewrite Q by (right; eauto 8). change (newlines []) with 0%Z. rewrite Z.add_0_r. reflexivity.
  Qed.

  Lemma in_line_run b : Forall (fun g : rune * nat => is_in_line (fst g) = true) b ->
    Forall (fun g => fst g <> eof /\ is_in_line (fst g) = true) b /\ newlines b = 0%Z.
  Proof.
    intros Hb. split.
    - eapply Forall_impl; [|exact Hb]. cbn. intros g G. split; [|exact G].
      intros Z. rewrite Z in G. discriminate G.
    - apply newlines_none. eapply Forall_impl; [|exact Hb]. intros [ch w] G Z. cbn [fst] in *. subst ch. discriminate G.
  Qed.

  (** A comment line disappears, its newline included. *)
  Lemma skip_comment w0 b w r n :
    Forall (fun g => is_in_line (fst g) = true) b ->
    F (lx ((0x23, w0) :: b ++ (0x0A, w) :: r) n) = F (lx r (n + 1)).
  Proof.
    intros Hb. destruct (in_line_run b Hb) as [H1 H2].
    destruct (scan_comment_spec (S (length r)) (lx r (n + 1)) (Nat.lt_succ_diag_r _)) as (l & c & E & _ & _).
    rewrite (skip_scan_comment _ _ _ _ (Nat.lt_succ_diag_r _) E).
    eapply skip_scan_comment; [apply Nat.lt_succ_diag_r|].
    rewrite scan_comment_head. unfold lx at 1. rewrite read_while_run.
    - rewrite H2, Z.add_0_r. unfold read at 1. cbn [lx_rest lx_line N.eqb Pos.eqb].
      eapply scan_comment_fuel; [| |exact E].
      + apply Nat.lt_succ_diag_r.
      + cbn [length]. rewrite app_length. cbn [length]. unfold reader. lia.
    - exact H1.
    - right. eauto 8.
  Qed.

  (** An unfinished comment at the end of the text. *)
  Lemma skip_last_comment w0 b n :
    Forall (fun g => is_in_line (fst g) = true) b ->
    F (lx ((0x23, w0) :: b) n) = F (lx [] n).
  Proof.
    intros Hb. destruct (in_line_run b Hb) as [H1 H2].
    eapply skip_scan_comment; [apply Nat.lt_succ_diag_r|].
    rewrite scan_comment_head. unfold lx at 1.
    pose proof (read_while_run is_in_line b [] n) as Q2. rewrite app_nil_r in Q2. rewrite Q2.
    - rewrite H2, Z.add_0_r. reflexivity.
    - exact H1.
    - left. reflexivity.
  Qed.
End Skipping.

Lemma ploop_skips st l tok l1 :
  scan l = Ok (tok, l1) -> tok = TSpace \/ tok = TComment -> ploop l st = ploop l1 st.
Proof. intros E [->| ->]; rewrite ploop_eq, E; reflexivity. Qed.
Lemma pvalues_skips vs l tok l1 :
  scan l = Ok (tok, l1) -> tok = TSpace \/ tok = TComment -> pvalues l vs = pvalues l1 vs.
Proof. intros E [->| ->]; rewrite pvalues_eq, E; reflexivity. Qed.

(** ** Strings *)

Lemma scan_word c w rs r n :
  is_initial_letter c = true -> Forall (fun g => is_lex_letter (fst g) = true) rs -> stops_word r ->
  scan (lx ((c, w) :: rs ++ r) n) = Ok (TString (encode (c :: map fst rs)), lx r n).
Proof.
  intros Hc Hr T.
  assert (Hs : is_space c = false).
  { destruct (is_space c) eqn:E; [|reflexivity]. apply space_no_letter in E.
    unfold is_lex_letter in E. rewrite Hc in E. discriminate. }
  assert (E0 : (c =? eof) = false) by (apply N.eqb_neq; intros ->; vm_compute in Hc; discriminate Hc).
  assert (E1 : (c =? 10) = false) by (apply N.eqb_neq; intros ->; vm_compute in Hc; discriminate Hc).
  unfold scan, read. cbn [lx lx_rest app lx_line]. rewrite E0, E1, Hs, Hc.
  change ((c, w) :: rs ++ r) with (((c, w) :: rs) ++ r). unfold lx.
  rewrite read_while_run.
  - assert (Z : newlines ((c, w) :: rs) = 0%Z).
    { rewrite newlines_cons, E1, newlines_none; [reflexivity|].
      eapply Forall_impl; [|exact Hr]. intros [ch u] G Z. cbn [fst] in *. subst ch. vm_compute in G. discriminate G. }
    rewrite Z, Z.add_0_r. reflexivity.
  - constructor.
    + cbn. split; [apply N.eqb_neq, E0|]. unfold is_lex_letter. rewrite Hc. reflexivity.
    + eapply Forall_impl; [|exact Hr]. cbn. intros g G. split; [|exact G].
      intros Z. rewrite Z in G. vm_compute in G. discriminate G.
  - destruct T as [->|(c' & w' & r' & -> & T)]; eauto 8.
Qed.

Lemma scan_quoted_run rs : forall (q r : reader) wq n buf,
  Forall (fun c => c <> 0x5C) rs -> map fst q = flat_map escape rs ->
  exists n', scan_quoted (q ++ (0x22, wq) :: r) n false buf = Ok (buf ++ encode rs, lx r n').
Proof.
  induction rs as [|c rs IH]; intros q r wq n buf F E.
  - destruct q; [|discriminate]. cbn. rewrite app_nil_r. unfold lx. eauto.
  - inversion F as [|? ? Hc F']; subst. cbn [flat_map] in E. unfold escape in E at 1.
    change (encode (c :: rs)) with (encode_rune c ++ encode rs).
    destruct (c =? 0x22) eqn:Ec.
    + apply N.eqb_eq in Ec. subst c. destruct q as [|[c1 w1] [|[c2 w2] q]]; try discriminate E.
      cbn in E. injection E as -> -> E. cbn [app scan_quoted N.eqb Pos.eqb].
      destruct (IH q r wq n (buf ++ encode_rune 34) F' E) as (n' & G). rewrite G, <- app_assoc. eauto.
    + destruct q as [|[c1 w1] q]; [discriminate E|]. cbn in E. injection E as -> E.
      cbn [app scan_quoted]. apply N.eqb_neq in Hc. rewrite Ec, Hc.
      destruct (IH q r wq (if c =? 10 then (n + 1)%Z else n) (buf ++ encode_rune c) F' E) as (n' & G).
      rewrite G, <- app_assoc. eauto.
Qed.

Lemma scan_string s t (q r : reader) n :
  spells s t -> map fst q = t -> stops_word r ->
  exists n', scan (lx (q ++ r) n) = Ok (TString s, lx r n').
Proof.
  intros Sp E T. destruct Sp as [rs F|c rs Hc Hr].
  - destruct q as [|[c0 w0] q]; [discriminate E|]. cbn in E. injection E as -> E.
    destruct (map_eq_app _ _ _ _ E) as (q1 & q2 & -> & E1 & E2).
    destruct q2 as [|[c2 w2] [|]]; try discriminate E2. cbn in E2. injection E2 as ->.
    destruct (scan_quoted_run rs q1 r w2 n [] F E1) as (n' & G).
    exists n'. unfold scan, read. cbn [lx lx_rest app lx_line N.eqb Pos.eqb eof].
    change (is_space 0x22) with false. change (is_initial_letter 0x22) with false.
    cbn [N.eqb Pos.eqb]. rewrite <- app_assoc. cbn [app]. cbn [app] in G.
    eapply (f_equal (fun x => bind x _)) in G. refine (eq_trans G _). reflexivity.
  - destruct q as [|[c0 w0] q]; [discriminate E|]. cbn in E. injection E as -> E. exists n.
    cbn [app]. rewrite scan_word.
    + rewrite E. reflexivity.
    + apply letter_initial, Hc.
    + apply (Forall_map fst (fun x => is_lex_letter x = true)). rewrite E.
      eapply Forall_impl; [|exact Hr]. intros x. apply letter_or_digit_lex.
    + exact T.
Qed.

(** ** Fillers in the main loop *)

Lemma ploop_newline w r n st : ploop (lx ((0x0A, w) :: r) n) st = ploop (lx r (n + 1)) st.
Proof. rewrite ploop_eq. reflexivity. Qed.

Lemma spaces_reader t (q : reader) :
  spaces t -> map fst q = t -> Forall (fun g => is_sp (fst g) = true) q.
Proof.
  intros H E. apply (Forall_map fst (fun c => is_sp c = true)). rewrite E.
  eapply Forall_impl; [|exact H]. intros c. apply blank_sp.
Qed.
Lemma comment_reader t (q : reader) :
  comment_text t -> map fst q = t -> Forall (fun g => is_in_line (fst g) = true) q.
Proof.
  intros H E. apply (Forall_map fst (fun c => is_in_line c = true)). rewrite E.
  eapply Forall_impl; [|exact H]. intros c [A B]. unfold is_in_line.
  apply N.eqb_neq in A. change eof with 0. apply N.eqb_neq in B. rewrite A, B. reflexivity.
Qed.

Lemma ploop_filler t : filler t -> forall (q r : reader) n st, map fst q = t ->
  exists n', ploop (lx (q ++ r) n) st = ploop (lx r n') st.
Proof.
  induction 1 as [|c t Hc _ IH|t _ IH|b t Hb _ IH]; intros q r n st E.
  - destruct q; [|discriminate]. exists n. reflexivity.
  - destruct q as [|[c0 w0] q]; [discriminate|]. cbn in E. injection E as -> E.
    destruct (IH q r n st E) as (n' & G). exists n'. rewrite <- G.
    change (((c, w0) :: q) ++ r) with ([(c, w0)] ++ (q ++ r)).
    apply (skip_spaces (fun l => ploop l st) (ploop_skips st)).
    constructor; [apply blank_sp, Hc|constructor].
  - destruct q as [|[c0 w0] q]; [discriminate|]. cbn in E. injection E as -> E.
    destruct (IH q r (n + 1)%Z st E) as (n' & G). exists n'. rewrite <- G. apply ploop_newline.
  - destruct q as [|[c0 w0] q]; [discriminate|]. cbn in E. injection E as -> E.
    destruct (map_eq_app _ _ _ _ E) as (q1 & q2 & -> & E1 & E2).
    destruct q2 as [|[c2 w2] q2]; [discriminate|]. cbn in E2. injection E2 as -> E2.
    destruct (IH q2 r (n + 1)%Z st E2) as (n' & G). exists n'. rewrite <- G.
    cbn [app]. rewrite <- app_assoc. cbn [app].
    apply (skip_comment (fun l => ploop l st) (ploop_skips st)). eapply comment_reader; [|eassumption]; assumption.
Qed.

Lemma stops_char c w r : is_lex_letter c = false -> stops_word ((c, w) :: r).
Proof. right. eauto. Qed.

Lemma stops_spaces t (q r : reader) : spaces t -> map fst q = t -> stops_word r -> stops_word (q ++ r).
Proof.
  intros H E T. destruct q as [|[c w] q]; [exact T|]. cbn in E. subst t. inversion H as [|? ? [B _] _]; subst.
  apply stops_char, space_no_letter, B.
Qed.

Lemma stops_filler t (q r : reader) : filler t -> map fst q = t -> stops_word r -> stops_word (q ++ r).
Proof.
  intros H E T. destruct q as [|[c w] q]; [exact T|]. cbn in E. subst t.
  apply stops_char. inversion H as [|? ? [B _] _| |]; subst; try reflexivity. apply space_no_letter, B.
Qed.

(** ** Values *)

Lemma pvalues_string s t (q r : reader) n vs :
  spells s t -> map fst q = t -> stops_word r ->
  exists n', pvalues (lx (q ++ r) n) vs = pvalues (lx r n') (vs ++ [s]).
Proof.
  intros Sp E T. destruct (scan_string s t q r n Sp E T) as (n' & G). exists n'.
  rewrite pvalues_eq, G. reflexivity.
Qed.

Lemma stops_line_end t (q r : reader) : line_end t -> map fst q = t -> stops_word (q ++ r).
Proof.
  intros H E. destruct q as [|[c w] q]; [subst t; inversion H|]. cbn in E. subst t.
  apply stops_char. inversion H; subst; reflexivity.
Qed.

Lemma pvalues_text vs t : values_text vs t -> forall (q r : reader) n vs0,
  map fst q = t -> stops_word r ->
  exists n', pvalues (lx (q ++ r) n) vs0 = pvalues (lx r n') (vs0 ++ vs).
Proof.
  induction 1 as [sp Hsp|v t sp1 sp2 Hv H1 H2|v t sp1 sp2 v' vs r0 Hv H1 H2 _ IH]; intros q r n vs0 E T.
  - exists n. rewrite app_nil_r.
    apply (skip_spaces (fun l => pvalues l vs0) (pvalues_skips vs0)). eapply spaces_reader; [|eassumption]; assumption.
  - destruct (map_eq_app _ _ _ _ E) as (q1 & q2 & -> & E1 & E2).
    destruct (map_eq_app _ _ _ _ E2) as (q3 & q4 & -> & E3 & E4).
    rewrite <- !app_assoc.
    rewrite (skip_spaces (fun l => pvalues l vs0) (pvalues_skips vs0)) by (solve [eapply spaces_reader; [|eassumption]; assumption]).
    destruct (pvalues_string v t q3 (q4 ++ r) n vs0 Hv E3) as (n' & ->); [eapply stops_spaces; [|eassumption|exact T]; assumption|].
    exists n'.
    apply (skip_spaces (fun l => pvalues l (vs0 ++ [v])) (pvalues_skips _)). eapply spaces_reader; [|eassumption]; assumption.
  - destruct (map_eq_app _ _ _ _ E) as (q1 & q2 & -> & E1 & E2).
    destruct (map_eq_app _ _ _ _ E2) as (q3 & q4 & -> & E3 & E4).
    destruct (map_eq_app _ _ _ _ E4) as (q5 & q6 & -> & E5 & E6).
    destruct q6 as [|[c w] q6]; [discriminate|]. cbn in E6. injection E6 as -> E6.
    rewrite <- !app_assoc.
    rewrite (skip_spaces (fun l => pvalues l vs0) (pvalues_skips vs0)) by (solve [eapply spaces_reader; [|eassumption]; assumption]).
    destruct (pvalues_string v t q3 (q5 ++ ((44 : rune, w) :: q6) ++ r) n vs0 Hv E3) as (n' & ->).
    { eapply stops_spaces; [|eassumption|]; [assumption|]. cbn [app]. apply stops_char. reflexivity. }
    rewrite (skip_spaces (fun l => pvalues l (vs0 ++ [v])) (pvalues_skips _)) by (solve [eapply spaces_reader; [|eassumption]; assumption]).
    destruct (IH q6 r n' (vs0 ++ [v]) E6 T) as (n2 & G). exists n2.
    rewrite <- app_assoc in G. cbn [app] in G. rewrite <- G.
    rewrite (pvalues_eq (lx (((44 : rune, w) :: q6) ++ r) n')). reflexivity.
Qed.

Lemma pvalues_line_end t (q r : reader) n vs :
  line_end t -> map fst q = t -> exists n', pvalues (lx (q ++ r) n) vs = Ok (vs, lx r n').
Proof.
  assert (Nl : forall w n, pvalues (lx ((10, w) :: r) n) vs = Ok (vs, lx r (n + 1))).
  { intros w m. rewrite pvalues_eq. reflexivity. }
  intros H E. destruct H as [|b sp Hb Hsp].
  - destruct q as [|[c w] [|]]; try discriminate E. cbn in E. injection E as ->. exists (n + 1)%Z. apply Nl.
  - destruct q as [|[c w] q]; [discriminate|]. cbn in E. injection E as -> E.
    destruct (map_eq_app _ _ _ _ E) as (q1 & q2 & -> & E1 & E2).
    destruct q2 as [|[c2 w2] q2]; [discriminate|]. cbn in E2. injection E2 as -> E2.
    destruct (map_eq_app _ _ _ _ E2) as (q3 & q4 & -> & E3 & E4).
    destruct q4 as [|[c4 w4] [|]]; try discriminate E4. cbn in E4. injection E4 as ->.
    exists (n + 1 + 1)%Z. cbn [app]. rewrite <- app_assoc. cbn [app].
    rewrite (skip_comment (fun l => pvalues l vs) (pvalues_skips vs)) by (solve [eapply comment_reader; [|eassumption]; assumption]).
    rewrite <- app_assoc. cbn [app].
    rewrite (skip_spaces (fun l => pvalues l vs) (pvalues_skips vs)) by (solve [eapply spaces_reader; [|eassumption]; assumption]).
    apply Nl.
Qed.

(** ** Entries *)

Definition is_pairs (k : kind) : bool := match k with Pairs => true | Dict => false end.

Lemma ploop_string s t (q r : reader) n st :
  spells s t -> map fst q = t -> stops_word r ->
  exists n', ploop (lx (q ++ r) n) st = ploop (lx r n') (set_last st s).
Proof.
  intros Sp E T. destruct (scan_string s t q r n Sp E T) as (n' & G). exists n'.
  rewrite ploop_eq, G. reflexivity.
Qed.

Lemma ploop_operator k (q r : reader) n st :
  map fst q = operator k -> ploop (lx (q ++ r) n) st = ppair (is_pairs k) (lx r n) st.
Proof.
  intros E. destruct k; cbn in E.
  - destruct q as [|[c w] [|[c2 w2] [|]]]; try discriminate E. cbn in E. injection E as -> ->.
    rewrite ploop_eq. reflexivity.
  - destruct q as [|[c w] [|]]; try discriminate E. cbn in E. injection E as ->.
    rewrite ploop_eq. reflexivity.
Qed.

(** One entry adds one pair to the current section. *)
Lemma ploop_entry k key vs t (q r : reader) n st :
  entry_text k (key, vs) t -> map fst q = t -> ps_name st <> [] ->
  exists line n', ploop (lx (q ++ r) n) st =
    let! st' := add_to (set_last st key) (is_pairs k) vs line in ploop (lx r n') st'.
Proof.
  intros H E Hn. inversion H as [k0 v0 f1 kt f2 vt e H1 H2 H3 H4 H5]; subst.
  destruct (map_eq_app _ _ _ _ (eq_sym H7)) as (q1 & q1' & -> & E1 & E1').
  destruct (map_eq_app _ _ _ _ E1') as (q2 & q2' & -> & E2 & E2').
  destruct (map_eq_app _ _ _ _ E2') as (q3 & q3' & -> & E3 & E3').
  destruct (map_eq_app _ _ _ _ E3') as (q4 & q4' & -> & E4 & E4').
  destruct (map_eq_app _ _ _ _ E4') as (q5 & q6 & -> & E5 & E6).
  rewrite <- !app_assoc.
  destruct (ploop_filler _ H1 q1 (q2 ++ q3 ++ q4 ++ q5 ++ q6 ++ r) n st E1) as (n1 & ->).
  destruct (ploop_string _ _ q2 (q3 ++ q4 ++ q5 ++ q6 ++ r) n1 st H2 E2) as (n2 & ->).
  { eapply stops_filler; [|eassumption|]; [assumption|]. destruct k; destruct q4 as [|[c w] q4]; try discriminate E4; cbn in E4;
      injection E4 as -> _; apply stops_char; reflexivity. }
  destruct (ploop_filler _ H3 q3 (q4 ++ q5 ++ q6 ++ r) n2 (set_last st key) E3) as (n3 & ->).
  rewrite (ploop_operator k) by exact E4. unfold ppair. cbn [set_last ps_name].
  destruct (ps_name st) eqn:Es; [congruence|].
  destruct (pvalues_text _ _ H4 q5 (q6 ++ r) n3 [] E5) as (n4 & ->); [eapply stops_line_end; eauto|].
  cbn [app].
  destruct (pvalues_line_end _ q6 r n4 vs H5 E6) as (n5 & ->). cbn [bind].
  exists n3, n5. unfold set_last. rewrite Es. reflexivity.
Qed.

(** The current section holds the entries [done]. *)
Definition holds (st : pstate) (h0 : hsl) (name : bytes) (k : kind) (done : list entry) : Prop :=
  ps_name st = name /\ name <> [] /\ ~ In name (map fst h0) /\
  match done with
  | [] => ps_hsl st = h0
  | _ => exists sec, ps_hsl st = h0 ++ [(name, sec)] /\
           section_says (name, sec) = {| sec_name := name; sec_kind := k; sec_entries := done |}
  end.

Lemma lookup_last {A} (h0 : list (bytes * A)) name x :
  ~ In name (map fst h0) -> lookup (h0 ++ [(name, x)]) name = Some x.
Proof.
  induction h0 as [|[n y] h0 IH]; cbn; intros H; [rewrite beqb_refl; reflexivity|].
  destruct (beqb n name) eqn:E; [apply beqb_eq in E; tauto|]. apply IH. tauto.
Qed.
Lemma lookup_fresh {A} (h0 : list (bytes * A)) name : ~ In name (map fst h0) -> lookup h0 name = None.
Proof.
  induction h0 as [|[n y] h0 IH]; cbn; intros H; [reflexivity|].
  destruct (beqb n name) eqn:E; [apply beqb_eq in E; tauto|]. apply IH. tauto.
Qed.
Lemma hsl_set_last h0 name x y :
  ~ In name (map fst h0) -> hsl_set (h0 ++ [(name, x)]) name y = h0 ++ [(name, y)].
Proof.
  induction h0 as [|[n z] h0 IH]; cbn; intros H; [rewrite beqb_refl; reflexivity|].
  destruct (beqb n name) eqn:E; [apply beqb_eq in E; tauto|]. rewrite IH by tauto. reflexivity.
Qed.
Lemma hsl_set_fresh h0 name y : ~ In name (map fst h0) -> hsl_set h0 name y = h0 ++ [(name, y)].
Proof.
  induction h0 as [|[n z] h0 IH]; cbn; intros H; [reflexivity|].
  destruct (beqb n name) eqn:E; [apply beqb_eq in E; tauto|]. rewrite IH by tauto. reflexivity.
Qed.

Lemma says_dict_keys name d line k es :
  section_says (name, DictSection d line) = {| sec_name := name; sec_kind := k; sec_entries := es |} ->
  k = Dict /\ map fst es = map pr_left d.
Proof. cbn. intros H. injection H as <- <-. rewrite map_map. auto. Qed.

Lemma add_to_holds st h0 name k done key vs line :
  holds st h0 name k done ->
  (k = Dict -> ~ In key (map fst done)) ->
  exists st', add_to (set_last st key) (is_pairs k) vs line = Ok st' /\
              holds st' h0 name k (done ++ [(key, vs)]).
Proof.
  intros (H1 & H2 & H3 & H4) Hk. unfold add_to. cbn [set_last ps_hsl ps_name ps_last ps_secline].
  rewrite H1. unfold holds.
  destruct done as [|e done].
  - rewrite H4, (lookup_fresh h0) by exact H3.
    destruct k; cbn [is_pairs add_pair app dict_get].
    + eexists. split; [reflexivity|]. cbn [ps_name ps_hsl]. do 2 (split; [auto|]). split; [assumption|].
      eexists. split; [apply hsl_set_fresh, H3|]. reflexivity.
    + eexists. split; [reflexivity|]. cbn [ps_name ps_hsl]. do 2 (split; [auto|]). split; [assumption|].
      eexists. split; [apply hsl_set_fresh, H3|]. reflexivity.
  - destruct H4 as (sec & H4 & H5). rewrite H4, lookup_last by exact H3.
    destruct sec as [pairs l|d l].
    + cbn in H5. injection H5 as <- H5. cbn [add_pair].
      eexists. split; [reflexivity|]. cbn [ps_name ps_hsl app]. do 2 (split; [auto|]). split; [assumption|].
      eexists. split; [apply hsl_set_last, H3|]. cbn. rewrite map_app, H5. reflexivity.
    + destruct (says_dict_keys _ _ _ _ _ H5) as (-> & Ek). cbn [add_pair pr_left].
      assert (G : dict_get d key = None).
      { apply dict_get_none. rewrite <- Ek. apply Hk. reflexivity. }
      rewrite G. cbn in H5. injection H5 as H5.
      eexists. split; [reflexivity|]. cbn [ps_name ps_hsl app]. do 2 (split; [auto|]). split; [assumption|].
      eexists. split; [apply hsl_set_last, H3|]. cbn. rewrite map_app, H5. reflexivity.
Qed.

Lemma add_to_duplicate st h0 name done key vs line :
  holds st h0 name Dict done -> In key (map fst done) ->
  add_to (set_last st key) false vs line = Panic PAddPair.
Proof.
  intros (H1 & H2 & H3 & H4) Hk. unfold add_to. cbn [set_last ps_hsl ps_name ps_last ps_secline].
  destruct done as [|e done]; [destruct Hk|]. destruct H4 as (sec & H4 & H5).
  rewrite H1, H4, lookup_last by exact H3. destruct sec as [pairs l|d l]; [discriminate H5|].
  destruct (says_dict_keys _ _ _ _ _ H5) as (_ & Ek). cbn [add_pair pr_left].
  destruct (dict_get d key) eqn:G; [reflexivity|]. apply dict_get_none in G. rewrite <- Ek in G. contradiction.
Qed.

Lemma ploop_entries k es : forall t (q r : reader) n st h0 name done,
  entries_text k es t -> map fst q = t -> holds st h0 name k done ->
  (k = Dict -> NoDup (map fst (done ++ es))) ->
  exists n' st', ploop (lx (q ++ r) n) st = ploop (lx r n') st' /\ holds st' h0 name k (done ++ es).
Proof.
  induction es as [|[key vs] es IH]; intros t q r n st h0 name done H E Hs Hd.
  - inversion H; subst. destruct q; [|discriminate]. exists n, st. rewrite app_nil_r. auto.
  - inversion H as [|? ? t1 ts H1 H2]; subst.
    destruct (map_eq_app _ _ _ _ (eq_sym H4)) as (q1 & q2 & -> & E1 & E2).
    rewrite <- app_assoc.
    assert (Hn : ps_name st <> []) by (destruct Hs as (-> & Hs & _); exact Hs).
    destruct (ploop_entry k key vs t1 q1 (q2 ++ r) n st H1 E1 Hn) as (line & n1 & ->).
    destruct (add_to_holds st h0 name k done key vs line Hs) as (st1 & A & Hs1).
    { intros K. specialize (Hd K). rewrite map_app in Hd. cbn in Hd. apply NoDup_remove_2 in Hd.
      intros W. apply Hd, in_or_app. left. exact W. }
    rewrite A. cbn [bind].
    destruct (IH ts q2 r n1 st1 h0 name (done ++ [(key, vs)]) H2 E2 Hs1) as (n2 & st2 & G1 & G2).
    { rewrite <- app_assoc. exact Hd. }
    rewrite <- app_assoc in G2. exists n2, st2. auto.
Qed.

(** ** Sections and documents *)

Lemma ploop_section name k es t (q r : reader) n st :
  section_text {| sec_name := name; sec_kind := k; sec_entries := es |} t -> map fst q = t ->
  ~ In name (map fst (ps_hsl st)) ->
  exists n' st' ts q2, entries_text k es ts /\ map fst q2 = ts /\
    ploop (lx (q ++ r) n) st = ploop (lx (q2 ++ r) n') st' /\ holds st' (ps_hsl st) name k [].
Proof.
  intros H E Hf. inversion H as [name' k' es' f1 nt f2 ts H1 H2 H3 H4 H5]; subst.
  match goal with W : _ = map fst q |- _ => rename W into H9; symmetry in H9
                | W : map fst q = _ |- _ => rename W into H9 end.
  destruct (map_eq_app _ _ _ _ H9) as (q1 & q1' & -> & E1 & E1').
  destruct (map_eq_app _ _ _ _ E1') as (q2 & q2' & -> & E2 & E2').
  destruct (map_eq_app _ _ _ _ E2') as (q3 & q3' & -> & E3 & E3').
  destruct q3' as [|[c w] q4]; [discriminate|]. cbn in E3'. injection E3' as -> E4.
  rewrite <- !app_assoc.
  destruct (ploop_filler _ H1 q1 (q2 ++ q3 ++ ((58 : rune, w) :: q4) ++ r) n st E1) as (n1 & ->).
  destruct (ploop_string _ _ q2 (q3 ++ ((58 : rune, w) :: q4) ++ r) n1 st H2 E2) as (n2 & ->).
  { eapply stops_filler; [|eassumption|]; [assumption|]. cbn [app]. apply stops_char. reflexivity. }
  destruct (ploop_filler _ H3 q3 (((58 : rune, w) :: q4) ++ r) n2 (set_last st name) E3) as (n3 & ->).
  exists n3, (set_name (set_last st name) n3), ts, q4.
  split; [exact H4|]. split; [exact E4|]. split.
  - rewrite ploop_eq. reflexivity.
  - repeat split; auto.
Qed.

Lemma holds_says st h0 name k es :
  holds st h0 name k es ->
  says (ps_hsl st) = says h0 ++
    filter nonempty [{| sec_name := name; sec_kind := k; sec_entries := es |}] /\
  forall n, In n (map fst (ps_hsl st)) -> n = name \/ In n (map fst h0).
Proof.
  intros (_ & _ & _ & H). cbn [filter nonempty sec_entries]. destruct es as [|e es].
  - rewrite H, app_nil_r. auto.
  - destruct H as (sec & H & H'). rewrite H. unfold says. rewrite map_app. cbn [map]. rewrite H'.
    split; [reflexivity|]. intros n. rewrite map_app, in_app_iff. cbn. intuition.
Qed.

Lemma ploop_document d t : document_text d t -> forall (q : reader) n st,
  map fst q = t -> proper d ->
  (forall s, In s d -> ~ In (sec_name s) (map fst (ps_hsl st))) ->
  exists h, ploop (lx q n) st = Ok (h, []) /\ says h = says (ps_hsl st) ++ filter nonempty d.
Proof.
  induction 1 as [f Hf|f b Hf Hb|s d t ts Hs _ IH]; intros q n st E Hp Hfr.
  - destruct (ploop_filler _ Hf q [] n st E) as (n' & G). rewrite app_nil_r in G.
    exists (ps_hsl st). cbn [filter]. rewrite G, app_nil_r. split; reflexivity.
  - destruct (map_eq_app _ _ _ _ E) as (q1 & q2 & -> & E1 & E2).
    destruct q2 as [|[c w] q2]; [discriminate|]. cbn in E2. injection E2 as -> E2.
    destruct (ploop_filler _ Hf q1 ((35 : rune, w) :: q2) n st E1) as (n' & ->).
    rewrite (skip_last_comment (fun l => ploop l st) (ploop_skips st)) by (solve [eapply comment_reader; [|eassumption]; assumption]).
    exists (ps_hsl st). cbn [filter]. rewrite app_nil_r. split; reflexivity.
  - destruct (map_eq_app _ _ _ _ E) as (q1 & q2 & -> & E1 & E2).
    destruct s as [name k es]. destruct Hp as [P1 P2]. inversion P1 as [|? ? P1a P1b]; subst.
    inversion P2 as [|? ? P2a P2b]; subst. cbn [sec_name sec_kind sec_entries] in *.
    destruct (ploop_section name k es _ q1 q2 n st Hs eq_refl (Hfr _ (or_introl eq_refl)))
      as (n1 & st1 & ts1 & q3 & G1 & G2 & -> & G4).
    destruct (ploop_entries k es ts1 q3 q2 n1 st1 _ name [] G1 G2 G4 P2a) as (n2 & st2 & -> & G5).
    cbn [app] in G5. destruct (holds_says _ _ _ _ _ G5) as (W1 & W2).
    destruct (IH q2 n2 st2 eq_refl) as (h & X1 & X2).
    + split; assumption.
    + intros s Hin Hin2. apply W2 in Hin2. destruct Hin2 as [W|W].
      * apply P1a. rewrite <- W. apply in_map, Hin.
      * apply (Hfr s (or_intror Hin)), W.
    + exists h. split; [exact X1|]. rewrite X2, W1, <- app_assoc. f_equal.
      cbn [filter nonempty sec_entries app]. destruct es; reflexivity.
Qed.

(** A repeated key in a dictionary. *)
Lemma ploop_repeated k es1 key vs t2 : forall t1 (q1 q2 r : reader) n st h0 name,
  entries_text Dict es1 t1 -> map fst q1 = t1 -> entry_text Dict (key, vs) t2 -> map fst q2 = t2 ->
  holds st h0 name Dict [] -> NoDup (map fst es1) -> In key (map fst es1) -> k = Dict ->
  ploop (lx (q1 ++ q2 ++ r) n) st = Panic PAddPair.
Proof.
  intros t1 q1 q2 r n st h0 name H1 E1 H2 E2 Hs Hd Hk _.
  destruct (ploop_entries Dict es1 t1 q1 (q2 ++ r) n st h0 name [] H1 E1 Hs) as (n1 & st1 & -> & G).
  { intros _. exact Hd. }
  assert (Hn : ps_name st1 <> []) by (destruct G as (-> & G & _); exact G).
  destruct (ploop_entry Dict key vs t2 q2 r n1 st1 H2 E2 Hn) as (line & n2 & ->).
  cbn [is_pairs]. rewrite (add_to_duplicate _ _ _ _ _ _ _ G Hk). reflexivity.
Qed.

(** ** The printer *)

Lemma print_values_text vs :
  Forall (fun v => utf8_text v /\ Forall (fun c => c <> 0x5C) (runes v)) vs ->
  values_text vs (print_values vs).
Proof.
  assert (Q : forall v, utf8_text v /\ Forall (fun c => c <> 0x5C) (runes v) -> spells v (quoted v)).
  { intros v [A B]. rewrite <- (utf8_text_runes v A) at 1. apply spells_quoted, B. }
  assert (B : spaces [0x20]) by (constructor; [split; [reflexivity|discriminate]|constructor]).
  induction 1 as [|v vs Hv F IH]; [constructor; constructor|].
  destruct vs as [|v' vs].
  - cbn [print_values]. rewrite <- (app_nil_r (quoted v)).
    apply (values_one v (quoted v) [32] []); [apply Q, Hv|exact B|constructor].
  - apply (values_more v (quoted v) [32] [] v' vs); [apply Q, Hv|exact B|constructor|exact IH].
Qed.

(** Strings the printer can write: text without backslashes. *)
Definition writable (s : bytes) : Prop := utf8_text s /\ Forall (fun c => c <> 0x5C) (runes s).

Definition writable_section (s : sect) : Prop :=
  writable (sec_name s) /\ sec_name s <> [] /\
  Forall (fun e => writable (fst e) /\ Forall writable (snd e)) (sec_entries s).

Lemma spells_print v : writable v -> spells v (quoted v).
Proof. intros [A B]. rewrite <- (utf8_text_runes v A) at 1. apply spells_quoted, B. Qed.

Lemma blank_space : blank 0x20. Proof. split; [reflexivity|discriminate]. Qed.

Lemma print_entries_text k es :
  Forall (fun e => writable (fst e) /\ Forall writable (snd e)) es ->
  entries_text k es (flat_map (print_entry k) es).
Proof.
  induction 1 as [|[key vs] es [H1 H2] _ IH]; [constructor|].
  cbn [flat_map]. constructor; [|exact IH].
  unfold print_entry. cbn [fst snd] in *.
  change (32 :: quoted key ++ 32 :: operator k ++ print_values vs ++ [10])
    with ([32] ++ quoted key ++ [32] ++ operator k ++ print_values vs ++ [10]).
  constructor.
  - apply filler_space; [apply blank_space|constructor].
  - apply spells_print, H1.
  - apply filler_space; [apply blank_space|constructor].
  - apply print_values_text, H2.
  - constructor.
Qed.

Lemma regroup (f a b p q : list rune) : f ++ (a ++ b ++ p) ++ q = (f ++ a ++ [] ++ b) ++ p ++ q.
Proof. cbn [app]. rewrite <- !app_assoc. reflexivity. Qed.

Lemma regroup2 (f a b q : list rune) : f ++ (a ++ b) ++ q = (f ++ a ++ [] ++ b) ++ [] ++ q.
Proof. cbn [app]. rewrite <- !app_assoc. reflexivity. Qed.

(** With at least one entry the newline after the colon is the indentation of
    the first entry; without one it is left over. *)
Lemma print_document_text d :
  Forall writable_section d -> document_text d (print_document d).
Proof.
  intros H.
  assert (G : forall f, filler f -> document_text d (f ++ print_document d)).
  { induction H as [|[name k es] d (H1 & H2 & H3) _ IH]; intros f Hf.
    - rewrite app_nil_r. constructor. exact Hf.
    - cbn [print_document flat_map]. fold (print_document d).
      unfold print_section. cbn [sec_name sec_kind sec_entries].
      destruct es as [|e es].
      + cbn [flat_map].
        pose proof (document_cons {| sec_name := name; sec_kind := k; sec_entries := [] |} d
                      (f ++ quoted name ++ [] ++ 58 :: []) ([10] ++ print_document d)) as G.
        rewrite (regroup f (quoted name) [58] [10]). apply G.
        * constructor; [exact Hf|apply spells_print, H1|constructor|constructor|exact H2].
        * apply IH. apply filler_newline. constructor.
      + pose proof (document_cons {| sec_name := name; sec_kind := k; sec_entries := e :: es |} d
                      (f ++ quoted name ++ [] ++ 58 :: (10 :: flat_map (print_entry k) (e :: es)))
                      ([] ++ print_document d)) as G.
        refine (eq_ind_r (document_text _) (G _ _)
                 (regroup2 f (quoted name) (58 :: 10 :: flat_map (print_entry k) (e :: es)) (print_document d))).
        * constructor; [exact Hf|apply spells_print, H1|constructor| |exact H2].
          cbn [flat_map]. inversion H3 as [|? ? [A1 A2] A3]; subst. destruct e as [key vs].
          change (10 :: print_entry k (key, vs) ++ flat_map (print_entry k) es)
            with ((10 :: print_entry k (key, vs)) ++ flat_map (print_entry k) es).
          constructor; [|apply print_entries_text, A3].
          unfold print_entry. cbn [fst snd] in *.
          change (10 :: 32 :: quoted key ++ 32 :: operator k ++ print_values vs ++ [10])
            with ([10; 32] ++ quoted key ++ [32] ++ operator k ++ print_values vs ++ [10]).
          constructor; [|apply spells_print, A1| |apply print_values_text, A2|constructor].
          -- apply filler_newline, filler_space; [apply blank_space|constructor].
          -- apply filler_space; [apply blank_space|constructor].
        * apply IH. constructor. }
  apply (G []). constructor.
Qed.
