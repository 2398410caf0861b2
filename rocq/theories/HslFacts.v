(** Facts about the HSL lexer and parser (model file Hsl.v). *)
From Coq Require Import String Sorted.
From Verif Require Import GoBase Utf8 Utf8Facts Unicode Replacer Hsl.
Open Scope N_scope.

(** ** Consumption and line counting *)

Definition newlines (c : reader) : Z :=
  Z.of_nat (length (filter (fun g : rune * nat => fst g =? 0x0A) c)).

Arguments newlines : simpl never.
Arguments encode_rune : simpl never.

Lemma newlines_nil : newlines [] = 0%Z. Proof. reflexivity. Qed.
Lemma newlines_cons ch w c :
  newlines ((ch, w) :: c) = ((if (ch =? 0x0A)%N then 1 else 0) + newlines c)%Z.
Proof. unfold newlines. cbn [filter fst]. destruct (ch =? 0x0A); cbn [length]; lia. Qed.
Lemma newlines_app a b : newlines (a ++ b) = (newlines a + newlines b)%Z.
Proof. unfold newlines. rewrite filter_app, app_length. lia. Qed.
Lemma newlines_pos c : (0 <= newlines c)%Z.
Proof. unfold newlines. lia. Qed.

(** [l] has read [c] and became [l']. *)
Definition step (l : lexer) (c : reader) (l' : lexer) : Prop :=
  lx_rest l = c ++ lx_rest l' /\ lx_line l' = (lx_line l + newlines c)%Z.

Lemma step_refl l : step l [] l.
Proof. split; [reflexivity|]. rewrite newlines_nil. lia. Qed.
Lemma step_trans l a l1 b l2 : step l a l1 -> step l1 b l2 -> step l (a ++ b) l2.
Proof.
  intros [E1 F1] [E2 F2]. split.
  - rewrite E1, E2. apply app_assoc.
  - rewrite newlines_app. lia.
Qed.

Lemma step_cons ch w rest line c l' :
  step {| lx_rest := rest; lx_line := if ch =? 0x0A then (line + 1)%Z else line |} c l' ->
  step {| lx_rest := (ch, w) :: rest; lx_line := line |} ((ch, w) :: c) l'.
Proof.
  intros [A B]. split; cbn in *; [rewrite A; reflexivity|].
  rewrite newlines_cons, B. destruct (ch =? 10); lia.
Qed.

Lemma read_step l ch l' :
  read l = (ch, l') ->
  (lx_rest l = [] /\ ch = eof /\ l' = l) \/
  (exists w, lx_rest l = (ch, w) :: lx_rest l' /\ step l [(ch, w)] l').
Proof.
  unfold read. destruct (lx_rest l) as [|[c w] rest] eqn:E; intros H; injection H as <- <-.
  - left. auto.
  - right. exists w. split; [reflexivity|]. split; [rewrite E; reflexivity|].
    rewrite newlines_cons, newlines_nil. cbn. destruct (c =? 10); lia.
Qed.

Lemma read_while_in_spec test rest line s l' :
  read_while_in test rest line = (s, l') ->
  exists c, step {| lx_rest := rest; lx_line := line |} c l' /\ s = encode (map fst c) /\
    Forall (fun g => fst g <> eof /\ test (fst g) = true) c /\
    (lx_rest l' = [] \/ exists ch w r, lx_rest l' = (ch, w) :: r /\ (ch = eof \/ test ch = false)).
Proof.
  revert line s l'. induction rest as [|[ch w] rest IH]; intros line s l' H; cbn in H.
  - injection H as <- <-. exists []. split; [apply step_refl|].
    split; [reflexivity|]. split; [constructor|]. left; reflexivity.
  - destruct (ch =? eof) eqn:E0; cbn in H.
    + injection H as <- <-. exists []. split; [apply step_refl|].
      split; [reflexivity|]. split; [constructor|]. right. exists ch, w, rest.
      split; [reflexivity|]. left. apply N.eqb_eq, E0.
    + destruct (test ch) eqn:Et.
      * destruct (read_while_in test rest _) as [s1 l1] eqn:E1. injection H as <- <-.
        destruct (IH _ _ _ E1) as (c & [S1 S2] & -> & F & T).
        exists ((ch, w) :: c). split; [|split; [reflexivity|split]].
        -- split; cbn in *; [congruence|]. rewrite newlines_cons. destruct (ch =? 10); lia.
        -- constructor; [|exact F]. cbn. split; [apply N.eqb_neq, E0|exact Et].
        -- exact T.
      * injection H as <- <-. exists []. split; [apply step_refl|].
        split; [reflexivity|]. split; [constructor|]. right. exists ch, w, rest. auto.
Qed.

Lemma read_while_spec test l s l' :
  read_while test l = (s, l') ->
  exists c, step l c l' /\ s = encode (map fst c) /\
    Forall (fun g => fst g <> eof /\ test (fst g) = true) c /\
    (lx_rest l' = [] \/ exists ch w r, lx_rest l' = (ch, w) :: r /\ (ch = eof \/ test ch = false)).
Proof. destruct l as [r n]. apply read_while_in_spec. Qed.

(** The other direction: what a run of accepted characters gives. *)
Lemma read_while_run test c r n :
  Forall (fun g => fst g <> eof /\ test (fst g) = true) c ->
  (r = [] \/ exists ch w r', r = (ch, w) :: r' /\ (ch = eof \/ test ch = false)) ->
  read_while test {| lx_rest := c ++ r; lx_line := n |} =
  (encode (map fst c), {| lx_rest := r; lx_line := n + newlines c |}%Z).
Proof.
  unfold read_while. cbn [lx_rest lx_line]. intros F T. revert n.
  induction F as [|[ch w] c [F1 F2] F IH]; intros n.
  - cbn [app map]. rewrite newlines_nil, Z.add_0_r.
    destruct T as [->|(ch & w & r' & -> & T)]; [reflexivity|].
    cbn [read_while_in]. destruct T as [->|T]; [reflexivity|].
    rewrite T, andb_false_r. reflexivity.
  - cbn [app read_while_in]. cbn [fst] in F1, F2.
    apply N.eqb_neq in F1. rewrite F1, F2. cbn [negb andb]. rewrite IH.
    cbn [map fst]. change (encode (ch :: map fst c)) with (encode_rune ch ++ encode (map fst c)).
    rewrite newlines_cons.
    replace (n + ((if (ch =? 10)%N then 1 else 0) + newlines c))%Z
      with ((if (ch =? 10)%N then n + 1 else n) + newlines c)%Z by (destruct (ch =? 10); lia).
    reflexivity.
Qed.

Lemma is_sp_not_nl ch : is_sp ch = true -> ch <> 0x0A.
Proof. unfold is_sp. destruct (ch =? 10) eqn:E; cbn; [discriminate|]. intros _ ->; discriminate. Qed.
Lemma newlines_none c : Forall (fun g : rune * nat => fst g <> 0x0A) c -> newlines c = 0%Z.
Proof.
  induction 1 as [|[ch w] c F _ IH]; [reflexivity|]. rewrite newlines_cons, IH.
  apply N.eqb_neq in F. cbn in F. rewrite F. reflexivity.
Qed.

(** ** Comments *)

Lemma scan_comment_spec f l :
  (length (lx_rest l) < f)%nat ->
  exists l' c, scan_comment f l = Ok l' /\ step l c l' /\
    (forall w r, lx_rest l = (0x23, w) :: r -> c <> []).
Proof.
  revert l. induction f as [|f IH]; intros l Hf; [lia|]. cbn [scan_comment].
  destruct (read_while is_sp l) as [s l1] eqn:E1.
  destruct (read_while_spec _ _ _ _ E1) as (c1 & S1 & _ & F1 & T1).
  destruct (read l1) as [ch l2] eqn:E2.
  destruct (ch =? 0x23) eqn:Ech.
  - apply N.eqb_eq in Ech. subst ch.
    destruct (read_step _ _ _ E2) as [(R1 & R2 & R3)|(w & R1 & S2)]; [discriminate|].
    destruct (read_while is_in_line l2) as [s3 l3] eqn:E3.
    destruct (read_while_spec _ _ _ _ E3) as (c3 & S3 & _ & F3 & T3).
    destruct (read l3) as [ch4 l4] eqn:E4.
    assert (S4 : exists c4, step l3 c4 l4).
    { destruct (read_step _ _ _ E4) as [(_ & _ & ->)|(w4 & _ & S4)]; eauto using step_refl. }
    destruct S4 as (c4 & S4).
    assert (St : step l (c1 ++ [(0x23, w)] ++ c3 ++ c4) l4) by eauto using step_trans.
    assert (L : (length (lx_rest l4) < f)%nat).
    { destruct St as [E _]. apply (f_equal (@length _)) in E. rewrite !app_length in E. cbn in E. lia. }
    destruct (IH l4 L) as (l' & c & X1 & X2 & _).
    exists l', ((c1 ++ [(0x23, w)] ++ c3 ++ c4) ++ c).
    split; [exact X1|]. split; [eauto using step_trans|].
    intros _ _ _. destruct c1; discriminate.
  - exists l1, c1. split; [reflexivity|]. split; [exact S1|].
    intros w r Q ->. destruct S1 as [S1 _]. cbn in S1. rewrite Q in S1.
    unfold read in E2. rewrite <- S1 in E2. injection E2 as <- <-. discriminate Ech.
Qed.

(** ** Quoted strings *)

(** A quote was opened before [post] and is never closed: every later quote is
    preceded by a backslash after the last quote. *)
Inductive qbody : list rune -> list rune -> Prop :=
| qbody_nil : qbody [] []
| qbody_char ch b v : ch <> 0x22 -> ch <> 0x5C -> qbody b v -> qbody (ch :: b) (ch :: v)
| qbody_escape skipped b v :
    Forall (fun ch => ch <> 0x22) skipped -> qbody b v ->
    qbody (0x5C :: skipped ++ 0x22 :: b) (0x22 :: v).

Lemma scan_quoted_spec rest : forall line esc buf,
  match scan_quoted rest line esc buf with
  | Ok (s, l') => exists skipped b v w,
      step {| lx_rest := rest; lx_line := line |} (skipped ++ b ++ [(0x22, w)]) l' /\
      (if esc then exists w' sk, skipped = sk ++ [(0x22, w')] /\ Forall (fun g => fst g <> 0x22) sk /\
                   s = buf ++ encode_rune 0x22 ++ encode v
       else skipped = [] /\ s = buf ++ encode v) /\
      qbody (map fst b) v
  | Hang => forall skipped b rest', map fst rest = skipped ++ b ++ 0x22 :: rest' ->
      (if esc then exists sk, skipped = sk ++ [0x22] /\ Forall (fun ch => ch <> 0x22) sk
       else skipped = []) -> ~ exists v, qbody b v
  | _ => False
  end.
Proof.
  induction rest as [|[ch w] rest IH]; intros line esc buf; cbn [scan_quoted].
  - intros skipped b rest' E. destruct skipped; [|discriminate]. destruct b; discriminate.
  - destruct (ch =? 0x22) eqn:Eq.
    + apply N.eqb_eq in Eq. subst ch. destruct esc.
      * specialize (IH (if 34 =? 10 then (line + 1)%Z else line) false (buf ++ encode_rune 34)).
        destruct (scan_quoted rest _ false _) as [[s l']| | | | |]; try exact IH.
        -- destruct IH as (sk & b & v & w' & S1 & (-> & ->) & Q).
           exists [(34, w)], b, v, w'. split; [|split; [|exact Q]].
           ++ apply step_cons, S1.
           ++ exists w, []. split; [reflexivity|]. split; [constructor|]. rewrite <- app_assoc. reflexivity.
        -- intros sk b rest' E (sk' & -> & F) (v & Q).
           destruct sk' as [|x sk'].
           ++ cbn in E. injection E as E. exact (IH [] b rest' E eq_refl (ex_intro _ v Q)).
           ++ cbn in E. injection E as <- _. inversion F; subst. congruence.
      * exists [], [], [], w. split; [|split; [|constructor]].
        -- apply step_cons, step_refl.
        -- rewrite app_nil_r. auto.
    + apply N.eqb_neq in Eq. destruct (ch =? 0x5C) eqn:Eb.
      * apply N.eqb_eq in Eb. subst ch.
        specialize (IH (if 92 =? 10 then (line + 1)%Z else line) true buf).
        destruct (scan_quoted rest _ true _) as [[s l']| | | | |]; try exact IH.
        -- destruct IH as (sk & b & v & w' & S1 & (w2 & sk' & -> & F & ->) & Q).
           destruct esc.
           ++ exists (((92, w) :: sk') ++ [(34, w2)]), b, v, w'. split; [|split; [|exact Q]].
              ** apply step_cons, S1.
              ** exists w2, ((92, w) :: sk'). split; [reflexivity|]. split; [|reflexivity].
                 constructor; [discriminate|exact F].
           ++ exists [], (((92, w) :: sk') ++ (34, w2) :: b), (34 :: v), w'. split; [|split].
              ** cbn [app]. apply step_cons. rewrite <- app_assoc in S1. rewrite <- app_assoc. exact S1.
              ** split; reflexivity.
              ** rewrite map_app. cbn. apply qbody_escape; [|exact Q].
                 apply Forall_map. exact F.
        -- intros sk b rest' E Hsk (v & Q). destruct esc.
           ++ destruct Hsk as (sk' & -> & F). destruct sk' as [|x sk']; [discriminate E|].
              cbn in E. injection E as <- E. inversion F; subst.
              apply (IH (sk' ++ [34]) b rest'); eauto.
           ++ subst sk. cbn in E. destruct b as [|x b]; [discriminate|].
              cbn in E. injection E as <- E. inversion Q; subst; [congruence|].
              apply (IH (skipped ++ [34]) b0 rest'); eauto.
              rewrite E, <- !app_assoc. reflexivity.
      * apply N.eqb_neq in Eb. destruct esc.
        -- specialize (IH (if ch =? 10 then (line + 1)%Z else line) true buf).
           destruct (scan_quoted rest _ true _) as [[s l']| | | | |]; try exact IH.
           ++ destruct IH as (sk & b & v & w' & S1 & (w2 & sk' & -> & F & ->) & Q).
              exists (((ch, w) :: sk') ++ [(34, w2)]), b, v, w'. split; [|split; [|exact Q]].
              ** apply step_cons, S1.
              ** exists w2, ((ch, w) :: sk'). split; [reflexivity|]. split; [|reflexivity].
                 constructor; [exact Eq|exact F].
           ++ intros sk b rest' E (sk' & -> & F) (v & Q).
              destruct sk' as [|x sk']; [cbn in E; congruence|].
              cbn in E. injection E as <- E. inversion F; subst.
              apply (IH (sk' ++ [34]) b rest'); eauto.
        -- specialize (IH (if ch =? 10 then (line + 1)%Z else line) false (buf ++ encode_rune ch)).
           destruct (scan_quoted rest _ false _) as [[s l']| | | | |]; try exact IH.
           ++ destruct IH as (sk & b & v & w' & S1 & (-> & ->) & Q).
              exists [], ((ch, w) :: b), (ch :: v), w'. split; [|split].
              ** apply step_cons, S1.
              ** split; [reflexivity|]. rewrite <- app_assoc. reflexivity.
              ** cbn. constructor; assumption.
           ++ intros sk b rest' E -> (v & Q). cbn in E.
              destruct b as [|x b]; [cbn in E; congruence|].
              cbn in E. injection E as <- E. inversion Q; subst; [|congruence].
              exact (IH [] b rest' E eq_refl (ex_intro _ _ ltac:(eassumption))).
Qed.

Definition unclosed (post : list rune) : Prop :=
  forall b rest v, post = b ++ 0x22 :: rest -> ~ qbody b v.

Lemma qbody_no_backslash b v : qbody b v -> Forall (fun ch => ch <> 0x5C) v.
Proof. induction 1; constructor; auto. discriminate. Qed.

(** ** Tokens *)

(** What [scan] has read when it returns [tok]. *)
Definition token_text (tok : token) (l : lexer) (c : reader) : Prop :=
  match tok with
  | TEOF => (c = [] /\ lx_rest l = []) \/ exists w, c = [(eof, w)]
  | TEqual => exists w, c = [(0x3D, w)]
  | TArrow => exists w1 w2, c = [(0x2D, w1); (0x3E, w2)]
  | TString s => c <> [] /\ exists v, s = encode v /\ Forall (fun ch => ch <> 0x5C) v
  | TNewline => exists w, c = [(0x0A, w)]
  | _ => c <> []
  end.

Lemma scan_spec l :
  match scan l with
  | Ok (tok, l') => exists c, step l c l' /\ token_text tok l c
  | Panic p => p = PNotArrow /\ exists w r, lx_rest l = (0x2D, w) :: r /\
                                 forall w' r', r <> (0x3E, w') :: r'
  | Hang => exists w r, lx_rest l = (0x22, w) :: r /\ unclosed (map fst r)
  | _ => False
  end.
Proof.
  unfold scan. destruct (read l) as [ch l1] eqn:E1.
  destruct (read_step _ _ _ E1) as [(R1 & -> & ->)|(w & R1 & S1)].
  { cbn. exists []. split; [apply step_refl|]. left. auto. }
  destruct (ch =? eof) eqn:T1.
  { apply N.eqb_eq in T1. subst ch. exists [(eof, w)]. split; [exact S1|]. right. eauto. }
  destruct (ch =? 0x0A) eqn:T2.
  { apply N.eqb_eq in T2. subst ch. exists [(10, w)]. split; [exact S1|]. cbn. eauto. }
  destruct (is_space ch) eqn:T3.
  { destruct (read_while is_sp l) as [s l2] eqn:E2.
    destruct (read_while_spec _ _ _ _ E2) as (c & S2 & -> & F & T).
    exists c. split; [exact S2|]. cbn. intros ->. destruct S2 as [S2 _]. cbn in S2.
    rewrite <- S2, R1 in T. destruct T as [T|(ch' & w' & r' & T & T')]; [discriminate|].
    injection T as <- <- _. destruct T' as [T'|T'].
    - subst ch. discriminate T1.
    - unfold is_sp in T'. rewrite T2, T3 in T'. discriminate. }
  destruct (is_initial_letter ch) eqn:T4.
  { destruct (read_while is_lex_letter l) as [s l2] eqn:E2.
    destruct (read_while_spec _ _ _ _ E2) as (c & S2 & -> & F & T).
    exists c. split; [exact S2|]. cbn. split.
    - intros ->. destruct S2 as [S2 _]. cbn in S2.
      rewrite <- S2, R1 in T. destruct T as [T|(ch' & w' & r' & T & T')]; [discriminate|].
      injection T as <- <- _. destruct T' as [T'|T'].
      + subst ch. discriminate T1.
      + unfold is_lex_letter in T'. rewrite T4 in T'. discriminate.
    - exists (map fst c). split; [reflexivity|]. apply Forall_map.
      eapply Forall_impl; [|exact F]. intros g (_ & G) E. cbn in E. rewrite E in G. vm_compute in G.
      discriminate. }
  destruct (ch =? 0x22) eqn:T5.
  { apply N.eqb_eq in T5. subst ch.
    pose proof (scan_quoted_spec (lx_rest l1) (lx_line l1) false []) as Q.
    destruct (scan_quoted (lx_rest l1) (lx_line l1) false []) as [[s l2]| | | | |]; cbn [bind];
      try contradiction.
    - destruct Q as (sk & b & v & w' & S2 & (-> & ->) & Q).
      exists ([(34, w)] ++ b ++ [(34, w')]). split.
      + eapply step_trans; [exact S1|]. destruct l1. exact S2.
      + cbn. split; [discriminate|]. exists v. split; [reflexivity|]. eapply qbody_no_backslash; eauto.
    - exists w, (lx_rest l1). split; [exact R1|].
      intros b rest v E Hq. apply (Q [] b rest); [exact E|reflexivity|eauto]. }
  destruct (ch =? 0x23) eqn:T6.
  { apply N.eqb_eq in T6. subst ch.
    destruct (scan_comment_spec (S (length (lx_rest l))) l ltac:(lia)) as (l' & c & -> & S2 & Nn).
    cbn. exists c. split; [exact S2|]. eauto. }
  destruct (ch =? 0x3A); [exists [(ch, w)]; split; [exact S1|discriminate]|].
  destruct (ch =? 0x2C); [exists [(ch, w)]; split; [exact S1|discriminate]|].
  destruct (ch =? 0x3D) eqn:T7.
  { apply N.eqb_eq in T7. subst ch. exists [(61, w)]; split; [exact S1|]. cbn. eauto. }
  destruct (ch =? 0x2D) eqn:T8.
  { apply N.eqb_eq in T8. subst ch.
    destruct (read l1) as [ch2 l2] eqn:E2.
    destruct (read_step _ _ _ E2) as [(R2 & -> & ->)|(w2 & R2 & S2)].
    - cbn. split; [reflexivity|]. exists w, (lx_rest l1). split; [exact R1|]. rewrite R2. discriminate.
    - destruct (ch2 =? 0x3E) eqn:T9.
      + apply N.eqb_eq in T9. subst ch2. exists ([(45, w)] ++ [(62, w2)]).
        split; [eapply step_trans; eauto|]. cbn. eauto.
      + split; [reflexivity|]. exists w, (lx_rest l1). split; [exact R1|].
        intros w' r' Q. rewrite R2 in Q. injection Q as -> _ _. discriminate T9. }
  exists [(ch, w)]. split; [exact S1|discriminate].
Qed.

Lemma token_text_pos tok l c : token_text tok l c -> tok <> TEOF -> c <> [].
Proof.
  destruct tok; cbn; intros H N; try congruence; try (destruct H; eauto; congruence);
    try (destruct H as (? & ->); discriminate).
  destruct H as (? & ? & ->). discriminate.
Qed.

Lemma step_length l c l' : step l c l' -> length (lx_rest l) = (length c + length (lx_rest l'))%nat.
Proof. intros [E _]. rewrite E, app_length. reflexivity. Qed.

Lemma scan_shrinks l tok l' : scan l = Ok (tok, l') -> tok <> TEOF ->
  (length (lx_rest l') < length (lx_rest l))%nat.
Proof.
  intros E N. pose proof (scan_spec l) as H. rewrite E in H. destruct H as (c & S & T).
  apply token_text_pos in T; [|exact N]. apply step_length in S. destruct c; [congruence|]. cbn in S. lia.
Qed.

(** ** Parsing without fuel *)

Lemma parse_values_fuel f1 f2 l vs :
  (length (lx_rest l) < f1)%nat -> (length (lx_rest l) < f2)%nat ->
  parse_values f1 l vs = parse_values f2 l vs.
Proof.
  revert f2 l vs. induction f1 as [|f1 IH]; intros [|f2] l vs H1 H2; try lia.
  cbn [parse_values]. destruct (scan l) as [[tok l1]| | | | |] eqn:E; cbn [bind]; try reflexivity.
  destruct tok; try reflexivity;
    (apply IH; apply scan_shrinks in E; [lia|discriminate|lia|discriminate]).
Qed.

Definition pvalues (l : lexer) (vs : list bytes) : res (list bytes * lexer) :=
  parse_values (S (length (lx_rest l))) l vs.

Lemma pvalues_eq l vs :
  pvalues l vs =
  let! '(tok, l1) := scan l in
  match tok with
  | TIllegal _ => Err ErrIllegalToken
  | TEOF => Ok (vs, l1)
  | TNewline => Ok (vs, l1)
  | TString s => pvalues l1 (vs ++ [s])
  | _ => pvalues l1 vs
  end.
Proof.
  unfold pvalues at 1. cbn [parse_values].
  destruct (scan l) as [[tok l1]| | | | |] eqn:E; cbn [bind]; try reflexivity.
  destruct tok; try reflexivity;
    (apply parse_values_fuel; [apply scan_shrinks in E; [lia|discriminate]|lia]).
Qed.

(** Tokens read by the value parser before the one that stops it. *)
Definition vskip (tok : token) : bool :=
  match tok with TIllegal _ | TEOF | TNewline => false | _ => true end.
Definition vadd (tok : token) (vs : list bytes) : list bytes :=
  match tok with TString s => vs ++ [s] | _ => vs end.
Inductive vsteps : lexer -> list bytes -> lexer -> list bytes -> Prop :=
| vs_refl l vs : vsteps l vs l vs
| vs_step l vs tok l1 l2 vs2 : scan l = Ok (tok, l1) -> vskip tok = true ->
    vsteps l1 (vadd tok vs) l2 vs2 -> vsteps l vs l2 vs2.

Lemma pvalues_vsteps l vs l' vs' : vsteps l vs l' vs' -> pvalues l vs = pvalues l' vs'.
Proof.
  induction 1 as [|l vs tok l1 l2 vs2 E K _ IH]; [reflexivity|].
  rewrite pvalues_eq, E, <- IH. destruct tok; try discriminate K; reflexivity.
Qed.

Lemma vsteps_step l vs l' vs' : vsteps l vs l' vs' -> exists c, step l c l'.
Proof.
  induction 1 as [|l vs tok l1 l2 vs2 E K _ (c & IH)]; [eauto using step_refl|].
  pose proof (scan_spec l) as S. rewrite E in S. destruct S as (c1 & S & _). eauto using step_trans.
Qed.

(** What the value parser reads. *)
Lemma pvalues_spec n l vs :
  (length (lx_rest l) < n)%nat ->
  exists l1 vs1, vsteps l vs l1 vs1 /\
  match pvalues l vs with
  | Ok (vs', l') => vs' = vs1 /\ (scan l1 = Ok (TEOF, l') \/ scan l1 = Ok (TNewline, l'))
  | Err e => e = ErrIllegalToken
  | Panic p => scan l1 = Panic p
  | Hang => scan l1 = Hang
  | _ => False
  end.
Proof.
  revert l vs. induction n as [|n IH]; intros l vs Hn; [lia|].
  rewrite pvalues_eq. pose proof (scan_spec l) as S.
  destruct (scan l) as [[tok l1]| |p| | |] eqn:E; cbn [bind]; try contradiction.
  - assert (G : vskip tok = true -> exists l1' vs1, vsteps l vs l1' vs1 /\
      match pvalues l1 (vadd tok vs) with
      | Ok (vs', l') => vs' = vs1 /\ (scan l1' = Ok (TEOF, l') \/ scan l1' = Ok (TNewline, l'))
      | Err e => e = ErrIllegalToken
      | Panic p => scan l1' = Panic p
      | Hang => scan l1' = Hang
      | _ => False
      end).
    { intros K. destruct (IH l1 (vadd tok vs)) as (l2 & vs2 & V & M).
      - assert (Q := scan_shrinks _ _ _ E). specialize (Q ltac:(intros ->; discriminate)). lia.
      - exists l2, vs2. split; [econstructor; eauto|exact M]. }
    destruct tok; try (apply G; reflexivity); exists l, vs; (split; [constructor|]); auto.
  - exists l, vs. split; [constructor|exact E].
  - exists l, vs. split; [constructor|exact E].
Qed.

Lemma pvalues_step l vs vs' l' : pvalues l vs = Ok (vs', l') -> exists c, step l c l'.
Proof.
  intros V. destruct (pvalues_spec _ l vs (Nat.lt_succ_diag_r _)) as (l1 & vs1 & S & M). rewrite V in M.
  destruct M as (_ & M). destruct (vsteps_step _ _ _ _ S) as (c & S1).
  pose proof (scan_spec l1) as Q. destruct M as [M|M]; rewrite M in Q; destruct Q as (c2 & Q & _);
    eauto using step_trans.
Qed.

Lemma parse_loop_fuel f1 f2 l st :
  (length (lx_rest l) < f1)%nat -> (length (lx_rest l) < f2)%nat ->
  parse_hsl_loop f1 l st = parse_hsl_loop f2 l st.
Proof.
  revert f2 l st. induction f1 as [|f1 IH]; intros [|f2] l st H1 H2; try lia.
  cbn [parse_hsl_loop]. destruct (scan l) as [[tok l1]| | | | |] eqn:E; cbn [bind]; try reflexivity.
  assert (Q := scan_shrinks _ _ _ E).
  destruct tok; try reflexivity;
    try (specialize (Q ltac:(discriminate)); apply IH; lia);
    (specialize (Q ltac:(discriminate)); destruct (ps_name st); [reflexivity|];
     fold (pvalues l1 []); pose proof (pvalues_step l1 []) as V;
     destruct (pvalues l1 []) as [[vs l2]| | | | |]; cbn [bind]; try reflexivity;
     destruct (V _ _ eq_refl) as (c & V'); apply step_length in V';
     destruct (add_to _ _ _ _); cbn [bind]; try reflexivity; apply IH; lia).
Qed.

Definition ploop (l : lexer) (st : pstate) : res (hsl * reader) :=
  parse_hsl_loop (S (length (lx_rest l))) l st.

Definition set_last (st : pstate) (s : bytes) : pstate :=
  {| ps_hsl := ps_hsl st; ps_last := s; ps_name := ps_name st; ps_secline := ps_secline st |}.
Definition set_name (st : pstate) (line : Z) : pstate :=
  {| ps_hsl := ps_hsl st; ps_last := ps_last st; ps_name := ps_last st; ps_secline := line |}.
Definition is_arrow (tok : token) : bool := match tok with TArrow => true | _ => false end.

Definition ppair (arrow : bool) (l1 : lexer) (st : pstate) : res (hsl * reader) :=
  match ps_name st with
  | [] => Err ErrPairNotInSection
  | _ =>
    let! '(values, l2) := pvalues l1 [] in
    let! st' := add_to st arrow values (lx_line l1) in
    ploop l2 st'
  end.

Lemma ploop_eq l st :
  ploop l st =
  let! '(tok, l1) := scan l in
  match tok with
  | TIllegal _ => Err ErrIllegalToken
  | TEOF => Ok (ps_hsl st, lx_rest l1)
  | TString s => ploop l1 (set_last st s)
  | TColon => ploop l1 (set_name st (lx_line l1))
  | TEqual | TArrow => ppair (is_arrow tok) l1 st
  | _ => ploop l1 st
  end.
Proof.
  unfold ploop at 1. cbn [parse_hsl_loop].
  destruct (scan l) as [[tok l1]| | | | |] eqn:E; cbn [bind]; try reflexivity.
  assert (Q := scan_shrinks _ _ _ E).
  destruct tok; try reflexivity;
    try (specialize (Q ltac:(discriminate)); apply parse_loop_fuel; lia);
    (specialize (Q ltac:(discriminate)); unfold ppair; destruct (ps_name st); [reflexivity|];
     fold (pvalues l1 []); pose proof (pvalues_step l1 []) as V;
     destruct (pvalues l1 []) as [[vs l2]| | | | |]; cbn [bind]; try reflexivity;
     destruct (V _ _ eq_refl) as (c & V'); apply step_length in V';
     cbn [is_arrow]; destruct (add_to _ _ _ _); cbn [bind]; try reflexivity;
     apply parse_loop_fuel; lia).
Qed.

Lemma parse_hsl_ploop src :
  parse_hsl_src src = ploop {| lx_rest := glyphs src; lx_line := 1 |} pstate0.
Proof. reflexivity. Qed.

(** ** Reading depends only on what is read and the next character *)

Definition same_head (x y : reader) : Prop := y = [] \/ (x <> [] /\ hd_error y = hd_error x).

Lemma same_head_app d x y : d <> [] -> same_head (d ++ x) (d ++ y).
Proof. destruct d; [congruence|]. right. split; [discriminate|reflexivity]. Qed.

Lemma read_while_local test c x y n s n' :
  read_while test {| lx_rest := c ++ x; lx_line := n |} = (s, {| lx_rest := x; lx_line := n' |}) ->
  same_head x y ->
  read_while test {| lx_rest := c ++ y; lx_line := n |} = (s, {| lx_rest := y; lx_line := n' |}).
Proof.
  intros H Hd. destruct (read_while_spec _ _ _ _ H) as (c' & [S1 S2] & -> & F & T).
  cbn in S1, S2, T. apply app_inv_tail in S1. subst c'. rewrite read_while_run; [rewrite S2; reflexivity|exact F|].
  destruct Hd as [->|[Hx Hd]]; [left; reflexivity|].
  destruct T as [T|(ch & w & r & -> & T)]; [congruence|].
  destruct y as [|[ch' w'] y]; [left; reflexivity|]. cbn in Hd. injection Hd as -> ->. right. eauto 6.
Qed.

(** The comment scanner stops right after a run of spaces. *)
Lemma scan_comment_local f f' c x y n n' :
  (length (c ++ x) < f)%nat -> (length (c ++ y) < f')%nat ->
  scan_comment f {| lx_rest := c ++ x; lx_line := n |} = Ok {| lx_rest := x; lx_line := n' |} ->
  same_head x y ->
  scan_comment f' {| lx_rest := c ++ y; lx_line := n |} = Ok {| lx_rest := y; lx_line := n' |}.
Proof.
  revert f' c n. induction f as [|f IH]; intros [|f'] c n Hf Hf' H Hd; try lia.
  cbn [scan_comment] in H |- *.
  destruct (read_while is_sp {| lx_rest := c ++ x; lx_line := n |}) as [s1 [r1 n1]] eqn:E1.
  destruct (read_while_spec _ _ _ _ E1) as (c1 & [A1 B1] & -> & F1 & T1). cbn in A1, B1, T1.
  destruct (read {| lx_rest := r1; lx_line := n1 |}) as [ch l2] eqn:E2.
  destruct (ch =? 0x23) eqn:Ech.
  - apply N.eqb_eq in Ech. subst ch.
    destruct (read_step _ _ _ E2) as [(_ & Q & _)|(w & R1 & S2)]; [discriminate|].
    destruct (read_while is_in_line l2) as [s3 [r3 n3]] eqn:E3.
    destruct (read_while_spec _ _ _ _ E3) as (c3 & S3 & -> & F3 & T3).
    destruct (read {| lx_rest := r3; lx_line := n3 |}) as [ch4 [r4 n4]] eqn:E4.
    assert (X : exists c5, step {| lx_rest := r4; lx_line := n4 |} c5 {| lx_rest := x; lx_line := n' |}).
    { assert (L4 : (length r4 < f)%nat).
      { cbn in R1. destruct S3 as [A3 _]. cbn in A3. rewrite A1, R1, A3 in Hf.
        assert (length r4 <= length r3)%nat.
        { destruct (read_step _ _ _ E4) as [(_ & _ & W)|(w4 & W & _)].
          - injection W as -> _. lia.
          - cbn in W. rewrite W. cbn. lia. }
        repeat (rewrite app_length in Hf; cbn in Hf). lia. }
      destruct (scan_comment_spec f {| lx_rest := r4; lx_line := n4 |} L4) as (l' & c5 & W & S5 & _).
      rewrite H in W. injection W as <-. eauto. }
    destruct X as (c5 & A5 & B5). cbn in A5, B5. subst r4.
    destruct l2 as [r2 n2]. destruct S3 as [A3 B3]. cbn in A3, B3, R1, T3. subst r2.
    assert (G : exists c4, r3 = c4 ++ c5 ++ x /\
                read {| lx_rest := c4 ++ c5 ++ y; lx_line := n3 |} =
                (ch4, {| lx_rest := c5 ++ y; lx_line := n4 |}) /\ (c4 = [] -> c5 = [] /\ x = [])).
    { destruct (read_step _ _ _ E4) as [(W1 & W2 & W3)|(w4 & W & W')].
      - cbn in W1. subst r3. injection W3 as W3 ->. apply app_eq_nil in W3. destruct W3 as [-> ->].
        exists []. split; [reflexivity|]. destruct Hd as [->|[Hd _]]; [|congruence].
        subst ch4. split; [reflexivity|auto].
      - cbn in W. subst r3. exists [(ch4, w4)]. split; [reflexivity|].
        unfold read in E4 |- *. cbn in E4 |- *. injection E4 as <-. split; [reflexivity|discriminate]. }
    destruct G as (c4 & -> & E4' & Hc4).
    assert (Ec : c = c1 ++ (35, w) :: c3 ++ c4 ++ c5).
    { rewrite R1 in A1. apply (app_inv_tail x). rewrite A1. repeat (rewrite <- app_assoc; cbn [app]).
      reflexivity. }
    subst c. rewrite R1 in E1, A1.
    assert (Y1 : read_while is_sp {| lx_rest := (c1 ++ (35, w) :: c3 ++ c4 ++ c5) ++ y; lx_line := n |} =
            (encode (map fst c1), {| lx_rest := (35, w) :: c3 ++ c4 ++ c5 ++ y; lx_line := n1 |})).
    { repeat (rewrite <- app_assoc; cbn [app]). rewrite read_while_run; [rewrite B1; reflexivity|exact F1|].
      right. eauto 8. }
    rewrite Y1. unfold read at 1. cbn [lx_rest]. cbn [N.eqb Pos.eqb].
    assert (n2 = n1).
    { destruct S2 as [_ Q]. cbn in Q. rewrite newlines_cons in Q. change (newlines []) with 0%Z in Q. cbn in Q. lia. }
    subst n2. cbn [lx_line].
    assert (Y3 : read_while is_in_line {| lx_rest := c3 ++ c4 ++ c5 ++ y; lx_line := n1 |} =
            (encode (map fst c3), {| lx_rest := c4 ++ c5 ++ y; lx_line := n3 |})).
    { rewrite read_while_run; [rewrite B3; reflexivity|exact F3|].
      destruct c4 as [|[h wh] c4].
      - destruct (Hc4 eq_refl) as [-> ->]. destruct Hd as [->|[Hd _]]; [|congruence]. left. reflexivity.
      - destruct T3 as [T3|(h' & w' & r' & T3 & T3')]; [discriminate|]. cbn in T3. injection T3 as <- <- _.
        right. cbn. eauto 8. }
    rewrite Y3, E4'. eapply IH; [| |exact H|exact Hd].
    + repeat (rewrite app_length in Hf; cbn in Hf). rewrite app_length. lia.
    + repeat (rewrite app_length in Hf'; cbn in Hf'). rewrite app_length. lia.
  - injection H as -> ->. apply app_inv_tail in A1. subst c1.
    rewrite (read_while_local _ _ _ _ _ _ _ E1 Hd).
    unfold read in E2 |- *. cbn [lx_rest] in E2 |- *.
    destruct Hd as [->|[Hx Hd]]; [reflexivity|]. destruct x as [|[h w] x]; [congruence|].
    destruct y as [|[h' w'] y]; [reflexivity|]. cbn in Hd. injection Hd as -> ->.
    injection E2 as -> _. rewrite Ech. reflexivity.
Qed.

Lemma scan_quoted_local c x y n esc buf s n' :
  scan_quoted (c ++ x) n esc buf = Ok (s, {| lx_rest := x; lx_line := n' |}) ->
  scan_quoted (c ++ y) n esc buf = Ok (s, {| lx_rest := y; lx_line := n' |}).
Proof.
  revert n esc buf. induction c as [|[ch w] c IH]; intros n esc buf H.
  - exfalso. pose proof (scan_quoted_spec x n esc buf) as Q. cbn [app] in H. rewrite H in Q.
    destruct Q as (sk & b & v & w & [S _] & _). cbn in S.
    apply (f_equal (@length _)) in S. repeat (rewrite app_length in S; cbn in S). lia.
  - cbn [app scan_quoted] in H |- *.
    destruct (ch =? 34).
    + destruct esc; [apply IH, H|]. injection H as <- E <-. apply (app_inv_tail x c []) in E. subst c.
      reflexivity.
    + destruct (ch =? 92); [apply IH, H|]. destruct esc; apply IH, H.
Qed.

Lemma scan_local c x y n tok n' :
  scan {| lx_rest := c ++ x; lx_line := n |} = Ok (tok, {| lx_rest := x; lx_line := n' |}) ->
  same_head x y \/ (c <> [] /\ tok = TEOF) ->
  scan {| lx_rest := c ++ y; lx_line := n |} = Ok (tok, {| lx_rest := y; lx_line := n' |}).
Proof.
  intros H Hd. destruct c as [|[ch w] c].
  { pose proof (scan_spec {| lx_rest := [] ++ x; lx_line := n |}) as S. rewrite H in S.
    destruct S as (c & [S S'] & T). cbn in S. apply (app_inv_tail x [] c) in S. subst c.
    assert (tok = TEOF).
    { destruct tok; try reflexivity; apply token_text_pos in T; congruence. }
    subst tok. destruct T as [[_ T]|(w & T)]; [|discriminate]. cbn in T. subst x.
    destruct Hd as [[->|[Hd _]]|[Hd _]]; congruence. }
  cbn [app] in H |- *. unfold scan in H |- *. unfold read at 1 in H. unfold read at 1. cbn [lx_rest lx_line] in H |- *.
  destruct (ch =? eof).
  { injection H as <- E <-. apply (app_inv_tail x c []) in E. subst c. reflexivity. }
  destruct (ch =? 0x0A) eqn:Enl.
  { injection H as <- E <-. apply (app_inv_tail x c []) in E. subst c. reflexivity. }
  destruct (is_space ch).
  { destruct (read_while is_sp _) as [s l2] eqn:E in H. injection H as <- ->.
    destruct Hd as [Hd|[_ Hd]]; [|discriminate].
    change ((ch, w) :: c ++ x) with (((ch, w) :: c) ++ x) in E.
    change ((ch, w) :: c ++ y) with (((ch, w) :: c) ++ y).
    rewrite (read_while_local _ _ _ _ _ _ _ E Hd). reflexivity. }
  destruct (is_initial_letter ch).
  { destruct (read_while is_lex_letter _) as [s l2] eqn:E in H. injection H as <- ->.
    destruct Hd as [Hd|[_ Hd]]; [|discriminate].
    change ((ch, w) :: c ++ x) with (((ch, w) :: c) ++ x) in E.
    change ((ch, w) :: c ++ y) with (((ch, w) :: c) ++ y).
    rewrite (read_while_local _ _ _ _ _ _ _ E Hd). reflexivity. }
  destruct (ch =? 0x22).
  { destruct (scan_quoted (c ++ x) n false []) as [[s l2]| | | | |] eqn:E; try discriminate H.
    cbn [bind] in H. injection H as <- ->. rewrite (scan_quoted_local _ _ _ _ _ _ _ _ E). reflexivity. }
  destruct (ch =? 0x23).
  { destruct (scan_comment _ _) as [l2| | | | |] eqn:E in H; try discriminate H.
    cbn [bind] in H. injection H as <- ->. destruct Hd as [Hd|[_ Hd]]; [|discriminate].
    change ((ch, w) :: c ++ x) with (((ch, w) :: c) ++ x) in E.
    change ((ch, w) :: c ++ y) with (((ch, w) :: c) ++ y).
    rewrite (scan_comment_local _ (S (length (((ch, w) :: c) ++ y))) _ _ _ _ _ ltac:(apply Nat.lt_succ_diag_r)
               ltac:(apply Nat.lt_succ_diag_r) E Hd). reflexivity. }
  destruct (ch =? 0x3A); [injection H as <- E <-; apply (app_inv_tail x c []) in E; subst c; reflexivity|].
  destruct (ch =? 0x2C); [injection H as <- E <-; apply (app_inv_tail x c []) in E; subst c; reflexivity|].
  destruct (ch =? 0x3D); [injection H as <- E <-; apply (app_inv_tail x c []) in E; subst c; reflexivity|].
  destruct (ch =? 0x2D).
  { destruct c as [|[ch2 w2] c].
    - exfalso. unfold read in H. cbn in H. destruct x as [|[ch2 w2] x]; [discriminate H|].
      destruct (ch2 =? 62); [|discriminate H]. cbn in H. injection H as _ E _.
      apply (f_equal (@length _)) in E. cbn in E. lia.
    - unfold read in H |- *. cbn [app lx_rest lx_line] in H |- *. destruct (ch2 =? 62); [|discriminate H].
      injection H as <- E <-. apply (app_inv_tail x c []) in E. subst c. reflexivity. }
  injection H as <- E <-; apply (app_inv_tail x c []) in E; subst c; reflexivity.
Qed.

Lemma pvalues_local k c x y n vs vs' n' :
  (length (c ++ x) < k)%nat ->
  pvalues {| lx_rest := c ++ x; lx_line := n |} vs = Ok (vs', {| lx_rest := x; lx_line := n' |}) ->
  same_head x y ->
  pvalues {| lx_rest := c ++ y; lx_line := n |} vs = Ok (vs', {| lx_rest := y; lx_line := n' |}).
Proof.
  revert c n vs. induction k as [|k IH]; intros c n vs Hk H Hd; [lia|].
  rewrite pvalues_eq in H |- *.
  destruct (scan {| lx_rest := c ++ x; lx_line := n |}) as [[tok [r1 n1]]| | | | |] eqn:E; try discriminate H.
  cbn [bind] in H.
  pose proof (scan_spec {| lx_rest := c ++ x; lx_line := n |}) as S. rewrite E in S.
  destruct S as (c1 & [S1 S2] & T). cbn in S1, S2.
  assert (G : exists d, r1 = d ++ x).
  { assert (V : forall vs0, pvalues {| lx_rest := r1; lx_line := n1 |} vs0 =
                        Ok (vs', {| lx_rest := x; lx_line := n' |}) -> exists d, r1 = d ++ x).
    { intros vs0 V. destruct (pvalues_step _ _ _ _ V) as (d & [P _]). exists d. exact P. }
    destruct tok; try discriminate H; eauto; injection H as _ -> _; exists []; reflexivity. }
  destruct G as (d & ->).
  assert (c = c1 ++ d) by (rewrite app_assoc in S1; apply app_inv_tail in S1; exact S1). subst c.
  assert (Hd' : same_head (d ++ x) (d ++ y)).
  { destruct d; [exact Hd|]. apply same_head_app. discriminate. }
  rewrite <- !app_assoc in *. rewrite (scan_local _ _ _ _ _ _ E (or_introl Hd')). cbn [bind].
  assert (Hs := scan_shrinks _ _ _ E). cbn in Hs.
  destruct tok; try discriminate H;
    try (apply IH; [specialize (Hs ltac:(discriminate)); lia|exact H|exact Hd]);
    (injection H as <- H <-; apply (app_inv_tail x d []) in H; subst d; reflexivity).
Qed.

(** ** Steps of the main loop *)

Definition skipped (tok : token) : bool :=
  match tok with TSpace | TComment | TNewline | TComma => true | _ => false end.
Definition is_op (tok : token) : bool :=
  match tok with TEqual | TArrow => true | _ => false end.

Inductive mstep : lexer -> pstate -> lexer -> pstate -> Prop :=
| ms_skip l st tok l1 : scan l = Ok (tok, l1) -> skipped tok = true -> mstep l st l1 st
| ms_string l st s l1 : scan l = Ok (TString s, l1) -> mstep l st l1 (set_last st s)
| ms_colon l st l1 : scan l = Ok (TColon, l1) -> mstep l st l1 (set_name st (lx_line l1))
| ms_pair l st tok l1 vs l2 st' :
    scan l = Ok (tok, l1) -> is_op tok = true -> ps_name st <> [] ->
    pvalues l1 [] = Ok (vs, l2) -> add_to st (is_arrow tok) vs (lx_line l1) = Ok st' ->
    mstep l st l2 st'.

Inductive msteps : lexer -> pstate -> lexer -> pstate -> Prop :=
| mss_refl l st : msteps l st l st
| mss_step l st l1 st1 l2 st2 : mstep l st l1 st1 -> msteps l1 st1 l2 st2 -> msteps l st l2 st2.

Lemma ploop_mstep l st l' st' : mstep l st l' st' -> ploop l st = ploop l' st'.
Proof.
  intros H. destruct H as [l st tok l1 E K|l st s l1 E|l st l1 E|l st tok l1 vs l2 st' E K N V A];
    rewrite (ploop_eq l), E; cbn [bind].
  - destruct tok; try discriminate K; reflexivity.
  - reflexivity.
  - reflexivity.
  - assert (ppair (is_arrow tok) l1 st = ploop l2 st').
    { unfold ppair. destruct (ps_name st); [congruence|]. rewrite V. cbn [bind]. rewrite A. reflexivity. }
    destruct tok; try discriminate K; assumption.
Qed.
Lemma ploop_msteps l st l' st' : msteps l st l' st' -> ploop l st = ploop l' st'.
Proof. induction 1; [reflexivity|]. erewrite ploop_mstep; eauto. Qed.

Lemma mstep_step l st l' st' : mstep l st l' st' -> exists c, c <> [] /\ step l c l'.
Proof.
  assert (B : forall l tok l1, scan l = Ok (tok, l1) -> tok <> TEOF -> exists c, c <> [] /\ step l c l1).
  { intros l0 tok l1 E N. pose proof (scan_spec l0) as S. rewrite E in S. destruct S as (c & S & T).
    exists c. split; [|exact S]. eapply token_text_pos; eauto. }
  intros H. destruct H as [l st tok l1 E K|l st s l1 E|l st l1 E|l st tok l1 vs l2 st' E K N V A];
    try (eapply B; [exact E|]; destruct tok; discriminate); try (eapply B; [exact E|discriminate]).
  destruct (B _ _ _ E) as (c & N1 & S1); [destruct tok; discriminate|].
  destruct (pvalues_step _ _ _ _ V) as (c2 & S2).
  exists (c ++ c2). split; [destruct c; [congruence|discriminate]|]. eapply step_trans; eauto.
Qed.
Lemma msteps_step l st l' st' : msteps l st l' st' -> exists c, step l c l'.
Proof.
  induction 1 as [|l st l1 st1 l2 st2 H _ (c & IH)]; [eauto using step_refl|].
  destruct (mstep_step _ _ _ _ H) as (c1 & _ & S1). eauto using step_trans.
Qed.
Lemma msteps_trans l st l1 st1 l2 st2 :
  msteps l st l1 st1 -> msteps l1 st1 l2 st2 -> msteps l st l2 st2.
Proof. induction 1; intros; [assumption|]. econstructor; eauto. Qed.

(** Places where a token is asked for while the loop is at [l]: there, or in the
    values of the pair whose operator is there. *)
Definition asks (l : lexer) (st : pstate) (l2 : lexer) : Prop :=
  l2 = l \/
  exists tok l1 vs, scan l = Ok (tok, l1) /\ is_op tok = true /\ ps_name st <> [] /\ vsteps l1 [] l2 vs.

(** How the loop ends. *)
Inductive ends (l : lexer) (st : pstate) : res (hsl * reader) -> Prop :=
| ends_eof l1 : scan l = Ok (TEOF, l1) -> ends l st (Ok (ps_hsl st, lx_rest l1))
| ends_illegal : ends l st (Err ErrIllegalToken)
| ends_section : ps_name st = [] -> ends l st (Err ErrPairNotInSection)
| ends_arrow l2 p : asks l st l2 -> scan l2 = Panic p -> ends l st (Panic p)
| ends_hang l2 : asks l st l2 -> scan l2 = Hang -> ends l st Hang
| ends_duplicate tok l1 vs l2 : scan l = Ok (tok, l1) -> is_op tok = true -> ps_name st <> [] ->
    pvalues l1 [] = Ok (vs, l2) -> add_to st (is_arrow tok) vs (lx_line l1) = Panic PAddPair ->
    ends l st (Panic PAddPair).

Lemma add_to_outcome st a vs n : (exists st', add_to st a vs n = Ok st') \/ add_to st a vs n = Panic PAddPair.
Proof. unfold add_to. destruct (add_pair _ _); eauto. Qed.

Lemma ploop_run_n k l st : (length (lx_rest l) < k)%nat ->
  exists l' st', msteps l st l' st' /\ ends l' st' (ploop l st).
Proof.
  revert l st. induction k as [|k IH]; intros l st Hk; [lia|].
  assert (G : forall l' st', mstep l st l' st' ->
            exists l' st', msteps l st l' st' /\ ends l' st' (ploop l st)).
  { intros l' st' M. destruct (mstep_step _ _ _ _ M) as (c & N & S). apply step_length in S.
    destruct c; [congruence|]. cbn in S. destruct (IH l' st' ltac:(lia)) as (l2 & st2 & A & B).
    exists l2, st2. split; [econstructor; eauto|]. rewrite (ploop_mstep _ _ _ _ M). exact B. }
  pose proof (scan_spec l) as S. pose proof (ploop_eq l st) as Q.
  destruct (scan l) as [[tok l1]| |p| | |] eqn:E; cbn [bind] in Q; try contradiction.
  - destruct tok;
      try (exact (G _ _ (ms_skip _ _ _ _ E eq_refl)));
      try (exact (G _ _ (ms_string _ _ _ _ E)));
      try (exact (G _ _ (ms_colon _ _ _ E))).
    + rewrite Q. exists l, st. split; constructor.
    + rewrite Q. exists l, st. split; [constructor|]. constructor. exact E.
    + unfold ppair in Q. destruct (ps_name st) as [|nm0 nm] eqn:Enm.
      { rewrite Q. exists l, st. split; [constructor|]. constructor. exact Enm. }
      assert (Hn : ps_name st <> []) by congruence.
      destruct (pvalues_spec _ l1 [] (Nat.lt_succ_diag_r _)) as (lv & vv & Sv & P).
      assert (As : asks l st lv).
      { right. exists TEqual, l1, vv. auto. }
      destruct (pvalues l1 []) as [[vs l2]| |p| | |] eqn:V; cbn [bind] in Q; try contradiction.
      * destruct (add_to_outcome st false vs (lx_line l1)) as [(st' & A)|A].
        -- eapply G, (ms_pair _ _ _ _ _ _ _ E eq_refl); [exact Hn|exact V|exact A].
        -- cbn [is_arrow] in Q. rewrite A in Q. cbn [bind] in Q. rewrite Q.
           exists l, st. split; [constructor|]. eapply (ends_duplicate _ _ TEqual); eauto.
      * subst e. rewrite Q. exists l, st. split; constructor.
      * rewrite Q. exists l, st. split; [constructor|]. eapply ends_arrow; eauto.
      * rewrite Q. exists l, st. split; [constructor|]. eapply ends_hang; eauto.
    + unfold ppair in Q. destruct (ps_name st) as [|nm0 nm] eqn:Enm.
      { rewrite Q. exists l, st. split; [constructor|]. constructor. exact Enm. }
      assert (Hn : ps_name st <> []) by congruence.
      destruct (pvalues_spec _ l1 [] (Nat.lt_succ_diag_r _)) as (lv & vv & Sv & P).
      assert (As : asks l st lv).
      { right. exists TArrow, l1, vv. auto. }
      destruct (pvalues l1 []) as [[vs l2]| |p| | |] eqn:V; cbn [bind] in Q; try contradiction.
      * destruct (add_to_outcome st true vs (lx_line l1)) as [(st' & A)|A].
        -- eapply G, (ms_pair _ _ _ _ _ _ _ E eq_refl); [exact Hn|exact V|exact A].
        -- cbn [is_arrow] in Q. rewrite A in Q. cbn [bind] in Q. rewrite Q.
           exists l, st. split; [constructor|]. eapply (ends_duplicate _ _ TArrow); eauto.
      * subst e. rewrite Q. exists l, st. split; constructor.
      * rewrite Q. exists l, st. split; [constructor|]. eapply ends_arrow; eauto.
      * rewrite Q. exists l, st. split; [constructor|]. eapply ends_hang; eauto.
  - rewrite Q. exists l, st. split; [constructor|]. eapply ends_arrow; [left; reflexivity|exact E].
  - rewrite Q. exists l, st. split; [constructor|]. eapply ends_hang; [left; reflexivity|exact E].
Qed.

Lemma ploop_run l st : exists l' st', msteps l st l' st' /\ ends l' st' (ploop l st).
Proof. apply (ploop_run_n (S (length (lx_rest l)))). lia. Qed.

(** The same steps on a text that goes on differently. *)
Lemma mstep_local d x y l st n' st' c n :
  l = {| lx_rest := c ++ d ++ x; lx_line := n |} ->
  mstep l st {| lx_rest := d ++ x; lx_line := n' |} st' ->
  same_head (d ++ x) (d ++ y) ->
  mstep {| lx_rest := c ++ d ++ y; lx_line := n |} st {| lx_rest := d ++ y; lx_line := n' |} st'.
Proof.
  intros El M Hd. remember {| lx_rest := d ++ x; lx_line := n' |} as l' eqn:El'.
  destruct M as [l st tok l1 E K|l st s l1 E|l st l1 E|l st tok l1 vs l2 st' E K N V A]; subst.
  - eapply ms_skip; [|exact K]. eapply scan_local; [exact E|left; exact Hd].
  - eapply ms_string. eapply scan_local; [exact E|left; exact Hd].
  - cbn. eapply (ms_colon _ _ {| lx_rest := d ++ y; lx_line := n' |}).
    eapply scan_local; [exact E|left; exact Hd].
  - pose proof (scan_spec {| lx_rest := c ++ d ++ x; lx_line := n |}) as S. rewrite E in S.
    destruct S as (c1 & [S1 S2] & T). destruct l1 as [r1 n1].
    destruct (pvalues_step _ _ _ _ V) as (c2 & [P1 P2]). cbn in S1, S2, P1, P2. subst r1.
    assert (c = c1 ++ c2).
    { apply (app_inv_tail (d ++ x)). rewrite <- app_assoc. exact S1. }
    subst c. rewrite <- !app_assoc in *.
    assert (Hd2 : same_head (c2 ++ d ++ x) (c2 ++ d ++ y)).
    { destruct c2; [exact Hd|]. apply same_head_app. discriminate. }
    eapply (ms_pair _ _ _ {| lx_rest := c2 ++ d ++ y; lx_line := n1 |}).
    + eapply scan_local; [exact E|left; exact Hd2].
    + exact K.
    + exact N.
    + eapply pvalues_local; [apply Nat.lt_succ_diag_r|exact V|exact Hd].
    + exact A.
Qed.

Lemma msteps_local d x y l st l' st' c n n' :
  msteps l st l' st' ->
  l = {| lx_rest := c ++ d ++ x; lx_line := n |} -> l' = {| lx_rest := d ++ x; lx_line := n' |} ->
  same_head (d ++ x) (d ++ y) ->
  msteps {| lx_rest := c ++ d ++ y; lx_line := n |} st {| lx_rest := d ++ y; lx_line := n' |} st'.
Proof.
  intros M. revert c n. induction M as [l st|l st l1 st1 l2 st2 M Ms IH]; intros c n El El' Hd; subst.
  - injection El' as El' <-. apply (app_inv_tail (d ++ x) c []) in El'. subst c. constructor.
  - destruct (mstep_step _ _ _ _ M) as (c1 & _ & S1). destruct (msteps_step _ _ _ _ Ms) as (c2 & S2).
    destruct l1 as [r1 n1]. destruct S1 as [S1 S1'], S2 as [S2 S2']. cbn in S1, S2. subst r1.
    assert (c = c1 ++ c2).
    { apply (app_inv_tail (d ++ x)). rewrite <- app_assoc. exact S1. }
    subst c. rewrite <- !app_assoc in *.
    econstructor.
    + assert (X := mstep_local (c2 ++ d) x y). rewrite <- !app_assoc in X.
      eapply X; [reflexivity|exact M|]. destruct c2; [exact Hd|]. apply same_head_app. discriminate.
    + apply IH; auto.
Qed.
