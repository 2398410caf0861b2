(** Parsing an expression whose variables have been expanded into groups of their values. *)
From Coq Require Import String.
From Verif Require Import GoBase Utf8 Utf8Facts Replacer Regex RegexSpec RegexFacts CaptureFacts RegexParse
  ParseFacts ReplaceFacts Hre FindFacts RuleFacts HslInv SourceFacts PatternFacts SrcFacts FindSrc VarFacts.
Open Scope N_scope.

(** ** Quoted values *)
Definition quote_text (v : list rune) : list rune := flat_map (fun r => if is_meta r then [0x5C; r] else [r]) v.
Lemma meta_ascii r : is_meta r = true -> r < 0x80.
Proof.
  unfold is_meta, nmem; cbn [existsb]; rewrite !orb_true_iff, !N.eqb_eq; unfold rune in *; lia.
Qed.
Lemma quote_meta_text v : quote_meta (encode v) = encode (quote_text v).
Proof.
  induction v as [|r v IH]; [reflexivity|]; change (r :: v) with ([r] ++ v).
  rewrite encode_app; unfold quote_meta, quote_text in *; rewrite !flat_map_app, IH, encode_app; f_equal.
  cbn [encode flat_map]; rewrite !app_nil_r.
  destruct (is_meta r) eqn:E.
  - rewrite (encode_ascii r) by (apply meta_ascii; exact E); cbn [flat_map]; rewrite E, app_nil_r.
    cbn [flat_map app]; rewrite (encode_ascii r) by (apply meta_ascii; exact E); reflexivity.
  - cbn [flat_map]; rewrite app_nil_r; destruct (N.ltb_spec r 0x80) as [Hlt|Hge].
    + rewrite encode_ascii by exact Hlt; cbn [flat_map]; rewrite E; reflexivity.
    + pose proof (encode_high r Hge) as H; induction H as [|b l Hb Hl IHl]; [reflexivity|].
      cbn [flat_map]; destruct (is_meta b) eqn:Eb; [apply meta_ascii in Eb; lia|]; cbn [app]; f_equal; exact IHl.
Qed.

Definition lits (v : list rune) : list re := map (fun r => RLit [r]) v.
Lemma parse_quoted v u o cur n :
  parse_all (quote_text v ++ u) o cur n false =
  parse_all u o {| f_cap := f_cap cur; f_alts := f_alts cur; f_cur := rev (lits v) ++ f_cur cur |} n false.
Proof.
  revert cur; induction v as [|r v IH]; intros cur.
  - destruct cur; reflexivity.
  - change (quote_text (r :: v)) with ((if is_meta r then [0x5C; r] else [r]) ++ quote_text v).
    assert (parse_all ((if is_meta r then [0x5C; r] else [r]) ++ quote_text v ++ u) o cur n false =
            parse_all (quote_text v ++ u) o (push cur (RLit [r])) n false) as H.
    { destruct (is_meta r) eqn:E; cbn [app]; rewrite parse_all_step.
      - unfold pstep; change (0x5C =? 0x28) with false; change (0x5C =? 0x7C) with false.
        change (0x5C =? 0x29) with false; change (0x5C =? 0x5E) with false; change (0x5C =? 0x24) with false.
        change (0x5C =? 0x2E) with false; change (0x5C =? 0x5B) with false; change (0x5C =? 0x2A) with false.
        change (0x5C =? 0x2B) with false; change (0x5C =? 0x3F) with false; change (0x5C =? 0x7B) with false.
        change (0x5C =? 0x5C) with true; cbn [orb].
        assert (forall A (x : res A) (t : list rune), 
                  (r =? 0x41) = false /\ (r =? 0x7A) = false /\ nmem r [0x62; 0x42; 0x51; 0x70; 0x50] = false /\
                  perl_class r = None /\ parse_escape (r :: t) = Ok (r, t)) as Hp.
        { intros _ _ t; revert E; unfold is_meta, nmem; cbn [existsb]; rewrite !orb_true_iff, !N.eqb_eq; intros E.
          repeat destruct E as [->|E]; try discriminate E; repeat split; reflexivity. }
        destruct (Hp unit Hang (quote_text v ++ u)) as (-> & -> & -> & -> & He).
        match goal with |- context [parse_escape ?x] => change (parse_escape x) with (parse_escape (r :: quote_text v ++ u)) end.
        rewrite He; reflexivity.
      - assert (pstep r (quote_text v ++ u) o cur n false
                = Ok (quote_text v ++ u, o, push cur (RLit [r]), n, false)) as ->; [|reflexivity].
        unfold is_meta, nmem in E; cbn [existsb] in E; repeat rewrite orb_false_iff in E.
        unfold pstep; destruct E as (E1 & E2 & E3 & E4 & E5 & E6 & E7 & E8 & E9 & E10 & E11 & E12 & E13 & E14 & _).
        rewrite E1, E2, E3, E4, E5, E6, E7, E8, E9, E11, E13, E14; reflexivity. }
    rewrite <- app_assoc; refine (eq_trans H _); rewrite IH; unfold push; cbn [f_cap f_alts f_cur].
    change (rev (lits (r :: v))) with (rev (lits v) ++ [RLit [r]]); rewrite <- app_assoc; reflexivity.
Qed.

(** The values of a variable, one of them at least, as they stand in the expression. *)
Fixpoint alts_text (v : list rune) (vals : list (list rune)) : list rune :=
  match vals with
  | [] => quote_text v
  | v' :: vals' => quote_text v ++ 0x7C :: alts_text v' vals'
  end.
Lemma alts_join v vals : join (lit "|") (map quote_meta (map encode (v :: vals))) = encode (alts_text v vals).
Proof.
  revert v; induction vals as [|v' vals IH]; intros v.
  - cbn [map join alts_text]; apply quote_meta_text.
  - cbn [alts_text].
    change (join (lit "|") (map quote_meta (map encode (v :: v' :: vals))))
      with (quote_meta (encode v) ++ lit "|" ++ join (lit "|") (map quote_meta (map encode (v' :: vals)))).
    rewrite IH, quote_meta_text, encode_app; f_equal.
Qed.
Lemma parse_alts v vals o cur n u :
  parse_all (alts_text v vals ++ 0x29 :: u) (o) {| f_cap := f_cap cur; f_alts := f_alts cur; f_cur := [] |} n false =
  parse_all (0x29 :: u) o
    {| f_cap := f_cap cur;
       f_alts := rev (map seq_of (map lits (removelast (v :: vals)))) ++ f_alts cur;
       f_cur := rev (lits (last (v :: vals) [])) |} n false.
Proof.
  revert v cur; induction vals as [|v' vals IH]; intros v cur.
  - cbn [alts_text]; rewrite parse_quoted; cbn [f_cap f_alts f_cur]; rewrite app_nil_r; reflexivity.
  - cbn [alts_text]; rewrite <- app_assoc, parse_quoted; cbn [f_cap f_alts f_cur]; rewrite app_nil_r.
    rewrite <- app_comm_cons, parse_all_step.
    unfold pstep; change (0x7C =? 0x28) with false; change (0x7C =? 0x7C) with true; cbn [bind f_cap f_alts f_cur].
    pose proof (IH v' {| f_cap := f_cap cur; f_alts := mk_cat (rev (lits v)) :: f_alts cur; f_cur := [] |}) as H.
    cbn [f_cap f_alts] in H; refine (eq_trans H _); f_equal; f_equal.
    change (removelast (v :: v' :: vals)) with (v :: removelast (v' :: vals)); cbn [map rev]; rewrite <- app_assoc; reflexivity.
Qed.

Definition val_tree (v : list rune) (vals : list (list rune)) : re := alt_of (map lits (v :: vals)).
Lemma finish_vals v vals i :
  finish {| f_cap := i; f_alts := rev (map seq_of (map lits (removelast (v :: vals))));
            f_cur := rev (lits (last (v :: vals) [])) |} = val_tree v vals.
Proof.
  destruct vals as [|v' vals]; [reflexivity|].
  assert (forall a c, a <> [] -> finish {| f_cap := i; f_alts := a; f_cur := c |} = RAlt (rev a ++ [mk_cat c])) as Hf.
  { intros a c Ha; unfold finish; cbn [f_alts f_cur]; destruct a; [contradiction|reflexivity]. }
  rewrite Hf.
  2:{ change (removelast (v :: v' :: vals)) with (v :: removelast (v' :: vals)); cbn [map rev].
      destruct (rev (map seq_of (map lits (removelast (v' :: vals))))); discriminate. }
  rewrite rev_involutive; unfold val_tree.
  change (alt_of (map lits (v :: v' :: vals))) with (RAlt (map seq_of (map lits (v :: v' :: vals)))); f_equal.
  transitivity (map seq_of (map lits (removelast (v :: v' :: vals) ++ [last (v :: v' :: vals) []]))).
  - rewrite !map_app; reflexivity.
  - rewrite <- app_removelast_last by discriminate; reflexivity.
Qed.
Lemma parse_value_group v vals o cur k lr u :
  parse_all (0x28 :: alts_text v vals ++ 0x29 :: u) o cur k lr =
  parse_all u o (push cur (RCap (S k) (val_tree v vals))) (S k) false.
Proof.
  rewrite parse_all_step; unfold pstep; change (0x28 =? 0x28) with true.
  assert (exists q t2, alts_text v vals ++ 0x29 :: u = q :: t2 /\ q <> 0x3F) as (q & t2 & E & Hq).
  { assert (forall t', exists q t2, quote_text v ++ 0x29 :: t' = q :: t2 /\ q <> 0x3F) as Hv.
    { intros t'; destruct v as [|r v]; [exists 0x29, t'; split; [reflexivity|discriminate]|].
      change (quote_text (r :: v)) with ((if is_meta r then [0x5C; r] else [r]) ++ quote_text v).
      destruct (is_meta r) eqn:Er; cbn [app]; eexists; eexists; (split; [reflexivity|]); [discriminate|].
      intros ->; discriminate. }
    destruct vals as [|v' vals]; cbn [alts_text]; [apply Hv|].
    rewrite <- app_assoc; destruct v as [|r v]; [exists 0x7C; eexists; split; [reflexivity|discriminate]|].
    change (quote_text (r :: v)) with ((if is_meta r then [0x5C; r] else [r]) ++ quote_text v).
    destruct (is_meta r) eqn:Er; cbn [app]; eexists; eexists; (split; [reflexivity|]); [discriminate|].
    intros ->; discriminate. }
  rewrite E; destruct (N.eqb_spec q 0x3F) as [->|_]; [contradiction|]; cbn [bind]; rewrite <- E.
  pose proof (parse_alts v vals (cur :: o) {| f_cap := Some (S k); f_alts := []; f_cur := [] |} (S k) u) as H.
  cbn [f_cap f_alts] in H; rewrite app_nil_r in H; rewrite H.
  rewrite parse_all_step; unfold pstep; change (0x29 =? 0x28) with false; change (0x29 =? 0x7C) with false.
  change (0x29 =? 0x29) with true; cbn [bind]; unfold group_of; cbn [f_cap]; rewrite finish_vals; reflexivity.
Qed.

(** ** Pieces of the body between the variables

    A piece is a sequence on its own: it opens no bracket which it does not close, has no
    capturing groups and no alternatives at the top; [r] is its tree. *)
Definition piece (t : list rune) (r : re) : Prop :=
  parse_from 0 (edges t) = Ok (r, O) /\
  exists its, parse_from 0 (edges t ++ txt "()()") = Ok (RCat (its ++ [RCap 1 REmpty; RCap 2 REmpty]), 2%nat).

Lemma piece_items t r : piece t r ->
  exists its, r = seq_of its /\ recaps r = [] /\
    forall k u xs, stops u -> exists lr,
      parse_all (edges t ++ u) [] {| f_cap := None; f_alts := []; f_cur := rev xs |} k false =
      parse_all u [] {| f_cap := None; f_alts := []; f_cur := rev (xs ++ its) |} k lr.
Proof.
  intros (Hp & its & Hits).
  assert (recaps r = []) as Hr.
  { destruct (parse_from_caps _ _ _ _ Hp) as [_ Hc]; exact (caps_in_none _ _ Hc). }
  exists its.
  assert (forall k, exists b lr', finish b = r /\ f_alts b = [] /\ f_cur b = rev its /\
    forall u xs, stops u -> parse_all (edges t ++ u) [] {| f_cap := None; f_alts := []; f_cur := rev xs |} k false =
      parse_all u [] {| f_cap := None; f_alts := []; f_cur := rev (xs ++ its) |} k lr') as Hk.
  { intros k; pose proof (parse_from_bump k _ _ _ Hp) as Hpk; rewrite (bump_nocaps k r Hr), Nat.add_0_r in Hpk.
    pose proof (parse_from_bump k _ _ _ Hits) as Hik.
    destruct (parse_run _ _ _ _ _ _ _ Hpk) as (b & lr' & Hb & Hc & Hrun & Hpre); cbn [last] in Hc.
    assert (forall its', parse_all (txt "()()") [] b k lr' = Ok (RCat (its' ++ [RCap (k + 1) REmpty; RCap (k + 2) REmpty]), (k + 2)%nat) ->
      f_alts b = [] /\ f_cur b = rev its') as Hb2.
    { intros its' H; change (txt "()()") with (0x28 :: [] ++ 0x29 :: 0x28 :: [] ++ 0x29 :: []) in H.
      rewrite (parse_group k [] REmpty (S k) _ _ _ _ eq_refl), (parse_group (S k) [] REmpty (S (S k)) _ _ _ _ eq_refl) in H.
      change (parse_all [] [] (push (push b (RCap (S k) REmpty)) (RCap (S (S k)) REmpty)) (S (S k)) false)
        with (@Ok (re * nat) (finish (push (push b (RCap (S k) REmpty)) (RCap (S (S k)) REmpty)), S (S k))) in H.
      apply (f_equal (fun x => match x with Ok (y, _) => y | _ => REmpty end)) in H.
      unfold finish, push in H; cbn [f_alts f_cur] in H.
      destruct (f_alts b) as [|a l]; [split; [reflexivity|]|discriminate].
      unfold mk_cat in H; injection H as H; cbn [rev] in H; rewrite <- app_assoc in H; cbn [app] in H.
      apply (f_equal (@rev _)) in H; rewrite !rev_app_distr, rev_involutive in H; cbn [rev app] in H.
      injection H as _ _ H; exact H. }
    assert (map (bump k) its = its) as Eb.
    { pose proof (Hrun (txt "()()") [] (stops_open _)) as H; rewrite app_nil_r in H.
      unfold parse_from in Hik; cbn [app] in Hik.
      assert (parse_all (txt "()()") [] b k lr' = Ok (RCat (map (bump k) its ++ [RCap (k + 1) REmpty; RCap (k + 2) REmpty]), (k + 2)%nat)) as H2.
      { refine (eq_trans (eq_sym H) _); refine (eq_trans Hik _); cbn [bump]; rewrite map_app; reflexivity. }
      destruct (Hb2 _ H2) as [Ha Hcur].
      assert (flat_map recaps (map (bump k) its) = []) as Hflat.
      { rewrite <- Hr, <- Hb; unfold finish; rewrite Ha, Hcur; change (mk_cat (rev (map (bump k) its))) with (seq_of (map (bump k) its)).
        symmetry; apply recaps_seq. }
      clear -Hflat; induction its as [|x its IH]; [reflexivity|]; cbn [map flat_map] in *.
      apply app_eq_nil in Hflat; destruct Hflat as [H1 H2]; rewrite IH by exact H2; f_equal.
      apply bump_nocaps.
      assert (forall r, map fst (recaps (bump k r)) = map (fun e => (k + fst e)%nat) (recaps r)) as Hcaps.
      { clear; induction r as [| |rs|ranges| | | | |i r IH|g r IH|g r IH|g r IH|g mn mx r IH|l IH|l IH] using re_ind';
          cbn [bump recaps map fst]; try reflexivity; try exact IH; try (rewrite IH; reflexivity).
        - induction IH as [|r l Hr Hl IHl]; [reflexivity|]; cbn [map flat_map]; rewrite !map_app, Hr; f_equal; exact IHl.
        - induction IH as [|r l Hr Hl IHl]; [reflexivity|]; cbn [map flat_map]; rewrite !map_app, Hr; f_equal; exact IHl. }
      specialize (Hcaps x); rewrite H1 in Hcaps; destruct (recaps x); [reflexivity|discriminate]. }
    pose proof (Hrun (txt "()()") [] (stops_open _)) as H; rewrite app_nil_r in H.
    assert (f_alts b = [] /\ f_cur b = rev its) as [Ha Hcur].
    { apply Hb2; refine (eq_trans (eq_sym H) _); refine (eq_trans Hik _); cbn [bump]; rewrite map_app, Eb; reflexivity. }
    exists b, lr'; split; [exact Hb|]; split; [exact Ha|]; split; [exact Hcur|]; intros u xs Hu.
    destruct (Hpre xs [] {| f_cap := None; f_alts := []; f_cur := rev xs |}) as (b' & Hpf & Hc' & _ & Hr').
    { constructor; apply (pf_cur xs None None []). }
    specialize (Hr' u [] Hu); cbn [app] in Hr'; rewrite Hr'.
    inversion Hpf as [cap cap' cur E1 E2|cap cap' alts its' cur E1 E2]; subst.
    - cbn [f_cur f_cap last] in *; subst; rewrite rev_app_distr; reflexivity.
    - cbn [f_alts] in Ha; destruct alts; discriminate. }
  split; [|split; [exact Hr|]].
  - destruct (Hk O) as (b & _ & Hb & Ha & Hc & _); rewrite <- Hb; unfold finish; rewrite Ha, Hc; reflexivity.
  - intros k u xs Hu; destruct (Hk k) as (b & lr & _ & _ & _ & H); exists lr; apply H; exact Hu.
Qed.

(** ** Whole bodies *)

(** A body is a list of pieces, each followed by the values of a variable (one at least),
    and a last piece. *)
Record slot := Slot { sl_text : list rune; sl_val : list rune; sl_vals : list (list rune) }.
Definition sl_all (s : slot) : list (list rune) := sl_val s :: sl_vals s.
Definition slot_text (s : slot) : list rune := sl_text s ++ 0x28 :: alts_text (sl_val s) (sl_vals s) ++ [0x29].
Definition body_text (l : list slot) (t : list rune) : list rune := flat_map slot_text l ++ t.

(** Characters of values which mean nothing to the engine when quoted. *)
Definition val_char (r : rune) : Prop :=
  is_scalar r = true /\ r <> rune_error /\ r <> 0x5E /\ r <> 0x24 /\ r <> 0x7B /\ r <> 0x7D.
Definition slot_ok (s : slot) : Prop := Forall (Forall val_char) (sl_all s).

Lemma quote_text_char (P : rune -> Prop) v : P 0x5C -> Forall P v -> Forall P (quote_text v).
Proof.
  intros Hb; induction 1 as [|r v Hr Hv IH]; [constructor|].
  change (quote_text (r :: v)) with ((if is_meta r then [0x5C; r] else [r]) ++ quote_text v).
  apply Forall_app; split; [|exact IH]; destruct (is_meta r); repeat constructor; assumption.
Qed.
Lemma alts_text_char (P : rune -> Prop) v vals :
  P 0x5C -> P 0x7C -> Forall (Forall P) (v :: vals) -> Forall P (alts_text v vals).
Proof.
  intros H1 H2; revert v; induction vals as [|v' vals IH]; intros v H; apply Forall_cons_iff in H; destruct H as [Hv H];
    cbn [alts_text]; [apply quote_text_char; assumption|].
  apply Forall_app; split; [apply quote_text_char; assumption|constructor; [exact H2|apply IH; exact H]].
Qed.
Lemma alts_edges v vals : Forall (Forall val_char) (v :: vals) -> edges (alts_text v vals) = alts_text v vals.
Proof.
  intros H; unfold edges; rewrite !swap_runs_id; [reflexivity| |rewrite swap_runs_id];
    (apply alts_text_char; [discriminate|discriminate|]);
    eapply Forall_impl; try exact H; intros x Hx; eapply Forall_impl; try exact Hx; intros r Hr; apply Hr.
Qed.
Lemma edges_slot s rest : slot_ok s ->
  edges (slot_text s ++ rest) = edges (sl_text s) ++ 0x28 :: alts_text (sl_val s) (sl_vals s) ++ 0x29 :: edges rest.
Proof.
  intros H; unfold slot_text; rewrite <- app_assoc, <- app_comm_cons, edges_app by discriminate; f_equal; f_equal.
  rewrite <- app_assoc; cbn [app]; rewrite edges_app by discriminate; rewrite alts_edges by exact H; reflexivity.
Qed.
Lemma edges_nil : edges [] = []. Proof. reflexivity. Qed.

(** The items such a body is parsed to, groups being numbered from [S k] on. *)
Inductive body_items : nat -> list slot -> list rune -> list re -> Prop :=
| body_last k t r its : piece t r -> r = seq_of its -> recaps r = [] -> body_items k [] t its
| body_slot k s l t r its rest :
    piece (sl_text s) r -> r = seq_of its -> recaps r = [] -> body_items (S k) l t rest ->
    body_items k (s :: l) t (its ++ RCap (S k) (val_tree (sl_val s) (sl_vals s)) :: rest).

Theorem parse_slots l t : Forall slot_ok l -> Forall (fun s => exists r, piece (sl_text s) r) l -> (exists r, piece t r) ->
  forall k, exists its, body_items k l t its /\
    forall u xs, stops u -> exists lr,
      parse_all (edges (body_text l t) ++ u) [] {| f_cap := None; f_alts := []; f_cur := rev xs |} k false =
      parse_all u [] {| f_cap := None; f_alts := []; f_cur := rev (xs ++ its) |} (k + length l) lr.
Proof.
  intros Hok Hl (rt & Ht); induction l as [|s l IH]; intros k.
  - destruct (piece_items t rt Ht) as (its & Er & Hc & Hrun); exists its.
    split; [econstructor; eassumption|]; unfold body_text; cbn [flat_map app length]; rewrite Nat.add_0_r.
    intros u xs Hu; apply Hrun; exact Hu.
  - apply Forall_cons_iff in Hok; destruct Hok as [Hs Hok]; apply Forall_cons_iff in Hl; destruct Hl as [(r & Hr) Hl].
    destruct (IH Hok Hl (S k)) as (rest & Hrest & Hrun); clear IH.
    destruct (piece_items _ r Hr) as (its & Er & Hc & Hrun1).
    exists (its ++ RCap (S k) (val_tree (sl_val s) (sl_vals s)) :: rest); split; [econstructor; eassumption|].
    intros u xs Hu.
    assert (edges (body_text (s :: l) t) ++ u =
            edges (sl_text s) ++ 0x28 :: alts_text (sl_val s) (sl_vals s) ++ 0x29 :: edges (body_text l t) ++ u) as ->.
    { unfold body_text; cbn [flat_map]; rewrite <- app_assoc, edges_slot by exact Hs.
      rewrite <- app_assoc, <- app_comm_cons, <- app_assoc; reflexivity. }
    destruct (Hrun1 k (0x28 :: alts_text (sl_val s) (sl_vals s) ++ 0x29 :: edges (body_text l t) ++ u) xs (stops_open _))
      as (lr1 & ->).
    rewrite parse_value_group; unfold push; cbn [f_cap f_alts f_cur].
    destruct (Hrun u ((xs ++ its) ++ [RCap (S k) (val_tree (sl_val s) (sl_vals s))]) Hu) as (lr2 & H2).
    exists lr2; rewrite rev_app_distr in H2; cbn [rev app] in H2; refine (eq_trans H2 _).
    rewrite <- !app_assoc; cbn [app length]; rewrite <- plus_n_Sm; reflexivity.
Qed.

Corollary parse_body_text l t : Forall slot_ok l -> Forall (fun s => exists r, piece (sl_text s) r) l ->
  (exists r, piece t r) -> exists its, body_items 0 l t its /\
  parse_from 0 (edges (body_text l t)) = Ok (seq_of its, length l) /\
  parse_from 0 (edges (body_text l t) ++ txt "()") =
    Ok (seq_of (its ++ [RCap (S (length l)) REmpty]), S (length l)).
Proof.
  intros H1 H2 H3; destruct (parse_slots l t H1 H2 H3 O) as (its & Hi & Hrun); exists its; split; [exact Hi|].
  cbn [Nat.add] in Hrun; split.
  - destruct (Hrun [] [] I) as (lr & H); rewrite app_nil_r in H; refine (eq_trans H _); reflexivity.
  - destruct (Hrun (txt "()") [] (stops_open _)) as (lr & H); refine (eq_trans H _); cbn [app].
    refine (eq_trans (parse_group (length l) [] REmpty (S (length l)) [] [] _ lr eq_refl) _).
    unfold seq_of; rewrite rev_app_distr; reflexivity.
Qed.

Lemma body_items_bump j k l t its : body_items k l t its -> body_items (j + k) l t (map (bump j) its).
Proof.
  intros H; assert (forall r its, r = seq_of its -> recaps r = [] -> map (bump j) its = its) as Hb.
  { intros r its0 -> Hr; rewrite recaps_seq in Hr; induction its0 as [|x its0 IH]; [reflexivity|].
    cbn [flat_map map] in *; apply app_eq_nil in Hr; destruct Hr as [Hx Hr]; rewrite IH, bump_nocaps by assumption; reflexivity. }
  induction H as [k t r its Hp Er Hc|k s l t r its rest Hp Er Hc Hrest IH].
  - rewrite (Hb r its Er Hc); econstructor; eassumption.
  - rewrite map_app; cbn [map bump]; rewrite (Hb r its Er Hc), <- plus_n_Sm.
    assert (bump j (val_tree (sl_val s) (sl_vals s)) = val_tree (sl_val s) (sl_vals s)) as ->.
    { apply bump_nocaps; unfold val_tree; rewrite recaps_alt.
      induction (sl_val s :: sl_vals s) as [|v vs IHv]; [reflexivity|]; cbn [map flat_map]; rewrite IHv, app_nil_r, recaps_seq.
      unfold lits; clear; induction v; [reflexivity|exact IHv]. }
    rewrite <- plus_n_Sm in IH; econstructor; eassumption.
Qed.

(** ** Matches of such a body *)
Lemma lits_match v pre mid post : rmatch (RCat (lits v)) pre mid post -> mid = v.
Proof.
  revert pre mid; induction v as [|r v IH]; intros pre mid H.
  - inversion H; reflexivity.
  - cbn [lits map] in H; inversion H as [| | | | | | | | | | | | | | |r0 l0 pre0 a b post0 H1 H2|]; subst.
    inversion H1; subst; apply IH in H2; subst; reflexivity.
Qed.
Lemma rmatch_seq l pre mid post : rmatch (seq_of l) pre mid post <-> rmatch (RCat l) pre mid post.
Proof. split; apply simplify_rmatch; [|symmetry]; apply simplify_seq. Qed.
Lemma rmatch_alt_of alts pre mid post : rmatch (alt_of alts) pre mid post -> exists l, In l alts /\ rmatch (RCat l) pre mid post.
Proof.
  destruct alts as [|l [|l' alts]].
  - intros H; inversion H; contradiction.
  - intros H; exists l; split; [left; reflexivity|apply rmatch_seq; exact H].
  - intros H; change (alt_of (l :: l' :: alts)) with (RAlt (map seq_of (l :: l' :: alts))) in H.
    inversion H as [| | | | | | | | | | | | | | | |r0 l0 pre0 mid0 post0 Hin H1]; subst.
    change (seq_of l :: seq_of l' :: map seq_of alts) with (map seq_of (l :: l' :: alts)) in Hin.
    apply in_map_iff in Hin; destruct Hin as (x & <- & Hx); exists x; split; [exact Hx|apply rmatch_seq; exact H1].
Qed.
Lemma val_match v vals pre mid post : rmatch (val_tree v vals) pre mid post -> In mid (v :: vals).
Proof.
  intros H; apply rmatch_alt_of in H; destruct H as (l & Hin & H).
  apply in_map_iff in Hin; destruct Hin as (x & <- & Hx); apply lits_match in H; subst; exact Hx.
Qed.

(** [i] is the place of the first [y] in [vals]. *)
Definition first_at (vals : list (list rune)) (i : nat) (y : list rune) : Prop :=
  nth_error vals i = Some y /\ forall j, (j < i)%nat -> nth_error vals j <> Some y.
Lemma first_exists vals y : In y vals -> exists i, first_at vals i y.
Proof.
  induction vals as [|v vals IH]; [contradiction|]; intros Hin.
  destruct (list_eq_dec N.eq_dec v y) as [->|Hne].
  - exists O; split; [reflexivity|intros j Hj; lia].
  - destruct Hin as [->|Hin]; [contradiction|]; destruct (IH Hin) as (i & Hi & Hf); exists (S i); split; [exact Hi|].
    intros [|j] Hj; [cbn; congruence|apply Hf; lia].
Qed.

(** How a match is made up: texts matching the pieces and, between them, values of the
    variables, with the places of those values. *)
Inductive filled : list slot -> list rune -> list rune -> list rune -> list rune -> list nat -> Prop :=
| filled_last t r pre x post : piece t r -> rmatch r pre x post -> filled [] t pre x post []
| filled_slot s l t r pre x y rest post i is_ :
    piece (sl_text s) r -> rmatch r pre x (y ++ rest ++ post) -> first_at (sl_all s) i y ->
    filled l t (pre ++ x ++ y) rest post is_ ->
    filled (s :: l) t pre (x ++ y ++ rest) post (i :: is_).

(** [y] is what stands between bytes [a] and [b]. *)
Definition stands (full : text) (a b : nat) (y : list rune) : Prop :=
  exists u v w, full = u ++ v ++ w /\ a = gwidth u /\ b = (gwidth u + gwidth v)%nat /\ runes_of v = y.

Theorem runs_filled k l t its : body_items k l t its -> forall U s c s' p' c',
  wide (U ++ s) -> runs_seq its s (gwidth U) c s' p' c' ->
  exists v is_, s = v ++ s' /\ p' = gwidth (U ++ v) /\
    filled l t (runes_of U) (runes_of v) (runes_of s') is_ /\ length is_ = length l /\
    (forall i, (i <= k)%nat -> cap_lookup c' i = cap_lookup c i) /\
    (forall j i sl y, nth_error is_ j = Some i -> nth_error l j = Some sl -> nth_error (sl_all sl) i = Some y ->
       exists a b, cap_lookup c' (S k + j) = Some (a, b) /\ stands (U ++ s) a b y).
Proof.
  induction 1 as [k t r its Hp Er Hc|k sl l t r its rest Hp Er Hc Hrest IH]; intros U s c s' p' c' Hw H.
  - destruct (seq_consumes _ _ _ _ _ _ _ H) as (v & Es & Ep); exists v, [].
    assert (at_start (runes_of U) (gwidth U)) as HU.
    { assert (at_start (@nil rune) 0) as A0 by (split; reflexivity).
      apply wide_app in Hw; exact (at_start_app _ _ _ A0 (proj1 Hw)). }
    split; [exact Es|]; split; [rewrite gwidth_app; exact Ep|]; split; [|split; [reflexivity|split]].
    + econstructor; [exact Hp|]; subst r; apply rmatch_seq; rewrite Es in H, Hw; apply wide_app in Hw.
      eapply seq_rmatch; [apply Hw|exact HU|exact H].
    + intros i _; eapply (seq_unmentioned [i]); [|left; reflexivity|exact H].
      unfold mentions; rewrite <- recaps_seq, <- Er, Hc; reflexivity.
    + intros [|j] i sl y Hj; discriminate.
  - apply runs_seq_app in H; destruct H as (s1 & p1 & c1 & H1 & H2).
    inversion H2 as [|r0 l0 s0 p0 c0 s2 p2 c2 s3 p3 c3 H3 H4]; subst; clear H2.
    rename Hc into Hc0; destruct (seq_consumes _ _ _ _ _ _ _ H1) as (x & -> & ->).
    cbn [simplify] in H3; inversion H3 as [| | | |i0 r0 s0 p0 c0 s4 p4 c4 H5| | | | |]; subst; clear H3.
    destruct (runs_consumes _ _ _ _ _ _ _ H5) as (y & -> & ->).
    assert (at_start (@nil rune) 0) as A0 by (split; reflexivity).
    pose proof Hw as Hw0; apply wide_app in Hw0; destruct Hw0 as [HwU Hw1].
    pose proof (at_start_app _ _ _ A0 HwU) as AU; cbn [app Nat.add] in AU.
    pose proof Hw1 as Hw1'; apply wide_app in Hw1'; destruct Hw1' as [Hwx Hw2].
    pose proof (at_start_app _ _ _ AU Hwx) as AX; rewrite <- runes_of_app in AX.
    pose proof Hw2 as Hw2'; apply wide_app in Hw2'; destruct Hw2' as [Hwy Hw3].
    pose proof (seq_rmatch _ _ _ _ _ _ _ _ Hw1 AU H1) as M1.
    pose proof (proj1 (means_simplify _) _ _ _ _ _ _ _ Hw2 AX H5) as M2.
    assert (In (runes_of y) (sl_all sl)) as Hin by (eapply val_match; exact M2).
    destruct (first_exists _ _ Hin) as (i & Hi).
    assert (wide ((U ++ x ++ y) ++ s2)) as HwIH by (rewrite <- !app_assoc; exact Hw).
    assert ((gwidth U + gwidth x + gwidth y)%nat = gwidth (U ++ x ++ y)) as Eg by (rewrite !gwidth_app; lia).
    rewrite Eg in H4.
    destruct (IH (U ++ x ++ y) s2 _ s' p' c' HwIH H4) as (v & is_ & -> & -> & Hf & Hlen & Hkeep & Hcaps); clear IH.
    exists (x ++ y ++ v), (i :: is_).
    split; [rewrite <- !app_assoc; reflexivity|]; split; [rewrite <- !app_assoc; reflexivity|].
    split; [|split; [cbn; rewrite Hlen; reflexivity|split]].
    + rewrite !runes_of_app; eapply filled_slot; [exact Hp| |exact Hi|].
      * apply rmatch_seq; rewrite !runes_of_app in M1; exact M1.
      * rewrite !runes_of_app in Hf; exact Hf.
    + intros q Hq; rewrite Hkeep by lia; cbn [cap_lookup].
      destruct (Nat.eqb_spec (S k) q) as [Eq|_]; [lia|].
      assert (cap_lookup c4 q = cap_lookup c1 q) as ->.
      { eapply (runs_unmentioned [q]); [|left; reflexivity|exact H5].
        unfold mentions; cbn [flat_map]; rewrite app_nil_r; unfold val_tree; rewrite recaps_alt.
        induction (sl_val sl :: sl_vals sl) as [|w ws IHw]; [reflexivity|]; cbn [map flat_map].
        rewrite recaps_seq; assert (flat_map recaps (lits w) = []) as ->; [|exact IHw].
        clear; induction w; [reflexivity|exact IHw]. }
      eapply (seq_unmentioned [q]); [|left; reflexivity|exact H1].
      unfold mentions; rewrite <- recaps_seq, Hc0; reflexivity.
    + intros [|j] i' sl' z Hj Hl Hz.
      * cbn in Hj, Hl; injection Hj as <-; injection Hl as <-; rewrite Nat.add_0_r, Hkeep by lia.
        cbn [cap_lookup]; rewrite Nat.eqb_refl; eexists; eexists; split; [reflexivity|].
        destruct Hi as [Hi _]; rewrite Hz in Hi; injection Hi as ->.
        exists (U ++ x), y, (v ++ s'); rewrite !gwidth_app, <- !app_assoc; repeat split; lia || reflexivity.
      * cbn in Hj, Hl; destruct (Hcaps j i' sl' z Hj Hl Hz) as (a & b & Hab & Hst); exists a, b.
        replace (S k + S j)%nat with (S (S k) + j)%nat by lia; split; [exact Hab|].
        rewrite <- !app_assoc in Hst; exact Hst.
Qed.
