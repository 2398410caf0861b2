(** HRE expressions put together from their parts: edges, lookaround and body. *)
From Coq Require Import String.
From Verif Require Import GoBase Utf8 Utf8Facts Replacer Regex RegexSpec RegexFacts CaptureFacts RegexParse
  ParseFacts ReplaceFacts Hre FindFacts HslInv SourceFacts PatternFacts.
Open Scope N_scope.

(** ** Sources

    An expression is a number of "^", an optional lookbehind, a body, an optional
    lookahead and a number of "$". *)
Record src := Src { s_left : nat; s_behind : look; s_body : list rune; s_ahead : look; s_right : nat }.
Definition src_text (s : src) : list rune :=
  repeat 0x5E (s_left s) ++ look_text (s_behind s) ++ s_body s ++ look_text (s_ahead s) ++ repeat 0x24 (s_right s).

(** Edges and lookaround are where they are meant to be: the body is not empty, neither
    starts with an edge of its own nor ends with one, and its braces are empty pairs. *)
Record src_ok (s : src) : Prop := {
  ok_behind : look_ok (s_behind s);
  ok_ahead : look_ok (s_ahead s);
  ok_scalars : scalars (s_body s);
  ok_body : s_body s <> [];
  ok_paired : paired (s_body s);
  ok_first : s_behind s = NoLook -> hd 0 (s_body s) <> 0x5E;
  ok_last : s_ahead s = NoLook -> last (s_body s) 0 <> 0x24
}.

Lemma last_app_nonnil {A} (u v : list A) d : v <> [] -> last (u ++ v) d = last v d.
Proof.
  intros Hv; induction u as [|x u IH]; [reflexivity|]; cbn [app].
  destruct (u ++ v) eqn:E; [destruct u; [contradiction|discriminate]|]; rewrite <- IH; reflexivity.
Qed.
Lemma repeat_all_eq (c : rune) n u v : repeat c n = u ++ v -> Forall (fun r => r = c) u /\ Forall (fun r => r = c) v.
Proof.
  intros H; apply Forall_app; rewrite <- H; apply Forall_forall; intros x Hx; apply repeat_spec in Hx; exact Hx.
Qed.
Lemma last_in {A} (l : list A) d : l <> [] -> In (last l d) l.
Proof.
  induction l as [|x l IH]; [congruence|]; intros _; destruct l as [|y l]; [left; reflexivity|].
  right; apply IH; discriminate.
Qed.

Lemma src_no_tail s u1 u2 : src_ok s ->
  repeat 0x5E (s_left s) ++ look_text (s_behind s) ++ s_body s = u1 ++ u2 -> u2 <> [] ->
  ~ tail (u2 ++ look_text (s_ahead s) ++ repeat 0x24 (s_right s)).
Proof.
  intros Hok E Hn.
  assert (forall b m, b <> [] -> last b 0 = last (s_body s) 0 ->
    b ++ look_text (s_ahead s) ++ repeat 0x24 (s_right s) <> repeat 0x24 m) as Hdollar.
  { intros b m Hb Hl Eq; symmetry in Eq.
    destruct (repeat_all_eq _ _ _ _ Eq) as [H1 H2].
    destruct (s_ahead s) as [|x|x] eqn:Ea.
    - apply (ok_last _ Hok Ea); rewrite <- Hl.
      rewrite Forall_forall in H1; apply H1, last_in; exact Hb.
    - cbn [look_text app] in H2; inversion H2; discriminate.
    - cbn [look_text app] in H2; inversion H2; discriminate. }
  assert (last u2 0 = last (s_body s) 0) as Hlast.
  { rewrite <- (last_app_nonnil u1 u2 0 Hn), <- E, app_assoc; apply last_app_nonnil, (ok_body _ Hok). }
  intros Ht; remember (u2 ++ look_text (s_ahead s) ++ repeat 0x24 (s_right s)) as T eqn:ET; destruct Ht as [m|lk m Hlk Hl].
  - apply (Hdollar u2 m Hn Hlast); symmetry; exact ET.
  - destruct u2 as [|r u2]; [congruence|]; cbn [app] in ET; injection ET as <- ET.
    (* where the brace is *)
    destruct (app_eq_app _ _ _ _ E) as (z & [[E1 E2]|[E1 E2]]).
    + destruct z as [|y z].
      * cbn [app] in E2.
        (* at the start of the lookbehind or body *)
        destruct (s_behind s) as [|x|x] eqn:Eb.
        -- cbn [look_text app] in E2; destruct (ok_paired _ Hok [] u2 (eq_sym E2)) as (b' & ->).
           destruct Hl as [|c lk Hc Hl]; [congruence|]; cbn [app] in ET; injection ET as -> _; congruence.
        -- assert (u2 = x ++ 0x7D :: s_body s) as ->.
           { cbn [look_text app] in E2; injection E2 as ->; rewrite <- app_assoc; reflexivity. }
           pose proof (ok_behind _ Hok) as Hx; rewrite Eb in Hx; destruct Hx as (_ & _ & Hp & _).
           rewrite <- app_assoc in ET; cbn [app] in ET.
           assert (x = lk) as ->.
           { assert (Forall (fun r => r <> 0x7D) x) as Hx by (eapply Forall_impl; [|exact Hp]; cbn; tauto).
             clear -Hx Hl ET; revert lk Hl ET; induction Hx as [|a x Ha Hx IH]; intros lk Hl ET;
               destruct Hl as [|b lk Hb Hl]; cbn [app] in ET; try reflexivity; injection ET as E1 E2; subst; try congruence.
             f_equal; eapply IH; eassumption. }
           apply app_inv_head in ET; injection ET as ET.
           apply (Hdollar (s_body s) m (ok_body _ Hok) eq_refl); symmetry; exact ET.
        -- assert (u2 = (0x7E :: x) ++ 0x7D :: s_body s) as ->.
           { cbn [look_text app] in E2; injection E2 as ->; rewrite <- app_assoc; reflexivity. }
           pose proof (ok_behind _ Hok) as Hx; rewrite Eb in Hx; destruct Hx as (Hp & _).
           rewrite <- app_assoc in ET; cbn [app] in ET.
           assert (0x7E :: x = lk) as <-.
           { assert (Forall (fun r => r <> 0x7D) (0x7E :: x)) as Hx
               by (constructor; [discriminate|]; eapply Forall_impl; [|exact Hp]; cbn; tauto).
             change (0x7E :: x ++ 0x7D :: s_body s ++ look_text (s_ahead s) ++ repeat 0x24 (s_right s))
               with ((0x7E :: x) ++ 0x7D :: s_body s ++ look_text (s_ahead s) ++ repeat 0x24 (s_right s)) in ET.
             remember (0x7E :: x) as y eqn:Ey; clear -Hx Hl ET; revert lk Hl ET; induction Hx as [|a y Ha Hx IH]; intros lk Hl ET;
               destruct Hl as [|b lk Hb Hl]; cbn [app] in ET; try reflexivity; injection ET as E1 E2; subst; try congruence.
             f_equal; eapply IH; eassumption. }
           cbn [app] in ET; injection ET as ET; apply app_inv_head in ET; injection ET as ET.
           apply (Hdollar (s_body s) m (ok_body _ Hok) eq_refl); symmetry; exact ET.
      * (* inside the edge *)
        destruct (repeat_all_eq _ _ _ _ E1) as [_ H2]; cbn [app] in E2; injection E2 as <- _; inversion H2; discriminate.
    + destruct (app_eq_app _ _ _ _ E2) as (y & [[E3 E4]|[E3 E4]]).
      * destruct y as [|a y].
        -- (* at the start of the body *)
           cbn [app] in E4; destruct (ok_paired _ Hok [] u2 (eq_sym E4)) as (b' & ->).
           destruct Hl as [|c lk Hc Hl]; [congruence|]; cbn [app] in ET; injection ET as -> _; congruence.
        -- (* in the lookbehind: only its first character is a brace *)
           cbn [app] in E4; injection E4 as <- ->.
           assert (z = []) as ->.
           { destruct z as [|c z]; [reflexivity|exfalso].
             assert (forall x, plain x -> x ++ [0x7D] <> z ++ 0x7B :: y) as Hno.
             { intros x Hp Eq; assert (In 0x7B (x ++ [0x7D])) as Hin by (rewrite Eq; apply in_elt).
               apply in_app_or in Hin; destruct Hin as [Hin|[Hin|[]]]; [|discriminate].
               unfold plain in Hp; rewrite Forall_forall in Hp; destruct (Hp _ Hin); congruence. }
             pose proof (ok_behind _ Hok) as Hx; destruct (s_behind s) as [|x|x]; [discriminate| |].
             - cbn [look_text app] in E3; injection E3 as _ E3; apply (Hno x); [apply Hx|exact E3].
             - cbn [look_text app] in E3; injection E3 as _ E3.
               apply (Hno (0x7E :: x)); [constructor; [split; discriminate|apply Hx]|exact E3]. }
           cbn [app] in E3.
           assert (exists x, look_text (s_behind s) = 0x7B :: x ++ [0x7D] /\ Forall (fun r => r <> 0x7D) x) as (x & Ex & Hx).
           { pose proof (ok_behind _ Hok) as Hx; destruct (s_behind s) as [|x|x]; [discriminate| |].
             - exists x; split; [reflexivity|]; destruct Hx as (_ & _ & Hp & _); eapply Forall_impl; [|exact Hp]; cbn; tauto.
             - exists (0x7E :: x); split; [reflexivity|]; destruct Hx as (Hp & _); constructor; [discriminate|].
               eapply Forall_impl; [|exact Hp]; cbn; tauto. }
           rewrite Ex in E3; injection E3 as <-.
           rewrite <- !app_assoc in ET; cbn [app] in ET.
           assert (x = lk) as ->.
           { clear -Hx Hl ET; revert lk Hl ET; induction Hx as [|a x Ha Hx IH]; intros lk Hl ET;
               destruct Hl as [|b lk Hb Hl]; cbn [app] in ET; try reflexivity; injection ET as E1 E2; subst; try congruence.
             f_equal; eapply IH; eassumption. }
           apply app_inv_head in ET; injection ET as ET.
           apply (Hdollar (s_body s) m (ok_body _ Hok) eq_refl); symmetry; exact ET.
      * (* in the body *)
        destruct (ok_paired _ Hok y u2 E4) as (b' & ->).
        destruct Hl as [|c lk Hc Hl]; [congruence|]; cbn [app] in ET; injection ET as -> _; congruence.
Qed.

(** The expression with groups for edges and lookaround (assertions.go:150-155,186-191). *)
Definition grouped_text (s : src) (xb xa : list rune) : list rune :=
  0x28 :: repeat 0x5E (s_left s) ++ 0x29 :: 0x28 :: xb ++ 0x29 :: s_body s
  ++ 0x28 :: xa ++ 0x29 :: 0x28 :: repeat 0x24 (s_right s) ++ [0x29].

Lemma paired_repeat c n : c <> 0x7B -> paired (repeat c n).
Proof. intros H; apply paired_none, Forall_forall; intros x Hx; apply repeat_spec in Hx; congruence. Qed.
Lemma dissolved_plain l n f x neg w ok : look_ok l -> dissolved l n f = Ok (x, neg, w, ok) -> plain x /\ scalars x.
Proof.
  destruct l as [|y|y]; cbn [dissolved look_ok]; intros Hl H.
  - injection H as <- _ _ _; split; constructor.
  - destruct Hl as (_ & _ & Hp & Hs); destruct n; injection H as <- _ _ _; [|split; constructor].
    split; [apply nocap_plain; exact Hp|apply nocap_scalars; exact Hs].
  - destruct n; [|injection H as <- _ _ _; split; constructor].
    destruct (parse_re _) as [[? ?]| | | | |]; try discriminate; injection H as <- _ _ _; split; constructor.
Qed.
Lemma grouped_paired s xb xa : src_ok s -> plain xb -> plain xa -> paired (grouped_text s xb xa).
Proof.
  intros Hok Hb Ha; unfold grouped_text.
  repeat first [apply paired_cons; [discriminate|] | apply paired_app | apply paired_repeat; discriminate
    | apply paired_plain; assumption | apply (ok_paired _ Hok) | apply paired_none; constructor].
Qed.
Lemma grouped_scalars s xb xa : src_ok s -> scalars xb -> scalars xa -> scalars (grouped_text s xb xa).
Proof.
  intros Hok Hb Ha; unfold grouped_text.
  repeat first [apply repeat_scalars; reflexivity | assumption | apply (ok_scalars _ Hok)
    | constructor; [reflexivity|] | apply scalars_app; split | constructor].
Qed.

Lemma src_fresh s t : src_ok s -> s_behind s = NoLook -> fresh (s_body s ++ t).
Proof.
  intros Hok Hb; pose proof (ok_body _ Hok) as Hn; pose proof (ok_first _ Hok Hb) as Hf; pose proof (ok_paired _ Hok) as Hp.
  destruct (s_body s) as [|r b]; [congruence|]; cbn [hd app] in *; split; [exact Hf|].
  intros ->; destruct (Hp [] b eq_refl) as (b' & ->); reflexivity.
Qed.

Theorem expand_lookaround_src s : src_ok s ->
  expand_lookaround (encode (src_text s)) =
  bind (dissolved (s_ahead s) (s_right s) neg_ahead) (fun '(xa, nega, wa, oka) =>
    if (oka : bool) then
      bind (dissolved (s_behind s) (s_left s) neg_behind) (fun '(xb, negb, wb, okb) =>
        if (okb : bool) then Ok (encode (grouped_text s xb xa), encode nega, encode negb, wa, wb)
        else Ok (encode paradox_text, encode nega, [], wa, 0%Z))
    else Ok (encode (txt "()()" ++ paradox_text), [], [], 0%Z, 0%Z)).
Proof.
  intros Hok; unfold expand_lookaround, src_text.
  rewrite !app_assoc, <- (app_assoc _ (look_text (s_ahead s))).
  rewrite expand_lookahead_text.
  2: { apply scalars_app; split; [apply scalars_app; split|apply (ok_scalars _ Hok)];
       [apply repeat_scalars; reflexivity|apply look_text_scalars, (ok_behind _ Hok)]. }
  2: apply (ok_ahead _ Hok).
  2: { intros u1 u2 E Hn; rewrite <- app_assoc in E; eapply src_no_tail; eassumption. }
  destruct (dissolved (s_ahead s) (s_right s) neg_ahead) as [[[[xa nega] wa] oka]| | | | |] eqn:Ea; cbn [bind]; try reflexivity.
  destruct (dissolved_plain _ _ _ _ _ _ _ (ok_ahead _ Hok) Ea) as [Hpa Hsa].
  destruct oka; cbn [bind].
  2: { vm_compute; reflexivity. }
  rewrite <- !app_assoc.
  rewrite expand_lookbehind_text; [|apply (ok_behind _ Hok)|intros Hb; apply src_fresh; assumption|].
  2: { apply scalars_app; split; [apply (ok_scalars _ Hok)|].
       repeat first [assumption | apply repeat_scalars; reflexivity
         | constructor; [reflexivity|] | apply scalars_app; split | constructor]. }
  destruct (dissolved (s_behind s) (s_left s) neg_behind) as [[[[xb negb] wb] okb]| | | | |] eqn:Eb; cbn [bind]; try reflexivity.
  destruct (dissolved_plain _ _ _ _ _ _ _ (ok_behind _ Hok) Eb) as [Hpb Hsb].
  destruct okb; cbn [bind].
  - fold (grouped_text s xb xa); rewrite no_zero_width; [reflexivity|apply grouped_scalars|apply grouped_paired]; assumption.
  - replace (match_string reZeroWidth (encode paradox_text)) with false by (vm_compute; reflexivity); reflexivity.
Qed.

(** ** Edges of the grouped expression *)
Definition edge_text (c : rune) (n : nat) : list rune :=
  match n with O => [] | S O => if c =? 0x5E then left_edge else right_edge | _ => [c] end.
Lemma edges_left n : edges (repeat 0x5E n) = edge_text 0x5E n.
Proof.
  unfold edges; rewrite swap_runs_repeat; destruct n as [|[|n]]; vm_compute; reflexivity.
Qed.
Lemma edges_right n : edges (repeat 0x24 n) = edge_text 0x24 n.
Proof.
  unfold edges; rewrite (swap_runs_id 0x5E).
  - rewrite swap_runs_repeat; destruct n as [|[|n]]; vm_compute; reflexivity.
  - apply Forall_forall; intros x Hx; apply repeat_spec in Hx; subst x; discriminate.
Qed.
Lemma edges_grouped s xb xa :
  edges (grouped_text s xb xa) =
  0x28 :: edge_text 0x5E (s_left s) ++ 0x29 :: 0x28 :: edges xb ++ 0x29 :: edges (s_body s)
  ++ 0x28 :: edges xa ++ 0x29 :: 0x28 :: edge_text 0x24 (s_right s) ++ [0x29].
Proof.
  assert (forall d b, d <> 0x5E -> d <> 0x24 -> edges (d :: b) = d :: edges b) as Hc.
  { intros d b H1 H2; apply (edges_app [] d b H1 H2). }
  unfold grouped_text; rewrite Hc by discriminate; f_equal.
  rewrite edges_app by discriminate; rewrite edges_left; f_equal; f_equal.
  rewrite Hc by discriminate; f_equal; rewrite edges_app by discriminate; f_equal; f_equal.
  rewrite edges_app by discriminate; f_equal; f_equal.
  rewrite edges_app by discriminate; f_equal; f_equal.
  rewrite Hc by discriminate; f_equal; rewrite edges_app by discriminate; rewrite edges_right; f_equal.
Qed.

(** ** The tree *)
Definition edge_tree (c : rune) (n : nat) : re :=
  match n with
  | O => REmpty
  | S O => RAlt [if c =? 0x5E then RBegin else REnd; RPlus true (RClass cls_s); RCat [RLit [0x7B]; RLit [0x7D]]]
  | _ => if c =? 0x5E then RBegin else REnd
  end.
Lemma parse_edge_left k n : parse_from k (edge_text 0x5E n) = Ok (edge_tree 0x5E n, k).
Proof. destruct n as [|[|n]]; vm_compute; reflexivity. Qed.
Lemma parse_edge_right k n : parse_from k (edge_text 0x24 n) = Ok (edge_tree 0x24 n, k).
Proof. destruct n as [|[|n]]; vm_compute; reflexivity. Qed.

(** Alternatives, each a list of items. *)
Definition seq_of (l : list re) : re := mk_cat (rev l).
Definition alt_of (alts : list (list re)) : re :=
  match alts with [l] => seq_of l | _ => RAlt (map seq_of alts) end.
(** Puts [xs] in front of the first and [ys] behind the last alternative. *)
Fixpoint append_last (ys : list re) (alts : list (list re)) : list (list re) :=
  match alts with
  | [] => []
  | [l] => [l ++ ys]
  | l :: alts' => l :: append_last ys alts'
  end.
Definition surround (xs ys : list re) (alts : list (list re)) : list (list re) :=
  append_last ys (match alts with [] => [] | l :: alts' => (xs ++ l) :: alts' end).

Definition frame_alts (its : option (list re)) (f : frame) : list (list re) :=
  match its with
  | None => [rev (f_cur f)]
  | Some its => rev its :: map (fun r => [r]) (removelast (rev (f_alts f))) ++ [rev (f_cur f)]
  end.

Lemma seq_one r : seq_of [r] = r.
Proof. reflexivity. Qed.
Lemma map_seq_one l : map seq_of (map (fun r => [r]) l) = l.
Proof. rewrite map_map; cbn; apply map_id. Qed.
Lemma append_last_app ys a l : append_last ys (a ++ [l]) = a ++ [l ++ ys].
Proof.
  induction a as [|x a IH]; [reflexivity|]; cbn [app append_last].
  destruct (a ++ [l]) eqn:E; [destruct a; discriminate|]; rewrite IH; reflexivity.
Qed.

(** The alternatives of a body and of the body with groups around it. *)
Lemma parse_grouped k t xs y1 y2 r n' :
  parse_from k t = Ok (r, n') ->
  exists alts, alts <> [] /\ r = alt_of alts /\
    (forall l m, parse_from k (t ++ txt "()") = Ok (RCat l, m) -> alts = [removelast l]) /\
    forall u1 u2 k1 k2, parse_from (S n') u1 = Ok (y1, k1) -> parse_from (S k1) u2 = Ok (y2, k2) ->
      parse_all (t ++ 0x28 :: u1 ++ 0x29 :: 0x28 :: u2 ++ [0x29]) []
        {| f_cap := None; f_alts := []; f_cur := rev xs |} k false
      = Ok (alt_of (surround xs [RCap (S n') y1; RCap (S k1) y2] alts), k2).
Proof.
  intros H; destruct (parse_run t _ _ _ _ _ _ H) as (b & lr' & Hb & Hc & Hrun & Hpre).
  assert (parse_from k (t ++ txt "()") = Ok (finish (push b (RCap (S n') REmpty)), S n')) as Hone.
  { unfold parse_from; refine (eq_trans (Hrun (txt "()") [] (stops_open _)) _).
    exact (parse_group n' [] REmpty (S n') [] [] b lr' eq_refl). }
  destruct (Hpre xs [] {| f_cap := None; f_alts := []; f_cur := rev xs |}) as (b' & Hp & Hc' & Ht & Hr).
  { constructor; apply (pf_cur xs None None []). }
  assert (forall alts, alts <> [] -> r = alt_of alts ->
    (forall y1 y2, finish (push (push b' y1) y2) = alt_of (surround xs [y1; y2] alts)) ->
    (forall l m, parse_from k (t ++ txt "()") = Ok (RCat l, m) -> alts = [removelast l]) ->
    exists alts, alts <> [] /\ r = alt_of alts /\
    (forall l m, parse_from k (t ++ txt "()") = Ok (RCat l, m) -> alts = [removelast l]) /\
    forall u1 u2 k1 k2, parse_from (S n') u1 = Ok (y1, k1) -> parse_from (S k1) u2 = Ok (y2, k2) ->
      parse_all (t ++ 0x28 :: u1 ++ 0x29 :: 0x28 :: u2 ++ [0x29]) []
        {| f_cap := None; f_alts := []; f_cur := rev xs |} k false
      = Ok (alt_of (surround xs [RCap (S n') y1; RCap (S k1) y2] alts), k2)) as Hgo.
  { intros alts Hn Er Hf Hs; exists alts; split; [exact Hn|]; split; [exact Er|]; split; [exact Hs|].
    intros u1 u2 k1 k2 H1 H2.
    specialize (Hr (0x28 :: u1 ++ 0x29 :: 0x28 :: u2 ++ [0x29]) [] (stops_open _)); cbn [app] in Hr; rewrite Hr.
    rewrite (parse_group _ _ _ _ _ _ _ _ H1), (parse_group _ _ _ _ [] _ _ _ H2), <- Hf; reflexivity. }
  destruct Hp as [cap cap' cur|cap cap' alts its cur].
  - apply (Hgo [rev cur]); [discriminate|rewrite <- Hb; cbn; unfold seq_of; rewrite rev_involutive; reflexivity| |].
    2: { intros l m E; rewrite Hone in E; cbn in E; destruct cur as [|c cur]; [discriminate|]; injection E as <- _; f_equal.
         rewrite (removelast_app ((rev cur ++ [c]))) by discriminate; cbn [removelast]; rewrite app_nil_r; reflexivity. }
    intros z1 z2; unfold finish, push; cbn [f_alts f_cur surround append_last alt_of]; unfold seq_of; f_equal.
    rewrite !rev_app_distr, rev_involutive; cbn [rev app]; reflexivity.
  - apply (Hgo (rev its :: map (fun r => [r]) (rev alts) ++ [rev cur])); [discriminate| | |].
    3: { intros l m E; rewrite Hone in E; unfold finish, push in E; cbn [f_alts f_cur] in E; destruct (alts ++ [mk_cat its]) eqn:Ea;
         [destruct alts; discriminate|]; discriminate. }
    + rewrite <- Hb; unfold finish; cbn [f_alts f_cur].
      destruct (alts ++ [mk_cat its]) as [|a l] eqn:E; [destruct alts; discriminate|].
      rewrite <- E; unfold alt_of.
      destruct (map (fun r => [r]) (rev alts) ++ [rev cur]) as [|x m] eqn:E2; [destruct (rev alts); discriminate|].
      f_equal; rewrite <- E2; cbn [rev]; rewrite rev_app_distr; cbn [rev app map].
      rewrite map_app, map_seq_one; cbn [map]; unfold seq_of; rewrite !rev_involutive; reflexivity.
    + intros z1 z2; unfold finish, push; cbn [f_alts f_cur].
      destruct (alts ++ [mk_cat (its ++ rev xs)]) as [|a l] eqn:E; [destruct alts; discriminate|].
      rewrite <- E; unfold surround.
      change ((xs ++ rev its) :: map (fun r => [r]) (rev alts) ++ [rev cur])
        with (((xs ++ rev its) :: map (fun r => [r]) (rev alts)) ++ [rev cur]).
      rewrite append_last_app; unfold alt_of; cbn [app].
      destruct (map (fun r => [r]) (rev alts) ++ [rev cur ++ [z1; z2]]) as [|x m] eqn:E2; [destruct (rev alts); discriminate|].
      f_equal; rewrite <- E2; cbn [rev]; rewrite rev_app_distr; cbn [rev app map].
      rewrite map_app, map_seq_one; cbn [map]; unfold seq_of.
      rewrite !rev_app_distr, !rev_involutive; reflexivity.
Qed.

Lemma parse_text t : scalars t -> parse_re (encode t) = parse_from 0 t.
Proof.
  intros Hs; rewrite parse_re_from, runes_encode by exact Hs.
  assert (valid_utf8 (encode t) = true) as -> by (apply valid_utf8_text; exists t; auto); reflexivity.
Qed.
Lemma compile_text t r n : scalars t -> parse_from 0 t = Ok (r, n) ->
  compile_re (encode t) = Ok {| source := encode t; tree := r; prog := simplify r; numcap := n |}.
Proof. intros Hs H; unfold compile_re; rewrite parse_text, H by exact Hs; reflexivity. Qed.

Lemma bump_nocaps k r : recaps r = [] -> bump k r = r.
Proof.
  assert (forall l, Forall (fun r => recaps r = [] -> bump k r = r) l -> flat_map recaps l = [] -> map (bump k) l = l) as Hl.
  { induction 1 as [|r' l Hr H IH]; [reflexivity|]; cbn [flat_map map]; intros E; apply app_eq_nil in E.
    rewrite Hr, IH by apply E; reflexivity. }
  induction r as [| |rs|ranges| | | | |j r IH|g r IH|g r IH|g r IH|g mn mx r IH|l IH|l IH] using re_ind';
    cbn [recaps bump]; intros E; try reflexivity; try discriminate; try (rewrite IH by exact E; reflexivity).
  - f_equal; apply Hl; assumption.
  - f_equal; apply Hl; assumption.
Qed.
Lemma caps_in_none k r : caps_in k k r -> recaps r = [].
Proof. unfold caps_in; destruct (recaps r) as [|e l]; [reflexivity|]; intros H; inversion H; lia. Qed.
(** The text of a lookaround has no groups. *)
Lemma parse_nocap x r n k : parse_from 0 (edges (nocap x)) = Ok (r, n) ->
  n = O /\ recaps r = [] /\ parse_from k (edges (nocap x)) = Ok (r, k).
Proof.
  intros H; pose proof (parse_all_opens _ _ _ _ _ _ _ (edges_opens _ (nocap_opens x)) H) as ->.
  pose proof (parse_from_caps _ _ _ _ H) as [_ Hc]; apply caps_in_none in Hc.
  split; [reflexivity|]; split; [exact Hc|].
  apply (parse_from_bump k) in H; rewrite bump_nocaps, Nat.add_0_r in H by exact Hc; exact H.
Qed.

(** What a positive lookaround is searched as, and what a negative one is tested with; a
    positive lookaround next to an edge is impossible. *)
Definition look_parses (l : look) (edge : nat) (negf : list rune -> list rune) (t : re) (neg : option (list rune * re * nat)) : Prop :=
  match l, edge with
  | NoLook, _ => t = REmpty /\ neg = None
  | Pos x, O => parse_from 0 (edges (nocap x)) = Ok (t, O) /\ neg = None
  | Pos _, S _ => False
  | Neg x, O => t = REmpty /\ exists r n, parse_from 0 (negf x) = Ok (r, n) /\ neg = Some (negf x, r, n)
  | Neg _, S _ => t = REmpty /\ neg = None
  end.

(** A tested expression as compiled. *)
Definition neg_regexp (neg : option (list rune * re * nat)) : option regexp :=
  option_map (fun '(t, r, n) => {| source := encode t; tree := r; prog := simplify r; numcap := n |}) neg.
Definition neg_width (neg : option (list rune * re * nat)) : Z :=
  match neg with Some (_, r, _) => max_width r | None => 0%Z end.

Lemma look_parses_dissolved l edge negf t neg :
  look_ok l -> (forall x, scalars x -> scalars (negf x)) -> (forall x, negf x <> []) -> look_parses l edge negf t neg ->
  exists x, dissolved l edge negf = Ok (x, match neg with Some (y, _, _) => y | None => [] end, neg_width neg, true) /\
    recaps t = [] /\ (forall k, parse_from k (edges x) = Ok (t, k)) /\
    compile_opt (encode (match neg with Some (y, _, _) => y | None => [] end)) = Ok (neg_regexp neg).
Proof.
  intros Hl Hs Hne; unfold look_parses; destruct l as [|x|x]; cbn [dissolved].
  - intros [-> ->]; exists []; repeat split.
  - destruct edge; [|contradiction]; intros [Hp ->]; exists (nocap x); split; [reflexivity|].
    destruct (parse_nocap x t O O Hp) as (_ & Hc & _); split; [exact Hc|]; split; [|reflexivity].
    intros k; apply (parse_nocap x t O k Hp).
  - destruct edge as [|edge].
    + intros [-> (r & n & Hp & ->)]; destruct Hl as [_ Hsx]; pose proof (Hs x Hsx) as Hsn.
      rewrite parse_text, Hp by exact Hsn; exists []; split; [reflexivity|]; split; [reflexivity|]; split; [reflexivity|].
      unfold compile_opt; destruct (encode (negf x)) as [|b bs] eqn:E.
      * exfalso; apply (Hne x); destruct (negf x) as [|c l]; [reflexivity|].
        cbn in E; apply app_eq_nil in E; destruct E as [E _]; exfalso; revert E; apply encode_rune_nonnil.
      * rewrite <- E, (compile_text _ _ _ Hsn Hp); reflexivity.
    + intros [-> ->]; exists []; repeat split.
Qed.

Lemma neg_behind_scalars x : scalars x -> scalars (neg_behind x).
Proof.
  intros H; unfold neg_behind; apply scalars_app; split; [apply scalars_b; reflexivity|].
  apply scalars_app; split; [apply nocap_scalars; exact H|apply scalars_b; reflexivity].
Qed.
Lemma neg_ahead_scalars x : scalars x -> scalars (neg_ahead x).
Proof.
  intros H; unfold neg_ahead; apply scalars_app; split; [apply scalars_b; reflexivity|].
  apply scalars_app; split; [apply nocap_scalars; exact H|apply scalars_b; reflexivity].
Qed.

(** The pattern of an expression whose parts parse on their own. *)
Theorem new_pattern_src e macros vars s used rb nb tb ta negb nega :
  e <> [] -> expand_vars (expand_macros e macros) vars = (encode (src_text s), used) ->
  src_ok s -> parse_from 0 (edges (s_body s)) = Ok (rb, nb) ->
  look_parses (s_behind s) (s_left s) neg_behind tb negb ->
  look_parses (s_ahead s) (s_right s) neg_ahead ta nega ->
  exists p alts, new_pattern e macros vars = Ok p /\
    alts <> [] /\ bump 2 rb = alt_of alts /\
    (forall l m, parse_from 0 (edges (s_body s) ++ txt "()") = Ok (RCat l, m) -> alts = [map (bump 2) (removelast l)]) /\
    tree (p_re p) = alt_of (surround [RCap 1 (edge_tree 0x5E (s_left s)); RCap 2 tb]
                                     [RCap (3 + nb) ta; RCap (4 + nb) (edge_tree 0x24 (s_right s))] alts) /\
    numcap (p_re p) = (4 + nb)%nat /\
    p_negA p = neg_regexp nega /\ p_negB p = neg_regexp negb /\
    p_negAWidth p = neg_width nega /\ p_negBWidth p = neg_width negb /\ p_usedVars p = used.
Proof.
  intros He Ex Hok Hbody Hb Ha.
  destruct (look_parses_dissolved _ _ _ _ _ (ok_behind _ Hok) neg_behind_scalars ltac:(discriminate) Hb)
    as (xb & Db & Cb & Pb & Nb).
  destruct (look_parses_dissolved _ _ _ _ _ (ok_ahead _ Hok) neg_ahead_scalars ltac:(discriminate) Ha)
    as (xa & Da & Ca & Pa & Na).
  destruct (dissolved_plain _ _ _ _ _ _ _ (ok_behind _ Hok) Db) as [_ Sb].
  destruct (dissolved_plain _ _ _ _ _ _ _ (ok_ahead _ Hok) Da) as [_ Sa].
  pose proof (parse_from_bump 2 _ _ _ Hbody) as Hbody2.
  destruct (parse_grouped 2 (edges (s_body s))
    [RCap 1 (edge_tree 0x5E (s_left s)); RCap 2 tb] ta (edge_tree 0x24 (s_right s)) _ _ Hbody2)
    as (alts & Hn & Hr & Hone & Hp).
  assert (parse_from 0 (edges (grouped_text s xb xa)) =
    Ok (alt_of (surround [RCap 1 (edge_tree 0x5E (s_left s)); RCap 2 tb]
      [RCap (3 + nb) ta; RCap (4 + nb) (edge_tree 0x24 (s_right s))] alts), (4 + nb)%nat)) as Hparse.
  { rewrite edges_grouped; unfold parse_from.
    rewrite (parse_group 0 _ _ _ _ _ _ _ (parse_edge_left 1 (s_left s))).
    rewrite (parse_group 1 _ _ _ _ _ _ _ (Pb 2%nat)).
    apply (Hp (edges xa) (edge_text 0x24 (s_right s)) _ _ (Pa _) (parse_edge_right _ _)). }
  unfold new_pattern; destruct e as [|e0 e]; [congruence|].
  rewrite Ex, (expand_lookaround_src s Hok), Da; cbn [bind]; rewrite Db; cbn [bind].
  rewrite expand_edges_text by (apply grouped_scalars; assumption).
  rewrite (compile_text _ _ _ (edges_scalars _ (grouped_scalars _ _ _ Hok Sb Sa)) Hparse); cbn [bind].
  rewrite Na; cbn [bind]; rewrite Nb; cbn [bind].
  do 2 eexists; split; [reflexivity|]; cbn [p_re p_negA p_negB p_negAWidth p_negBWidth p_usedVars tree numcap].
  split; [exact Hn|]; split; [exact Hr|]; split; [|repeat split].
  intros l m El; apply (parse_from_bump 2) in El; cbn [bump] in El; rewrite (Hone _ _ El); f_equal.
  clear; induction l as [|x [|y l] IH]; [reflexivity|reflexivity|].
  change (map (bump 2) (x :: y :: l)) with (bump 2 x :: bump 2 y :: map (bump 2) l).
  change (removelast (bump 2 x :: bump 2 y :: map (bump 2) l)) with (bump 2 x :: removelast (bump 2 y :: map (bump 2) l)).
  change (removelast (x :: y :: l)) with (x :: removelast (y :: l)); cbn [map]; f_equal; exact IH.
Qed.
