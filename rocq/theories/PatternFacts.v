(** From the parts of an HRE expression to the tree of the regular expression that is searched. *)
From Coq Require Import String.
From Verif Require Import GoBase Utf8 Utf8Facts Replacer Regex RegexSpec RegexFacts CaptureFacts RegexParse
  ParseFacts ReplaceFacts Hre FindFacts HslInv SourceFacts.
Open Scope N_scope.

(** ** The numbers of the groups of a parsed text *)
Definition caps_in (lo hi : nat) (r : re) : Prop := Forall (fun e => (lo < fst e <= hi)%nat) (recaps r).
Definition frame_caps (lo hi : nat) (f : frame) : Prop :=
  Forall (caps_in lo hi) (f_alts f) /\ Forall (caps_in lo hi) (f_cur f) /\
  match f_cap f with Some i => (lo < i <= hi)%nat | None => True end.

Lemma caps_in_flat lo hi l : Forall (caps_in lo hi) l -> Forall (fun e => (lo < fst e <= hi)%nat) (flat_map recaps l).
Proof. induction 1 as [|r l Hr H IH]; [constructor|]; cbn [flat_map]; apply Forall_app; split; assumption. Qed.
Lemma caps_in_cat lo hi l : Forall (caps_in lo hi) l -> caps_in lo hi (mk_cat l).
Proof.
  intros H; destruct l as [|a [|b l]]; cbn [mk_cat]; [constructor|inversion H; assumption|].
  unfold caps_in; cbn [recaps]; apply caps_in_flat, Forall_rev; exact H.
Qed.
Lemma caps_in_finish lo hi f : frame_caps lo hi f -> caps_in lo hi (finish f).
Proof.
  intros (Ha & Hc & _); unfold finish; destruct (f_alts f) as [|a l] eqn:E; [apply caps_in_cat; exact Hc|].
  unfold caps_in; cbn [recaps]; apply caps_in_flat, Forall_rev; constructor; [apply caps_in_cat; exact Hc|exact Ha].
Qed.
Lemma caps_in_group lo hi f : frame_caps lo hi f -> caps_in lo hi (group_of f).
Proof.
  intros H; pose proof (caps_in_finish _ _ _ H) as Hf; destruct H as (_ & _ & H); unfold group_of.
  destruct (f_cap f) as [i|]; [|exact Hf]; constructor; [exact H|exact Hf].
Qed.
Lemma caps_in_weaken lo hi hi' r : (hi <= hi')%nat -> caps_in lo hi r -> caps_in lo hi' r.
Proof. intros H; apply Forall_impl; intros e He; cbn in *; lia. Qed.
Lemma frame_caps_weaken lo hi hi' f : (hi <= hi')%nat -> frame_caps lo hi f -> frame_caps lo hi' f.
Proof.
  intros H (Ha & Hc & Hi); split; [|split].
  - eapply Forall_impl; [|exact Ha]; intros r; apply caps_in_weaken; exact H.
  - eapply Forall_impl; [|exact Hc]; intros r; apply caps_in_weaken; exact H.
  - destruct (f_cap f); [lia|exact I].
Qed.
Lemma frame_caps_push lo hi f r : frame_caps lo hi f -> caps_in lo hi r -> frame_caps lo hi (push f r).
Proof. intros (Ha & Hc & Hi) Hr; split; [exact Ha|]; split; [constructor; assumption|exact Hi]. Qed.
Lemma frame_caps_repeat lo hi f op f' :
  (forall r, recaps (op r) = recaps r) -> apply_repeat f op = Ok f' -> frame_caps lo hi f -> frame_caps lo hi f'.
Proof.
  intros Hop; unfold apply_repeat; destruct (f_cur f) as [|r cur] eqn:E; [discriminate|].
  intros H (Ha & Hc & Hi); injection H as <-; split; [exact Ha|]; split; [|exact Hi].
  cbn [f_cur]; rewrite E in Hc; inversion Hc; subst; constructor; [unfold caps_in; rewrite Hop|]; assumption.
Qed.

Ltac pstep_cases :=
  repeat match goal with
  | |- (if ?b then _ else _) = Ok _ -> _ => destruct b eqn:?
  | |- match ?t with [] => _ | _ :: _ => _ end = Ok _ -> _ => destruct t as [|?c ?t] eqn:?
  | |- bind (parse_class ?a ?b ?c ?d) _ = _ -> _ => destruct (parse_class a b c d) as [[? ?]| | | | |] eqn:?; cbn [bind]
  | |- bind (parse_escape ?a) _ = _ -> _ => destruct (parse_escape a) as [[? ?]| | | | |] eqn:?; cbn [bind]
  | |- bind (apply_repeat ?a ?b) _ = _ -> _ => destruct (apply_repeat a b) eqn:?; cbn [bind]
  | |- match parse_repeat ?t with Some _ => _ | None => _ end = _ -> _ => destruct (parse_repeat t) as [[[? ?] ?]|] eqn:?
  | |- match ?t with Some _ => _ | None => _ end = _ -> _ => destruct t as [?x|]
  | |- (let '(_, _) := ?t in _) = _ -> _ => destruct t as [? ?] eqn:?
  end.

Lemma pstep_caps lo c t1 o cur n lr t' o' c' n' lr' :
  (lo <= n)%nat ->
  pstep c t1 o cur n lr = Ok (t', o', c', n', lr') ->
  Forall (frame_caps lo n) o -> frame_caps lo n cur ->
  (n <= n')%nat /\ Forall (frame_caps lo n') o' /\ frame_caps lo n' c'.
Proof.
  intros Hlo; unfold pstep; pstep_cases; intros H; try discriminate; injection H; clear H; intros; subst.
  all: split; [lia|].
  all: try (split; [assumption|]; apply frame_caps_push; [assumption|constructor]).
  all: try (split; [assumption|]; match goal with
    H : apply_repeat _ _ = Ok ?f |- frame_caps _ _ ?f => eapply frame_caps_repeat; [|exact H|assumption];
      intros; try destruct (_ =? _); try destruct (_ =? _); reflexivity end).
  - split; [constructor; assumption|]; repeat split; constructor.
  - split; [|split; [constructor|split; [constructor|cbn; lia]]].
    constructor; [eapply frame_caps_weaken; [|eassumption]; lia|].
    eapply Forall_impl; [|eassumption]; intros f; apply frame_caps_weaken; lia.
  - split; [assumption|].
    match goal with H : frame_caps _ _ cur |- _ => destruct H as (Ha & Hc & Hi) end.
    split; [|split]; cbn [f_alts f_cur f_cap]; [constructor; [apply caps_in_cat|]; assumption|constructor|assumption].
  - match goal with H : Forall _ (_ :: _) |- _ => inversion H; subst end.
    split; [assumption|]; apply frame_caps_push; [assumption|apply caps_in_group; assumption].
  - split; [assumption|]; eapply frame_caps_repeat; [|eassumption|assumption].
    intros r; destruct (c =? 42); [reflexivity|]; destruct (c =? 43); reflexivity.
Qed.

Lemma parse_all_caps lo t o cur n lr r n' :
  (lo <= n)%nat -> parse_all t o cur n lr = Ok (r, n') ->
  Forall (frame_caps lo n) o -> frame_caps lo n cur -> (n <= n')%nat /\ caps_in lo n' r.
Proof.
  remember (length t) as j eqn:Ej; revert t Ej o cur n lr; induction j as [j IH] using lt_wf_ind.
  intros t Ej o cur n lr Hlo H Ho Hc; destruct t as [|c t1].
  - cbn in H; destruct o; [|discriminate]; injection H as <- <-; split; [lia|apply caps_in_finish; exact Hc].
  - rewrite parse_all_step in H.
    destruct (pstep c t1 o cur n lr) as [[[[[t' o'] c'] n1] lr1]| | | | |] eqn:E; cbn [bind] in H; try discriminate.
    pose proof (pstep_tail _ _ _ _ _ _ _ _ _ _ _ E) as Hl; cbn [length] in Ej.
    destruct (pstep_caps lo _ _ _ _ _ _ _ _ _ _ _ Hlo E Ho Hc) as (Hn & Ho' & Hc').
    destruct (IH (length t') ltac:(lia) t' eq_refl o' c' n1 lr1 ltac:(lia) H Ho' Hc') as [H1 H2]; split; [lia|exact H2].
Qed.
Lemma parse_from_caps k t r n : parse_from k t = Ok (r, n) -> (k <= n)%nat /\ caps_in k n r.
Proof.
  intros H; apply (parse_all_caps k _ _ _ _ _ _ _ (le_n k) H); [constructor|].
  repeat split; constructor.
Qed.

(** ** Texts without capturing groups *)
Definition opens_plain (t : list rune) : Prop :=
  forall a b, t = a ++ 0x28 :: b -> exists b', b = 0x3F :: 0x3A :: b'.

Lemma opens_plain_suffix a b : opens_plain (a ++ b) -> opens_plain b.
Proof. intros H c d ->; apply (H (a ++ c) d); rewrite <- app_assoc; reflexivity. Qed.
Lemma opens_plain_app a b : opens_plain a -> opens_plain b -> opens_plain (a ++ b).
Proof.
  intros Ha Hb c d E; destruct (app_eq_app _ _ _ _ E) as (z & [[E1 E2]|[E1 E2]]).
  - destruct z as [|x z].
    + cbn in E2; apply (Hb []); symmetry; exact E2.
    + cbn in E2; injection E2 as <- ->; destruct (Ha _ _ E1) as (b' & ->); exists (b' ++ b); reflexivity.
  - apply (Hb z); exact E2.
Qed.
Lemma opens_plain_none a : Forall (fun r => r <> 0x28) a -> opens_plain a.
Proof.
  intros H b c ->; exfalso; apply Forall_app in H; destruct H as [_ H]; inversion H; congruence.
Qed.
Lemma nocap_opens x : opens_plain (nocap x).
Proof.
  induction x as [|r x IH]; [intros [|] b E; discriminate|].
  cbn [nocap flat_map]; apply opens_plain_app; [|exact IH].
  destruct (N.eqb_spec r 0x28) as [->|Hr]; [|apply opens_plain_none; constructor; [exact Hr|constructor]].
  intros a b E; destruct a as [|a1 [|a2 [|a3 a]]]; try discriminate.
  - injection E as <-; exists []; reflexivity.
  - cbn in E; injection E as _ E; destruct a; discriminate.
Qed.
(** The steps of the parser move through suffixes of the text. *)
Lemma parse_escape_suffix t x t' : parse_escape t = Ok (x, t') -> exists p, t = p ++ t'.
Proof. intros H; apply parse_escape_tail in H; destruct H as (d & ->); exists [d]; reflexivity. Qed.
Lemma parse_class_char_suffix t c t' : parse_class_char t = Ok (c, t') -> exists p, t = p ++ t'.
Proof.
  destruct t as [|d t]; [discriminate|]; cbn; destruct (d =? 0x5C).
  - intros H; destruct (parse_escape_suffix _ _ _ H) as (p & ->); exists (d :: p); reflexivity.
  - intros H; injection H as <- <-; exists [d]; reflexivity.
Qed.
Lemma parse_class_suffix f t first acc rs t' :
  parse_class f t first acc = Ok (rs, t') -> exists p, t = p ++ t'.
Proof.
  revert t first acc; induction f as [|f IH]; intros t first acc H; [discriminate|].
  destruct t as [|c t1]; [discriminate|]; cbn [parse_class] in H.
  destruct ((c =? 0x5D) && negb first); [injection H as _ <-; exists [c]; reflexivity|].
  destruct ((c =? 0x5B) && _); [discriminate|].
  match type of H with match ?e with _ => _ end = _ => destruct e as [[k t2]|] eqn:Ek end.
  - destruct (IH _ _ _ H) as (p & ->).
    destruct (c =? 0x5C); [|discriminate]; destruct t1 as [|c1 t1]; [discriminate|].
    destruct (perl_class c1); [|discriminate]; injection Ek as _ ->; exists (c :: c1 :: p); reflexivity.
  - destruct ((c =? 0x5C) && _); [discriminate|].
    destruct (parse_class_char (c :: t1)) as [[lo t2]| | | | |] eqn:E; cbn [bind] in H; try discriminate.
    destruct (parse_class_char_suffix _ _ _ E) as (p & ->).
    destruct t2 as [|d t3].
    + destruct (IH _ _ _ H) as (q & ->); exists (p ++ q); apply app_assoc.
    + destruct ((d =? 0x2D) && _).
      * destruct (parse_class_char t3) as [[hi t4]| | | | |] eqn:E2; cbn [bind] in H; try discriminate.
        destruct (hi <? lo); [discriminate|].
        destruct (parse_class_char_suffix _ _ _ E2) as (p2 & ->); destruct (IH _ _ _ H) as (q & ->).
        exists (p ++ d :: p2 ++ q); rewrite <- !app_assoc; cbn [app]; rewrite <- app_assoc; reflexivity.
      * destruct (IH _ _ _ H) as (q & E3); rewrite E3; exists (p ++ q); apply app_assoc.
Qed.
Lemma take_digits_suffix t ds r : take_digits t = (ds, r) -> exists p, t = p ++ r.
Proof. intros H; apply take_digits_app in H; destruct H as [-> _]; exists ds; reflexivity. Qed.
Lemma parse_int_suffix t v r : parse_int t = Some (v, r) -> exists p, t = p ++ r.
Proof.
  unfold parse_int; destruct (take_digits t) as [ds r'] eqn:E; apply take_digits_suffix in E.
  destruct ds as [|d [|d2 ds]]; [discriminate| |]; try destruct (d =? 0x30); intros H; try discriminate;
    injection H as _ <-; exact E.
Qed.
(** A repetition is closed by a brace. *)
Lemma parse_repeat_suffix t mn mx r : parse_repeat t = Some (mn, mx, r) -> exists p, t = p ++ 0x7D :: r.
Proof.
  unfold parse_repeat; destruct (parse_int t) as [[v t1]|] eqn:E; [|discriminate].
  destruct (parse_int_suffix _ _ _ E) as (p & ->); destruct t1 as [|c t2]; [discriminate|].
  destruct (N.eqb_spec c 0x7D) as [->|]; [intros H; injection H as _ _ <-; exists p; reflexivity|].
  destruct (c =? 0x2C); [|discriminate]; destruct t2 as [|c2 t3]; [discriminate|].
  destruct (N.eqb_spec c2 0x7D) as [->|].
  - intros H; injection H as _ _ <-; exists (p ++ [c]); rewrite <- app_assoc; reflexivity.
  - destruct (parse_int (c2 :: t3)) as [[m [|c4 t5]]|] eqn:E2; try discriminate.
    destruct (N.eqb_spec c4 0x7D) as [->|]; [|discriminate]; intros H; injection H as _ _ <-.
    destruct (parse_int_suffix _ _ _ E2) as (q & ->).
    exists (p ++ c :: q); rewrite <- app_assoc; reflexivity.
Qed.
Lemma lazy_suffix_suffix t g t' : lazy_suffix t = (g, t') -> exists p, t = p ++ t'.
Proof.
  destruct t as [|c t]; cbn [lazy_suffix]; [intros H; injection H as _ <-; exists []; reflexivity|].
  destruct (c =? 0x3F); intros H; injection H as _ <-; [exists [c]|exists []]; reflexivity.
Qed.
Lemma pstep_suffix c t1 o cur n lr t' o' c' n' lr' :
  pstep c t1 o cur n lr = Ok (t', o', c', n', lr') -> exists p, t1 = p ++ t'.
Proof.
  unfold pstep; pstep_cases; intros H; try discriminate; injection H; clear H; intros; subst.
  all: repeat match goal with
    | H : lazy_suffix _ = _ |- _ => apply lazy_suffix_suffix in H; destruct H as (?p & ->)
    | H : parse_repeat _ = Some _ |- _ => apply parse_repeat_suffix in H; destruct H as (?p & ->)
    | H : parse_class _ _ _ _ = _ |- _ => apply parse_class_suffix in H; destruct H as (?p & ->)
    | H : parse_escape _ = _ |- _ => apply parse_escape_suffix in H; destruct H as (?p & ?H)
    | H : (if ?b then _ else _) = (_, _) |- _ => destruct b; injection H; intros; subst; clear H
    | H : match ?t with [] => _ | _ :: _ => _ end = (_, _) |- _ => destruct t as [|?d ?t]
    | H : (_, _) = (_, _) |- _ => injection H; intros; subst; clear H
    end.
  all: first [exists []; reflexivity | eexists [_]; reflexivity | eexists [_; _]; reflexivity
    | eexists; reflexivity | eexists (_ :: _); reflexivity | eexists; eassumption
    | eexists (_ ++ _ :: _); rewrite <- app_assoc; reflexivity | idtac].
Qed.

Lemma opens_plain_cons r t : opens_plain t -> (r = 0x28 -> exists b', t = 0x3F :: 0x3A :: b') -> opens_plain (r :: t).
Proof.
  intros Ht Hr [|x a] b E; cbn [app] in E; injection E as -> ->; [apply Hr; reflexivity|].
  apply (Ht a); reflexivity.
Qed.
Lemma swap_opens c one many k rs :
  c <> 0x28 -> c <> 0x3F -> c <> 0x3A -> opens_plain one -> opens_plain many ->
  opens_plain rs -> opens_plain (swap_runs c one many k rs).
Proof.
  intros H1 H2 H3 Ho Hm; revert k; induction rs as [|r rs IH]; intros k Hrs; cbn [swap_runs].
  - destruct k as [|[|k]]; cbn [flush]; [intros [|] b E; discriminate|exact Ho|exact Hm].
  - pose proof (opens_plain_suffix [r] rs Hrs) as Hs.
    destruct (N.eqb_spec r c) as [->|Hr]; [apply IH; exact Hs|].
    apply opens_plain_app.
    + destruct k as [|[|k]]; cbn [flush]; [intros [|] b E; discriminate|exact Ho|exact Hm].
    + apply opens_plain_cons; [apply IH; exact Hs|].
      intros ->; destruct (Hrs [] rs eq_refl) as (b' & ->); exists (swap_runs c one many 0 b').
      cbn [swap_runs]; destruct (N.eqb_spec 0x3F c); [congruence|]; destruct (N.eqb_spec 0x3A c); [congruence|].
      reflexivity.
Qed.
Fixpoint opens_plain_b (t : list rune) : bool :=
  match t with
  | [] => true
  | r :: t' => (if r =? 0x28 then match t' with a :: b :: _ => (a =? 0x3F) && (b =? 0x3A) | _ => false end else true)
               && opens_plain_b t'
  end.
Lemma opens_plain_true t : opens_plain_b t = true -> opens_plain t.
Proof.
  induction t as [|r t IH]; [intros _ [|] b E; discriminate|]; cbn [opens_plain_b]; intros H.
  apply andb_true_iff in H; destruct H as [H1 H2]; apply opens_plain_cons; [apply IH; exact H2|].
  intros ->; cbn in H1; destruct t as [|a [|b t]]; try discriminate.
  apply andb_true_iff in H1; destruct H1 as [Ha Hb]; apply N.eqb_eq in Ha, Hb; subst; eexists; reflexivity.
Qed.
Lemma edges_opens t : opens_plain t -> opens_plain (edges t).
Proof.
  intros H; unfold edges; repeat (apply swap_opens; [discriminate..|apply opens_plain_true; reflexivity|apply opens_plain_true; reflexivity|]).
  exact H.
Qed.

Lemma pstep_opens c t1 o cur n lr t' o' c' n' lr' :
  opens_plain (c :: t1) -> pstep c t1 o cur n lr = Ok (t', o', c', n', lr') -> n' = n.
Proof.
  intros Ho; unfold pstep; destruct (N.eqb_spec c 0x28) as [->|_].
  - destruct (Ho [] t1 eq_refl) as (b' & ->); cbn; intros H; injection H; auto.
  - pstep_cases; intros H; try discriminate; injection H; auto.
Qed.
Lemma parse_all_opens t o cur n lr r n' : opens_plain t -> parse_all t o cur n lr = Ok (r, n') -> n' = n.
Proof.
  remember (length t) as j eqn:Ej; revert t Ej o cur n lr; induction j as [j IH] using lt_wf_ind.
  intros t Ej o cur n lr Ho H; destruct t as [|c t1].
  - cbn in H; destruct o; [|discriminate]; injection H; auto.
  - rewrite parse_all_step in H.
    destruct (pstep c t1 o cur n lr) as [[[[[t' o'] c'] n1] lr1]| | | | |] eqn:E; cbn [bind] in H; try discriminate.
    pose proof (pstep_tail _ _ _ _ _ _ _ _ _ _ _ E) as Hl; cbn [length] in Ej.
    pose proof (pstep_opens _ _ _ _ _ _ _ _ _ _ _ Ho E) as ->.
    destruct (pstep_suffix _ _ _ _ _ _ _ _ _ _ _ E) as (p & ->).
    eapply (IH (length t')); [lia|reflexivity| |exact H].
    apply (opens_plain_suffix (c :: p)); exact Ho.
Qed.

(** ** Texts without a closing brace contain no counted repetition *)
Fixpoint uncounted (r : re) : bool :=
  match r with
  | RRepeat _ _ _ _ => false
  | RCap _ r | RStar _ r | RPlus _ r | RQuest _ r => uncounted r
  | RCat l | RAlt l => forallb uncounted l
  | _ => true
  end.
Definition frame_unc (f : frame) : Prop :=
  forallb uncounted (f_alts f) = true /\ forallb uncounted (f_cur f) = true.
Lemma forallb_rev {A} (f : A -> bool) l : forallb f (rev l) = forallb f l.
Proof.
  induction l as [|x l IH]; [reflexivity|]; cbn [rev forallb]; rewrite forallb_app, IH; cbn [forallb].
  rewrite andb_true_r; apply andb_comm.
Qed.
Lemma unc_cat l : forallb uncounted l = true -> uncounted (mk_cat l) = true.
Proof.
  intros H; destruct l as [|a [|b l]]; cbn [mk_cat]; [reflexivity|cbn in H; rewrite andb_true_r in H; exact H|].
  cbn [uncounted]; rewrite forallb_rev; exact H.
Qed.
Lemma unc_finish f : frame_unc f -> uncounted (finish f) = true.
Proof.
  intros (Ha & Hc); unfold finish; destruct (f_alts f) as [|a l]; [apply unc_cat; exact Hc|].
  cbn [uncounted]; rewrite forallb_rev; cbn [forallb]; rewrite unc_cat by exact Hc; exact Ha.
Qed.
Lemma unc_group f : frame_unc f -> uncounted (group_of f) = true.
Proof. intros H; apply unc_finish in H; unfold group_of; destruct (f_cap f); exact H. Qed.
Lemma unc_push f r : frame_unc f -> uncounted r = true -> frame_unc (push f r).
Proof. intros (Ha & Hc) Hr; split; [exact Ha|]; cbn; rewrite Hr; exact Hc. Qed.
Lemma unc_repeat f op f' :
  (forall r, uncounted (op r) = uncounted r) -> apply_repeat f op = Ok f' -> frame_unc f -> frame_unc f'.
Proof.
  intros Hop; unfold apply_repeat; destruct (f_cur f) as [|r cur] eqn:E; [discriminate|].
  intros H (Ha & Hc); injection H as <-; split; [exact Ha|]; cbn [f_cur forallb].
  rewrite Hop; rewrite E in Hc; exact Hc.
Qed.
Lemma pstep_unc c t1 o cur n lr t' o' c' n' lr' :
  Forall (fun r => r <> 0x7D) t1 -> pstep c t1 o cur n lr = Ok (t', o', c', n', lr') ->
  Forall frame_unc o -> frame_unc cur -> Forall frame_unc o' /\ frame_unc c'.
Proof.
  intros Hb; unfold pstep; pstep_cases; intros H; try discriminate; injection H; clear H; intros; subst.
  all: try (split; [assumption|]; apply unc_push; [assumption|reflexivity]).
  - split; [constructor; assumption|split; reflexivity].
  - split; [constructor; assumption|split; reflexivity].
  - split; [assumption|].
    match goal with H : frame_unc cur |- _ => destruct H as (Ha & Hc) end.
    split; cbn [f_alts f_cur forallb]; [rewrite unc_cat by exact Hc; exact Ha|reflexivity].
  - match goal with H : Forall _ (_ :: _) |- _ => inversion H; subst end.
    split; [assumption|]; apply unc_push; [assumption|apply unc_group; assumption].
  - split; [assumption|]; eapply unc_repeat; [|eassumption|assumption].
    intros r; destruct (c =? 42); [reflexivity|]; destruct (c =? 43); reflexivity.
  - exfalso; match goal with H : parse_repeat _ = Some _ |- _ => apply parse_repeat_suffix in H; destruct H as (p & ->) end.
    apply Forall_app in Hb; destruct Hb as [_ Hb]; inversion Hb; congruence.
Qed.
Lemma parse_all_unc t o cur n lr r n' :
  Forall (fun r => r <> 0x7D) t -> parse_all t o cur n lr = Ok (r, n') ->
  Forall frame_unc o -> frame_unc cur -> uncounted r = true.
Proof.
  remember (length t) as j eqn:Ej; revert t Ej o cur n lr; induction j as [j IH] using lt_wf_ind.
  intros t Ej o cur n lr Hb H Ho Hc; destruct t as [|c t1].
  - cbn in H; destruct o; [|discriminate]; injection H as <- _; apply unc_finish; exact Hc.
  - rewrite parse_all_step in H; inversion Hb as [|x y Hx Hb1]; subst.
    destruct (pstep c t1 o cur n lr) as [[[[[t' o'] c'] n1] lr1]| | | | |] eqn:E; cbn [bind] in H; try discriminate.
    pose proof (pstep_tail _ _ _ _ _ _ _ _ _ _ _ E) as Hl; cbn [length] in IH.
    destruct (pstep_unc _ _ _ _ _ _ _ _ _ _ _ Hb1 E Ho Hc) as (Ho' & Hc').
    destruct (pstep_suffix _ _ _ _ _ _ _ _ _ _ _ E) as (p & ->).
    apply Forall_app in Hb1; destruct Hb1 as [_ Hb1].
    eapply (IH (length t')); [rewrite app_length in *; lia|reflexivity|exact Hb1|exact H|exact Ho'|exact Hc'].
Qed.
Lemma parse_from_unc k t r n : Forall (fun r => r <> 0x7D) t -> parse_from k t = Ok (r, n) -> uncounted r = true.
Proof. intros Hb H; eapply parse_all_unc; [exact Hb|exact H|constructor|split; reflexivity]. Qed.

(** ** Texts in which every opening brace is followed by a closing one *)
Definition paired (t : list rune) : Prop := forall a b, t = a ++ 0x7B :: b -> exists b', b = 0x7D :: b'.
Lemma paired_suffix a b : paired (a ++ b) -> paired b.
Proof. intros H c d ->; apply (H (a ++ c) d); rewrite <- app_assoc; reflexivity. Qed.
Lemma paired_app a b : paired a -> paired b -> paired (a ++ b).
Proof.
  intros Ha Hb c d E; destruct (app_eq_app _ _ _ _ E) as (z & [[E1 E2]|[E1 E2]]).
  - destruct z as [|x z].
    + cbn in E2; apply (Hb []); symmetry; exact E2.
    + cbn in E2; injection E2 as <- ->; destruct (Ha _ _ E1) as (b' & ->); exists (b' ++ b); reflexivity.
  - apply (Hb z); exact E2.
Qed.
Lemma paired_none a : Forall (fun r => r <> 0x7B) a -> paired a.
Proof. intros H b c ->; exfalso; apply Forall_app in H; destruct H as [_ H]; inversion H; congruence. Qed.
Lemma paired_plain a : plain a -> paired a.
Proof. intros H; apply paired_none; eapply Forall_impl; [|exact H]; cbn; tauto. Qed.
Lemma paired_cons r a : r <> 0x7B -> paired a -> paired (r :: a).
Proof. intros Hr Ha; apply (paired_app [r]); [apply paired_none; constructor; [exact Hr|constructor]|exact Ha]. Qed.
Fixpoint paired_b (t : list rune) : bool :=
  match t with
  | [] => true
  | r :: t' => (if r =? 0x7B then match t' with a :: _ => a =? 0x7D | _ => false end else true) && paired_b t'
  end.
Lemma paired_true t : paired_b t = true <-> paired t.
Proof.
  induction t as [|r t IH]; [split; [intros _ [|] b E; discriminate|reflexivity]|]; cbn [paired_b]; split; intros H.
  - apply andb_true_iff in H; destruct H as [H1 H2]; intros [|x a] b E; cbn [app] in E; injection E as -> ->.
    + cbn in H1; destruct b as [|y b]; [discriminate|]; apply N.eqb_eq in H1; subst; eexists; reflexivity.
    + apply (proj1 IH H2 a); reflexivity.
  - apply andb_true_iff; split; [|apply IH; apply (paired_suffix [r]); exact H].
    destruct (N.eqb_spec r 0x7B) as [->|]; [|reflexivity].
    destruct (H [] t eq_refl) as (b' & ->); reflexivity.
Qed.

Lemma no_zero_width t : scalars t -> paired t -> match_string reZeroWidth (encode t) = false.
Proof.
  intros Hs Hp; unfold match_string; rewrite glyphs_encode, zerowidth_prog by exact Hs.
  destruct (search (braced 1) (map gl t) 0) as [[[a b] c]|] eqn:E; [|reflexivity].
  exfalso; destruct (search_sound _ _ _ _ _ _ E) as (u & v & s' & Et & _ & _ & Hr).
  apply runs_braced in Hr; destruct Hr as (w1 & lk & w2 & E1 & Hn & Hl & _).
  rewrite E1 in Et; destruct (map_gl_split _ _ _ Et) as (ra & rb & -> & _ & E2).
  destruct rb as [|r rb]; [discriminate|]; cbn [map] in E2; injection E2 as E3 E4 E2; subst r.
  destruct (Hp _ _ eq_refl) as (b' & ->); cbn [map] in E2.
  destruct lk as [|[ch w] lk]; [congruence|]; cbn [app] in E2; injection E2 as -> _ _.
  inversion Hl; subst; cbn in *; congruence.
Qed.
