(** ReplaceAllStringFunc, one match at a time. *)
From Verif Require Import GoBase Utf8 Utf8Facts Regex RegexSpec RegexFacts.
Open Scope nat_scope.

(** ** Searching at another position *)
Fixpoint has_begin (r : rx) : bool :=
  match r with
  | XBegin => true
  | XCap _ r | XStar _ r => has_begin r
  | XCat a b | XAlt a b => has_begin a || has_begin b
  | _ => false
  end.

Definition move_caps (d : nat) (c : caps) : caps := map (fun '(i, (a, b)) => (i, (a + d, b + d))) c.
Definition move (d : nat) (m : nat * nat * caps) : nat * nat * caps :=
  let '(a, b, c) := m in (a + d, b + d, move_caps d c).

Lemma mt_move {A B} (F : A -> B) d r : has_begin r = false ->
  forall s p c (k : text -> nat -> caps -> option A) (k' : text -> nat -> caps -> option B),
  (forall s p c, k' s (p + d) (move_caps d c) = option_map F (k s p c)) ->
  mt r s (p + d) (move_caps d c) k' = option_map F (mt r s p c k).
Proof.
  induction r as [| |ranges| | |i r IH|a IHa b IHb|a IHa b IHb|g r IH]; intros Hb s p c k k' Hk; cbn [mt].
  - reflexivity.
  - apply Hk.
  - destruct s as [|[ch w] s]; [reflexivity|]; destruct (in_set ranges ch); [|reflexivity].
    replace (p + d + w) with (p + w + d) by lia; apply Hk.
  - discriminate.
  - destruct s; [apply Hk|reflexivity].
  - apply (IH Hb); intros s1 p1 c1; exact (Hk s1 p1 ((i, (p, p1)) :: c1)).
  - cbn [has_begin] in Hb; apply orb_false_iff in Hb.
    apply (IHa (proj1 Hb)); intros s1 p1 c1; apply (IHb (proj2 Hb)); exact Hk.
  - cbn [has_begin] in Hb; apply orb_false_iff in Hb.
    rewrite (IHa (proj1 Hb) s p c k k' Hk); destruct (mt a s p c k); cbn [option_map]; [reflexivity|].
    apply (IHb (proj2 Hb)); exact Hk.
  - specialize (IH Hb).
    assert (forall n s p c, mt_loop g r k' n s (p + d) (move_caps d c) = option_map F (mt_loop g r k n s p c)) as H.
    { intros n; induction n as [|x n IHn]; intros s1 p1 c1; cbn [mt_loop]; [apply Hk|].
      assert (mt r s1 (p1 + d) (move_caps d c1)
          (fun s' p' c' => if p' <=? p1 + d then None else mt_loop g r k' n s' p' c') =
        option_map F (mt r s1 p1 c1 (fun s' p' c' => if p' <=? p1 then None else mt_loop g r k n s' p' c'))) as ->.
      { apply IH; intros s2 p2 c2.
        replace (p2 + d <=? p1 + d) with (p2 <=? p1)
          by (destruct (Nat.leb_spec p2 p1), (Nat.leb_spec (p2 + d) (p1 + d)); try reflexivity; lia).
        destruct (p2 <=? p1); [reflexivity|apply IHn]. }
      rewrite Hk; destruct g.
      - destruct (mt r s1 p1 c1 _); cbn [option_map]; reflexivity.
      - destruct (k s1 p1 c1); cbn [option_map]; reflexivity. }
    apply H.
Qed.

Lemma search_move r d : has_begin r = false ->
  forall s p, search r s (p + d) = option_map (move d) (search r s p).
Proof.
  intros Hb s; induction s as [|[ch w] s IH]; intros p; cbn [search];
    rewrite (mt_move (fun '(p', c) => (p' + d, move_caps d c)) d r Hb _ p [] (fun _ p' c => Some (p', c)));
    try reflexivity;
    (destruct (mt r _ p [] _) as [[p' c]|]; cbn [option_map]; [reflexivity|]); try reflexivity.
  replace (p + d + w) with (p + w + d) by lia; apply IH.
Qed.

(** ** Continuing after a match *)
Lemma drop_to_gwidth u s p : wide (u ++ s) -> drop_to (p + gwidth u) (u ++ s) p = (s, p + gwidth u).
Proof.
  revert p; induction u as [|[ch w] u IH]; intros p Hw.
  - rewrite gwidth_nil, Nat.add_0_r; cbn [app]; destruct s as [|[ch w] s]; cbn [drop_to]; [reflexivity|].
    rewrite Nat.leb_refl; reflexivity.
  - inversion Hw as [|x y Hg Hw']; subst; cbn [snd] in Hg.
    rewrite gwidth_cons; cbn [snd app drop_to].
    destruct (Nat.leb_spec (p + (w + gwidth u)) p); [lia|].
    replace (p + (w + gwidth u)) with (p + w + gwidth u) by lia; apply IH; exact Hw'.
Qed.

Definition never_empty (e : regexp) : Prop :=
  forall s p a b c, search (prog e) s p = Some (a, b, c) -> wide s -> a < b.

Lemma find_all_nil r f p : find_all f r [] p = [].
Proof.
  destruct f as [|f]; [reflexivity|]; cbn [find_all].
  destruct (search r [] p) as [[[a b] c]|] eqn:E; [|reflexivity].
  apply search_sound in E; destruct E as (u & v & s' & E & -> & -> & _).
  destruct u; [|discriminate]; destruct v; [|discriminate].
  rewrite gwidth_nil, !Nat.add_0_r, Nat.leb_refl; reflexivity.
Qed.
Lemma find_all_fuel r f f' s p :
  length s <= f -> length s <= f' -> wide s -> find_all f r s p = find_all f' r s p.
Proof.
  revert f' s p; induction f as [|f IH]; intros f' s p Hf Hf' Hw.
  { destruct s; [|cbn in Hf; lia]; rewrite !find_all_nil; reflexivity. }
  destruct f' as [|f']; [destruct s; [|cbn in Hf'; lia]; rewrite !find_all_nil; reflexivity|].
  cbn [find_all]; destruct (search r s p) as [[[a b] c]|] eqn:E; [|reflexivity].
  destruct (Nat.leb_spec b a) as [|Hlt]; [reflexivity|].
  apply search_sound in E; destruct E as (u & v & s' & -> & -> & -> & _).
  replace (p + gwidth u + gwidth v) with (p + gwidth (u ++ v)) by (rewrite gwidth_app; lia).
  assert (length s' < length (u ++ v ++ s')).
  { rewrite !app_length; destruct v; [rewrite gwidth_nil in Hlt; lia|cbn; lia]. }
  rewrite app_assoc in Hw |- *; rewrite drop_to_gwidth by exact Hw; f_equal.
  apply wide_app in Hw; apply IH; try apply Hw; lia.
Qed.

Lemma find_all_move r d f s p : has_begin r = false ->
  find_all f r s (p + d) = map (move d) (find_all f r s p).
Proof.
  intros Hb; revert s p; induction f as [|f IH]; intros s p; [reflexivity|]; cbn [find_all].
  rewrite (search_move r d Hb); destruct (search r s p) as [[[a b] c]|]; cbn [option_map move]; [|reflexivity].
  replace (b + d <=? a + d) with (b <=? a)
    by (destruct (Nat.leb_spec b a), (Nat.leb_spec (b + d) (a + d)); try reflexivity; lia).
  destruct (b <=? a); [reflexivity|].
  assert (forall s p, drop_to (b + d) s (p + d) = (fst (drop_to b s p), snd (drop_to b s p) + d)) as H.
  { intros s0; induction s0 as [|[ch w] s0 IHs]; intros p0; cbn [drop_to]; [reflexivity|].
    replace (b + d <=? p0 + d) with (b <=? p0)
      by (destruct (Nat.leb_spec b p0), (Nat.leb_spec (b + d) (p0 + d)); try reflexivity; lia).
    destruct (b <=? p0); [reflexivity|].
    replace (p0 + d + w) with (p0 + w + d) by lia; apply IHs. }
  rewrite H; destruct (drop_to b s p) as [s' p']; cbn [fst snd map move]; rewrite IH; reflexivity.
Qed.

Lemma glyphs_wide s : wide (glyphs s).
Proof. exact (glyphs_width_pos s). Qed.
Lemma glyphs_length s : length (glyphs s) <= length s.
Proof.
  pose proof (gwidth_glyphs s) as E; pose proof (glyphs_wide s) as Hw; unfold wide in Hw.
  rewrite <- E; clear E; induction Hw as [|g gs Hg Hw IH]; [cbn; lia|]; rewrite gwidth_cons; cbn [length]; lia.
Qed.

Lemma replace_matches_move {S} d ms (f : S -> bytes -> S * bytes) st s last :
  d <= length s ->
  replace_matches (map (move d) ms) f st s (last + d) = replace_matches ms f st (skipn d s) last.
Proof.
  intros Hd; revert st last; induction ms as [|[[a b] c] ms IH]; intros st last; cbn [map move replace_matches].
  - rewrite skipn_add; f_equal; f_equal; lia.
  - assert (forall i j, sub s (i + d) (j + d) = sub (skipn d s) i j) as Hsub.
    { intros i j; unfold sub; rewrite skipn_add; f_equal; [lia|f_equal; lia]. }
    rewrite !Hsub; destruct (f st (sub (skipn d s) a b)) as [st1 new].
    rewrite IH; destruct (replace_matches ms f st1 (skipn d s) b); reflexivity.
Qed.

(** The first match, then the rest of the string. *)
Lemma find_all_unroll e s :
  has_begin (prog e) = false ->
  find_all_index e s =
  match search (prog e) (glyphs s) 0 with
  | None => []
  | Some (a, b, c) =>
    if b <=? a then []
    else (a, b, c) :: map (move b) (find_all_index e (skipn b s))
  end.
Proof.
  intros Hb; unfold find_all_index.
  pose proof (glyphs_length s) as Hl.
  rewrite (find_all_fuel (prog e) (length s) (S (length s)) (glyphs s) 0) by (apply glyphs_wide || lia).
  cbn [find_all]; destruct (search (prog e) (glyphs s) 0) as [[[a b] c]|] eqn:E; [|reflexivity].
  destruct (Nat.leb_spec b a) as [|Hlt]; [reflexivity|].
  apply search_sound in E; destruct E as (u & v & s' & E & -> & -> & _); cbn [Nat.add] in *.
  pose proof (glyphs_wide s) as Hw.
  assert (skipn (gwidth u + gwidth v) s = skipn (gwidth (u ++ v)) s) as -> by (rewrite gwidth_app; reflexivity).
  rewrite E in *; rewrite app_assoc in *.
  pose proof (drop_to_gwidth (u ++ v) s' 0 Hw) as Hd; cbn [Nat.add] in Hd; rewrite gwidth_app in Hd.
  rewrite Hd; f_equal.
  rewrite (glyphs_split s (u ++ v) s' E).
  change (gwidth u + gwidth v) with (0 + (gwidth u + gwidth v)) at 1.
  rewrite (find_all_move (prog e) (gwidth u + gwidth v) (length s) s' 0 Hb); f_equal.
  apply wide_app in Hw; rewrite app_length in Hl.
  apply find_all_fuel; [lia| |apply Hw].
  rewrite <- (glyphs_split s (u ++ v) s' E); apply glyphs_length.
Qed.

Lemma replace_unroll {S} e (f : S -> bytes -> S * bytes) st s :
  has_begin (prog e) = false ->
  replace_all_func e f st s =
  match search (prog e) (glyphs s) 0 with
  | None => (st, s)
  | Some (a, b, _) =>
    if b <=? a then (st, s)
    else let '(st1, new) := f st (sub s a b) in
         let '(st2, rest) := replace_all_func e f st1 (skipn b s) in
         (st2, firstn a s ++ new ++ rest)
  end.
Proof.
  intros Hb; unfold replace_all_func; rewrite (find_all_unroll e s Hb).
  destruct (search (prog e) (glyphs s) 0) as [[[a b] c]|] eqn:E; [|reflexivity].
  destruct (Nat.leb_spec b a) as [|Hlt]; [reflexivity|]; cbn [replace_matches].
  destruct (f st (sub s a b)) as [st1 new].
  change b with (0 + b) at 3; rewrite replace_matches_move.
  2: { apply search_sound in E; destruct E as (u & v & s' & E & -> & -> & _); cbn [Nat.add] in *.
       rewrite <- (gwidth_glyphs s), E, !gwidth_app; lia. }
  destruct (replace_matches (find_all_index e (skipn b s)) f st1 (skipn b s) 0); unfold sub.
  rewrite Nat.sub_0_r; reflexivity.
Qed.

(** ** Runs of one character *)
Section Run.
  Context (c : rune).
  Definition is_c : list (N * N) := [(c, c)].
  Lemma in_is_c d : in_set is_c d = (d =? c)%N.
  Proof.
    unfold in_set, is_c; cbn [existsb fst snd]; rewrite orb_false_r.
    destruct (N.eqb_spec d c) as [->|Hn]; [rewrite N.leb_refl; reflexivity|].
    destruct (N.leb_spec c d), (N.leb_spec d c); cbn; try reflexivity; lia.
  Qed.
  Definition all_c (s : text) : Prop := Forall (fun g => fst g = c) s.
  Definition no_c (s : text) : Prop := Forall (fun g => fst g <> c) s.
  Definition ends_c (s : text) : Prop := match s with [] => True | g :: _ => fst g <> c end.

  Lemma mt_loop_run {A} (k : text -> nat -> caps -> option A) run s' :
    all_c run -> ends_c s' -> wide run ->
    forall n p cs, length run <= length n -> k s' (p + gwidth run) cs <> None ->
    mt_loop true (XSet is_c) k n (run ++ s') p cs = k s' (p + gwidth run) cs.
  Proof.
    intros Ha He; induction Ha as [|[d w] run Hd Ha IH]; intros Hw n p cs Hn Hk.
    - rewrite gwidth_nil, Nat.add_0_r; cbn [app]; destruct n as [|x n]; cbn [mt_loop mt]; [reflexivity|].
      destruct s' as [|[d w] s']; [reflexivity|].
      rewrite in_is_c; cbn in He; destruct (N.eqb_spec d c); [contradiction|reflexivity].
    - destruct n as [|x n]; [cbn in Hn; lia|]; cbn [app mt_loop mt fst] in *; subst d.
      rewrite in_is_c, N.eqb_refl.
      inversion Hw as [|y z Hg Hw']; subst; cbn [snd] in Hg.
      destruct (Nat.leb_spec (p + w) p); [lia|].
      rewrite gwidth_cons in *; cbn [snd] in *.
      replace (p + (w + gwidth run)) with (p + w + gwidth run) in * by lia.
      rewrite (IH Hw' n (p + w) cs) by (try exact Hk; cbn in Hn; lia).
      destruct (k s' (p + w + gwidth run) cs); [reflexivity|congruence].
  Qed.

  Definition plus_c : rx := simplify (RPlus true (RLit [c])).
  Lemma mt_plus_c {A} d w s p cs (k : text -> nat -> caps -> option A) :
    mt plus_c ((d, w) :: s) p cs k =
    if (d =? c)%N then mt_loop true (XSet is_c) k s s (p + w) cs else None.
  Proof. rewrite <- in_is_c; reflexivity. Qed.
  Lemma search_run u run s' p :
    no_c u -> run <> [] -> all_c run -> ends_c s' -> wide run ->
    search plus_c (u ++ run ++ s') p = Some (p + gwidth u, p + gwidth u + gwidth run, []).
  Proof.
    intros Hu; revert p; induction Hu as [|[d w] u Hd Hu IH]; intros p Hn Ha He Hw.
    - destruct Ha as [|[d w] run Hd Ha]; [congruence|]; cbn [app fst] in *; subst d.
      cbn [search]; rewrite mt_plus_c, N.eqb_refl.
      inversion Hw as [|y z Hg Hw']; subst.
      rewrite (mt_loop_run (fun (_ : text) (p' : nat) (c0 : caps) => Some (p', c0)) run s' Ha He Hw')
        by (try discriminate; rewrite app_length; lia).
      rewrite gwidth_nil, gwidth_cons; cbn [snd]; f_equal; f_equal; f_equal; lia.
    - cbn [app search fst] in *.
      assert (mt plus_c ((d, w) :: u ++ run ++ s') p [] (fun (_ : text) (p' : nat) (c0 : caps) => Some (p', c0)) = None) as ->.
      { rewrite mt_plus_c; destruct (N.eqb_spec d c); [contradiction|reflexivity]. }
      rewrite IH by assumption; rewrite gwidth_cons; cbn [snd]; f_equal; f_equal; f_equal; lia.
  Qed.
  Lemma search_no_run u p : no_c u -> search plus_c u p = None.
  Proof.
    intros Hu; revert p; induction Hu as [|[d w] u Hd Hu IH]; intros p; [reflexivity|].
    cbn [search fst] in *; rewrite IH.
    assert (mt plus_c ((d, w) :: u) p [] (fun (_ : text) (p' : nat) (c0 : caps) => Some (p', c0)) = None) as ->;
      [|reflexivity].
    rewrite mt_plus_c; destruct (N.eqb_spec d c); [contradiction|reflexivity].
  Qed.
End Run.
