(** Find and the rules on a phrase. *)
From Coq Require Import Lia List Bool ZArith.
From Verif Require Import GoBase Utf8 Utf8Facts Regex RegexSpec RegexFacts RegexParse CaptureFacts ReplaceFacts Hre FindFacts RuleFacts HslInv CliFacts Procedure WordFacts.
Import ListNotations.
Open Scope nat_scope.

(** ** The first of the ways to match *)
Inductive lead {A B} (R : A -> B -> Prop) : list A -> list B -> Prop :=
| lead_nil : lead R [] []
| lead_cons a b l m : R a b -> lead R (a :: l) (b :: m).
Lemma lead_app {A B} (R : A -> B -> Prop) l1 m1 l2 m2 : lead R l1 m1 -> lead R l2 m2 -> lead R (l1 ++ l2) (m1 ++ m2).
Proof. intros [|a b l m H] H2; [exact H2|]; cbn [app]; constructor; exact H. Qed.
Lemma lead_flat {A B C} (R : A -> B -> Prop) (f : C -> list A) (g : C -> list B) l :
  (forall x, In x l -> lead R (f x) (g x)) -> lead R (flat_map f l) (flat_map g l).
Proof.
  induction l as [|x l IH]; intros H; cbn [flat_map]; [constructor|].
  apply lead_app; [apply H; left; reflexivity|apply IH; intros; apply H; right; assumption].
Qed.
Lemma lead_map {A B A' B'} (R : A -> B -> Prop) (R' : A' -> B' -> Prop) (f : A -> A') (g : B -> B') l m :
  (forall a b, R a b -> R' (f a) (g b)) -> lead R l m -> lead R' (map f l) (map g m).
Proof. intros H [|a b l' m' Hab]; cbn [map]; constructor; auto. Qed.

Lemma lookup_app_or (c d : caps) i : cap_lookup (c ++ d) i = match cap_lookup c i with Some x => Some x | None => cap_lookup d i end.
Proof. induction c as [|[j se] c IH]; [reflexivity|]; cbn [app cap_lookup]; destruct (j =? i); [reflexivity|exact IH]. Qed.
Lemma lookup_none (c : caps) i : (forall e, In e c -> fst e <> i) -> cap_lookup c i = None.
Proof.
  induction c as [|[j se] c IH]; intros H; [reflexivity|]; cbn [cap_lookup].
  destruct (Nat.eqb_spec j i) as [E|E]; [exfalso; apply (H (j, se)); [left; reflexivity|exact E]|apply IH; intros; apply H; right; assumption].
Qed.
Lemma capless_outs x s p s' p' c : capless x = true -> In (s', p', c) (outs x s p) -> c = [].
Proof.
  unfold capless; intros H Hin; destruct c as [|e c]; [reflexivity|].
  pose proof (outs_ids x s p s' p' (e :: c) e Hin (or_introl eq_refl)) as He; destruct (xcaps x); [destruct He|discriminate].
Qed.

Definition meets (n : nat) (o m : out) : Prop :=
  let '(_, _, c) := o in let '(_, p3, c3) := m in
  (exists y, cap_lookup c (n - 1) = Some (p3, y)) /\ cap_lookup c 2 = None /\
  forall i, 3 <= i -> i <= n - 2 -> cap_lookup c i = cap_lookup c3 i.
Lemma lead_mids n r : 4 <= n -> middle n r = true -> forall s p, lead (meets n) (outs r s p) (mids n r s p).
Proof.
  intros Hn; induction r as [| |ranges| | |i r IH|a IHa b IHb|a IHa b IHb|g r IH]; try discriminate; intros H s p; cbn [mids]; cbn [middle] in H.
  destruct (final n a b) eqn:E.
  - apply andb_true_iff in H; destruct H as [H Hb]; apply andb_true_iff in H; destruct H as [_ Ha].
    destruct (outs (XCat a b) s p) as [|o l] eqn:Eo; cbn [has]; [constructor|].
    assert (In o (outs (XCat a b) s p)) as Hin by (rewrite Eo; left; reflexivity).
    destruct a as [| | | | |i t| | |]; try discriminate; destruct b as [| | | | |j e| | |]; try discriminate.
    cbn [final] in E; apply andb_true_iff in E; destruct E as [Ei Ej]; apply Nat.eqb_eq in Ei, Ej; subst i j; cbn [inside] in Ha, Hb.
    cbn [outs] in Hin; apply in_flat_map in Hin; destruct Hin as ([[s1 p1] c1] & H1 & H2); cbn [next] in H2.
    apply in_map_iff in H1; destruct H1 as ([[s1' p1'] c1'] & E1 & H1); injection E1 as -> -> <-.
    apply in_map_iff in H2; destruct H2 as ([[s2 p2] c2] & E2 & H2).
    apply in_map_iff in H2; destruct H2 as ([[s2' p2'] c2'] & E3 & H2); injection E3 as -> -> <-.
    apply (capless_outs _ _ _ _ _ _ Ha) in H1; apply (capless_outs _ _ _ _ _ _ Hb) in H2; subst c1' c2' o; cbn [add app].
    constructor; cbn [meets cap_lookup].
    replace (n =? n - 1) with false by (symmetry; apply Nat.eqb_neq; lia); rewrite Nat.eqb_refl.
    split; [eexists; reflexivity|]; split.
    + replace (n =? 2) with false by (symmetry; apply Nat.eqb_neq; lia).
      replace (n - 1 =? 2) with false by (symmetry; apply Nat.eqb_neq; lia); reflexivity.
    + intros i Hi Hi'; replace (n =? i) with false by (symmetry; apply Nat.eqb_neq; lia).
      replace (n - 1 =? i) with false by (symmetry; apply Nat.eqb_neq; lia); reflexivity.
  - apply andb_true_iff in H; destruct H as [H Hb]; apply andb_true_iff in H; destruct H as [_ Hi].
    cbn [outs]; apply lead_flat; intros [[s1 p1] c1] Hin; cbn [next].
    eapply lead_map; [|apply (IHb Hb)]; intros [[s2 p2] c2] [[s3 p3] c3] (Hy & H2 & Hc); cbn [add meets].
    assert (forall i, ~ (3 <= i /\ i <= n - 2) -> cap_lookup c1 i = None) as Hnone.
    { intros i Hni; apply lookup_none; intros e He Ee; apply Hni.
      pose proof (outs_ids _ _ _ _ _ _ _ Hin He) as Hid; rewrite forallb_forall in Hi; specialize (Hi _ Hid).
      unfold between in Hi; apply andb_true_iff in Hi; destruct Hi as [H3 H4]; apply Nat.leb_le in H3, H4; lia. }
    rewrite !lookup_app_or, H2, (Hnone 2) by lia; destruct Hy as (y & ->).
    split; [eauto|]; split; [reflexivity|]; intros i H3 H4; rewrite !lookup_app_or, Hc by assumption; reflexivity.
Qed.

Definition shows (n : nat) (c : caps) (v : view) : Prop :=
  let '(p2, p3, c3) := v in
  (exists x, cap_lookup c 2 = Some (x, p2)) /\ (exists y, cap_lookup c (n - 1) = Some (p3, y)) /\
  forall i, 3 <= i -> i <= n - 2 -> cap_lookup c i = cap_lookup c3 i.
Definition shown (n : nat) (o : out) (v : view) : Prop := shows n (snd o) v.
Lemma lead_body n r C x s2 p2 c2 : 4 <= n -> middle n r = true ->
  cap_lookup C 2 = Some (x, p2) -> (forall i, 3 <= i -> cap_lookup C i = None) ->
  lead (shown n) (map (add C) (outs r s2 p2)) (body_from n r (s2, p2, c2)).
Proof.
  intros Hn Hm H2 HC; cbn [body_from]; eapply lead_map; [|apply (lead_mids n r Hn Hm)].
  intros [[s' p'] c] [[s3 p3] c3] (Hy & Hc2 & Hc); unfold shown; cbn [add snd view_of shows].
  rewrite !lookup_app_or, Hc2, H2; destruct Hy as (y & ->); split; [eauto|]; split; [eauto|].
  intros i H3 H4; rewrite lookup_app_or, Hc, (HC i) by assumption; destruct (cap_lookup c3 i); reflexivity.
Qed.

Lemma flat_flat {A B C} (f : B -> list C) (g : A -> list B) l : flat_map f (flat_map g l) = flat_map (fun x => flat_map f (g x)) l.
Proof. induction l as [|x l IH]; [reflexivity|]; cbn [flat_map]; rewrite flat_map_app, IH; reflexivity. Qed.
(** The edge may be in the first or in the second group. *)
Inductive split_as : rx -> parts -> Prop :=
| split_second l2 r q : capless l2 = true -> onto q = r ->
    (forall n s p, gives n q s p = flat_map (body_from n r) (outs l2 s p)) ->
    split_as (XCat (XCap 1 XEps) (XCat (XCap 2 l2) r)) q
| split_first r q : onto q = r ->
    (forall n s p, gives n q s p = flat_map (body_from n r) (outs left_edge s p)) ->
    split_as (XCat (XCap 1 left_edge) (XCat (XCap 2 XEps) r)) q.
Lemma body_eps n r s p c : body n XEps r s p = body_from n r (s, p, c).
Proof. unfold body; cbn [outs flat_map body_from]; apply app_nil_r. Qed.
Lemma parts_split x q : parts_of x = Some q -> capless (behind q) = true -> split_as x q.
Proof.
  unfold parts_of; intros H Hc.
  destruct x as [| | | | | |x1 x2| |]; try discriminate.
  destruct x1 as [| | | | |i l1| | |]; try discriminate; destruct i as [|[|i]]; try discriminate.
  destruct x2 as [| | | | | |x2 r| |]; try discriminate.
  destruct x2 as [| | | | |i l2| | |]; try discriminate; destruct i as [|[|[|i]]]; try discriminate.
  assert (forall n s p, gives n {| edged := true; behind := XEps; onto := r |} s p = flat_map (body_from n r) (outs left_edge s p)) as Hedge.
  { intros n s p; unfold gives; cbn [edged behind onto]; apply flat_map_ext; intros [[s1 p1] c1]; cbn [body_at behind onto]; apply body_eps. }
  destruct (is_eps l1) eqn:E1.
  - destruct l1; try discriminate; destruct (rx_eqb l2 left_edge) eqn:E2.
    + injection H as <-; apply rx_eqb_eq in E2; subst l2; constructor; [reflexivity|reflexivity|exact Hedge].
    + assert ((exists a b, l2 = XCat a b /\ rx_eqb a left_edge = true /\ q = {| edged := true; behind := b; onto := r |})
              \/ q = {| edged := false; behind := l2; onto := r |}) as [(a & b & -> & Ea & ->) | -> ].
      { destruct l2 as [| | | | | |a b| |]; try (right; injection H as <-; reflexivity).
        destruct (rx_eqb a left_edge) eqn:Ea; [left; exists a, b; injection H as <-; auto|right; injection H as <-; reflexivity]. }
      * apply rx_eqb_eq in Ea; subst a; cbn [behind] in Hc; constructor; [|reflexivity|].
        -- unfold capless in *; cbn [xcaps]; destruct (xcaps b); [reflexivity|discriminate].
        -- intros n s p; unfold gives; cbn [edged outs]; rewrite flat_flat; apply flat_map_ext; intros [[s1 p1] c1].
           cbn [body_at behind onto next]; unfold body; rewrite flat_map_map; apply flat_map_ext; intros [[s2 p2] c2]; reflexivity.
      * cbn [behind] in Hc; constructor; [exact Hc|reflexivity|]; intros n s p; reflexivity.
  - destruct (rx_eqb l1 left_edge) eqn:E2; [|discriminate]; destruct (is_eps l2) eqn:E3; [|discriminate]; cbn [andb] in H.
    injection H as <-; apply rx_eqb_eq in E2; subst l1; destruct l2; try discriminate; constructor; [reflexivity|exact Hedge].
Qed.
Lemma lead_gives n x q : 4 <= n -> parts_of x = Some q -> fit n q = true -> forall s p, lead (shown n) (outs x s p) (gives n q s p).
Proof.
  intros Hn Hx Hq s p; destruct (fit_parts n q Hq) as (_ & Hc & Hm & _).
  destruct (parts_split x q Hx Hc) as [l2 r q Hl Ho Hg|r q Ho Hg]; rewrite Hg; rewrite Ho in Hm.
  - change (outs (XCat (XCap 1 XEps) (XCat (XCap 2 l2) r)) s p)
      with (flat_map (next (outs (XCat (XCap 2 l2) r))) [(s, p, [(1, (p, p))])]).
    cbn [flat_map]; rewrite app_nil_r; cbn [next outs]; rewrite flat_map_map, map_flat_map; apply lead_flat.
    intros [[s2 p2] c2] Hin; apply (capless_outs _ _ _ _ _ _ Hl) in Hin; subst c2; cbn [mark next].
    rewrite map_map; erewrite map_ext; [apply (lead_body n r [(2, (p, p2)); (1, (p, p))] p s2 p2 [] Hn Hm)|].
    + reflexivity.
    + intros [|[|[|i]]] Hi; try lia; reflexivity.
    + intros [[s3 p3] c3]; cbn [add]; rewrite <- app_assoc; reflexivity.
  - cbn [outs]; rewrite flat_map_map; apply lead_flat.
    intros [[s2 p2] c2] Hin; apply (capless_outs left_edge) in Hin; [|reflexivity]; subst c2; cbn [mark next map flat_map outs].
    rewrite app_nil_r, map_map; erewrite map_ext; [apply (lead_body n r [(2, (p2, p2)); (1, (p, p2))] p2 s2 p2 [] Hn Hm)|].
    + reflexivity.
    + intros [|[|[|i]]] Hi; try lia; reflexivity.
    + intros [[s3 p3] c3]; cbn [add]; rewrite <- app_assoc; reflexivity.
Qed.
Lemma search_all n x q : 4 <= n -> parts_of x = Some q -> fit n q = true -> forall s p,
  match search x s p with
  | None => all n q s p = []
  | Some (_, _, c) => exists v l, all n q s p = v :: l /\ shows n c v
  end.
Proof.
  intros Hn Hx Hq; induction s as [|[ch w] s IH]; intros p; cbn [search all]; rewrite mt_outs;
    pose proof (lead_gives n x q Hn Hx Hq) as Hl;
    match goal with |- context [outs x ?t p] => specialize (Hl t p) end;
    inversion Hl as [|[[s' p'] c] v l m Hs]; cbn [first give app].
  - reflexivity.
  - rewrite (app_nil_r c); eexists _, _; split; [reflexivity|exact Hs].
  - apply IH.
  - rewrite (app_nil_r c); eexists _, _; split; [reflexivity|exact Hs].
Qed.

(** ** What Find reports *)
Open Scope Z_scope.
Lemma cap_array_app c m : forall i k, cap_array c i (m + k) = cap_array c i m ++ cap_array c (i + m)%nat k.
Proof.
  induction m as [|m IH]; intros i k; cbn [Nat.add cap_array app]; [rewrite Nat.add_0_r; reflexivity|].
  rewrite IH, app_assoc; replace (S i + m)%nat with (i + S m)%nat by lia; reflexivity.
Qed.
Lemma cap_array_ext c c' m : forall i, (forall j, (i <= j < i + m)%nat -> cap_lookup c j = cap_lookup c' j) -> cap_array c i m = cap_array c' i m.
Proof.
  induction m as [|m IH]; intros i H; [reflexivity|]; cbn [cap_array]; rewrite (H i) by lia; f_equal; apply IH; intros; apply H; lia.
Qed.
Lemma cap_array_move d c m : forall i, cap_array (move_caps d c) i m = map (off_by (Z.of_nat d)) (cap_array c i m).
Proof.
  assert (forall i, cap_lookup (move_caps d c) i = option_map (fun '(a, b) => (a + d, b + d)%nat) (cap_lookup c i)) as Hl.
  { intros i; induction c as [|[j [a b]] c IH]; [reflexivity|]; cbn [move_caps map cap_lookup]; destruct (j =? i)%nat; [reflexivity|exact IH]. }
  induction m as [|m IH]; intros i; [reflexivity|]; cbn [cap_array]; rewrite map_app, IH, Hl; f_equal.
  destruct (cap_lookup c i) as [[a b]|]; cbn [option_map map]; [|reflexivity].
  rewrite !off_by_nat; repeat f_equal; lia.
Qed.
Lemma cap_array_real c m : forall i, Forall (fun x => -1 <= x) (cap_array c i m).
Proof.
  induction m as [|m IH]; intros i; cbn [cap_array]; [constructor|]; apply Forall_app; split; [|apply IH].
  destruct (cap_lookup c i) as [[a b]|]; repeat constructor; lia.
Qed.
Lemma off_by_twice a b x : -1 <= x -> 0 <= a -> off_by b (off_by a x) = off_by (a + b) x.
Proof.
  intros Hx Ha; unfold off_by; destruct (x =? -1) eqn:E; [rewrite E; reflexivity|].
  replace (x + a =? -1) with false by lia; lia.
Qed.
Definition core_of (n : nat) (c : caps) : list Z := cap_array c 3 (n - 4).
Lemma slice_mid {A} (a b c : list A) i j : i = len a -> j = len a + len b -> slice (a ++ b ++ c) i j = Ok b.
Proof. intros -> ->; apply SubwordFacts.slice_app_mid. Qed.
Lemma raw_seen p q word off : parts_of (prog (p_re p)) = Some q -> fit (numcap (p_re p)) q = true -> 0 <= off ->
  match all (numcap (p_re p)) q (glyphs (skipn (Z.to_nat off) word)) 0 with
  | [] => raw p word off = []
  | (p2, p3, c3) :: _ => 10 <= len (raw p word off) /\
      pick_start_stop (raw p word off) = Ok (off + Z.of_nat p2, off + Z.of_nat p3) /\
      (index (raw p word off) 5 = Ok (off + Z.of_nat p2) /\ index (raw p word off) (len (raw p word off) - 4) = Ok (off + Z.of_nat p3)) /\
      slice (raw p word off) 6 (len (raw p word off) - 4) = Ok (map (off_by off) (core_of (numcap (p_re p)) c3))
  end.
Proof.
  intros Hx Hq Hoff; set (n := numcap (p_re p)) in *.
  assert (4 <= n)%nat as Hn by (destruct (fit_parts n q Hq) as (_ & _ & _ & _ & H); exact H).
  pose proof (search_all n _ q Hn Hx Hq (glyphs (skipn (Z.to_nat off) word)) 0) as Hs.
  destruct (search (prog (p_re p)) (glyphs (skipn (Z.to_nat off) word)) 0) as [[[a b] c]|] eqn:Es.
  2:{ rewrite Hs; apply raw_miss; exact Es. }
  destruct Hs as ([[p2 p3] c3] & l & -> & (x & H2) & (y & H3) & Hc).
  pose proof (raw_len p word off a b c Es) as Hlen; fold n in Hlen.
  pose proof (raw_index p word off a b c Es 2 ltac:(fold n; lia)) as [_ H5].
  pose proof (raw_index p word off a b c Es (n - 1) ltac:(fold n; lia)) as [H4 _].
  change (2 * Z.of_nat 2 + 1) with 5 in H5.
  replace (2 * Z.of_nat (n - 1)) with (len (raw p word off) - 4) in H4 by lia.
  assert (group_at (a, b) c 2 = (Z.of_nat x, Z.of_nat p2)) as E2 by (unfold group_at, cap_at; rewrite H2; reflexivity).
  assert (group_at (a, b) c (n - 1) = (Z.of_nat p3, Z.of_nat y)) as E3.
  { unfold group_at, cap_at; destruct (n - 1)%nat as [|k] eqn:Ek; [lia|]; rewrite H3; reflexivity. }
  rewrite E2 in H5; rewrite E3 in H4; cbn [fst snd] in H4, H5; rewrite off_by_nat in H4, H5.
  split; [lia|]; split; [|split].
  - unfold pick_start_stop; rewrite H5; cbn [bind].
    replace (Z.of_nat p2 + off =? -1) with false by lia; cbn [bind]; rewrite H4; cbn [bind].
    replace (Z.of_nat p3 + off =? -1) with false by lia; cbn [bind]; do 2 f_equal; lia.
  - rewrite H4, H5; split; f_equal; lia.
  - rewrite Hlen, (raw_hit p word off a b c Es); fold n; unfold shift; change (fun x0 => if x0 =? -1 then x0 else x0 + off) with (off_by off).
    replace n with (2 + ((n - 4) + 2))%nat at 1 by lia; rewrite !cap_array_app.
    rewrite (cap_array_ext c c3 (n - 4) (1 + 2)%nat) by (intros j Hj; apply Hc; lia).
    change (1 + 2)%nat with 3%nat; fold (core_of n c3).
    change (Z.of_nat a :: Z.of_nat b :: cap_array c 1 2 ++ core_of n c3 ++ cap_array c (3 + (n - 4)) 2)
      with ((Z.of_nat a :: Z.of_nat b :: cap_array c 1 2) ++ core_of n c3 ++ cap_array c (3 + (n - 4)) 2).
    rewrite !map_app; apply slice_mid; unfold len; rewrite !map_length; cbn [length];
      unfold core_of; rewrite !cap_array_length; lia.
Qed.
Lemma cap_array_bound c n : (forall i x y, cap_lookup c i = Some (x, y) -> (x <= n /\ y <= n)%nat) ->
  forall m i, Forall (fun x => -1 <= x <= Z.of_nat n) (cap_array c i m).
Proof.
  intros H m; induction m as [|m IH]; intros i; cbn [cap_array]; [constructor|].
  apply Forall_app; split; [|apply IH].
  destruct (cap_lookup c i) as [[x y]|] eqn:E; [apply H in E|]; repeat constructor; lia.
Qed.
Lemma raw_bound p word off : compiled p -> 0 <= off < len word -> Forall (fun x => -1 <= x <= len word) (raw p word off).
Proof.
  intros Hc Ho; destruct (search (prog (p_re p)) (glyphs (skipn (Z.to_nat off) word)) 0) as [[[a b] c]|] eqn:Es.
  2:{ rewrite (raw_miss _ _ _ Es); constructor. }
  rewrite (raw_hit p word off a b c Es); unfold shift; apply Forall_forall; intros z Hz.
  apply in_map_iff in Hz; destruct Hz as (x & <- & Hx); change (if x =? -1 then x else x + off) with (off_by off x).
  assert (length (skipn (Z.to_nat off) word) = Z.to_nat (len word - off)) as Hl by (rewrite skipn_length; unfold len; lia).
  assert (-1 <= x <= len word - off) as Hb.
  { rewrite Hc in Es; destruct (search_sound _ _ _ _ _ _ Es) as (u0 & v0 & s' & Eg & Ea & Eb & Hr).
    assert (a <= b /\ b <= length (skipn (Z.to_nat off) word))%nat as Hab.
    { rewrite <- gwidth_glyphs, Eg, !gwidth_app; lia. }
    destruct Hx as [<-|[<-|Hx]]; [lia|lia|].
    assert (Forall (fun x => -1 <= x <= Z.of_nat (length (skipn (Z.to_nat off) word))) (cap_array c 1 (numcap (p_re p)))) as Hf.
    { apply cap_array_bound; intros i x0 y0 El.
      destruct (group_text _ _ _ _ _ _ _ _ Es El) as (r' & u & v & w & _ & Eg2 & -> & -> & _).
      rewrite <- gwidth_glyphs, Eg2, !gwidth_app; lia. }
    rewrite Forall_forall in Hf; specialize (Hf x Hx); lia. }
  unfold off_by; destruct (x =? -1) eqn:E; lia.
Qed.

Lemma later_core d off n c : 0 <= off -> 0 <= d ->
  map (off_by d) (map (off_by off) (core_of n c)) = map (off_by (off + d)) (core_of n c).
Proof.
  intros Ho Hd; rewrite map_map; apply map_ext_in; intros x Hx; apply off_by_twice; [|exact Ho].
  pose proof (cap_array_real c (n - 4) 3) as H; rewrite Forall_forall in H; apply H; exact Hx.
Qed.
Lemma off_by_real d x : 0 <= x -> off_by d x = x + d.
Proof. intros H; unfold off_by; replace (x =? -1) with false by lia; reflexivity. Qed.
Lemma skipn_shift (pre b : bytes) off : 0 <= off -> skipn (Z.to_nat (off + len pre)) (pre ++ b) = skipn (Z.to_nat off) b.
Proof.
  intros H; rewrite skipn_app; unfold len; rewrite skipn_all2 by lia; cbn [app]; f_equal; lia.
Qed.

(** ** A phrase: two texts with a space between them *)
Definition phrase (a b : bytes) : bytes := a ++ 0x20%N :: b.
Lemma phrase_app a b : phrase a b = (a ++ [0x20%N]) ++ b.
Proof. unfold phrase; rewrite <- app_assoc; reflexivity. Qed.
Lemma glyphs_phrase a b : glyphs (phrase a b) = glyphs a ++ (sp, 1%nat) :: glyphs b.
Proof.
  unfold phrase; rewrite glyphs_app_anew by reflexivity; reflexivity.
Qed.
Lemma skipn_phrase a b off : off <= len a -> skipn (Z.to_nat off) (phrase a b) = phrase (skipn (Z.to_nat off) a) b.
Proof.
  intros H; unfold phrase; rewrite skipn_app; f_equal; replace (Z.to_nat off - length a)%nat with 0%nat by (unfold len in H; lia); reflexivity.
Qed.
Definition unspaced (a : bytes) : Prop := Forall (fun b : N => white b = false) a.
Lemma len_phrase a b : len (phrase a b) = len a + 1 + len b.
Proof. unfold phrase; rewrite SubwordFacts.len_app; unfold len; cbn [length]; lia. Qed.
Lemma unspaced_glyphs a : unspaced a -> blankless (glyphs a).
Proof.
  revert a; apply (glyphs_ind (fun a => unspaced a -> blankless (glyphs a))); [intros; constructor|].
  intros s Hn IH Hs; rewrite glyphs_step by exact Hn; constructor.
  - cbn [fst]; destruct (white (fst (decode_rune s))) eqn:E; [exfalso|reflexivity].
    destruct s as [|b s]; [contradiction|]; inversion Hs; subst.
    assert (fst (decode_rune (b :: s)) < 0x80)%N as Hlt
      by (apply white_in in E; unfold whites in E; cbn [In] in E; unfold rune in *; lia).
    apply decode_ascii in Hlt; rewrite Hlt in E; cbn [fst] in E; congruence.
  - apply IH; unfold unspaced in *; rewrite <- (firstn_skipn (snd (decode_rune s)) s) in Hs; apply Forall_app in Hs; tauto.
Qed.

Lemma all_phrase n q (a b : bytes) : fit n q = true -> unspaced a ->
  hd_error (all n q (glyphs (phrase a b)) 0) =
  match hd_error (all n q (glyphs a) 0) with
  | Some v => Some v
  | None => option_map (moved_view (length a + 1)) (hd_error (all n q (glyphs b) 0))
  end.
Proof.
  intros Hq Ha; pose proof (glyphs_wide (phrase a b)) as Hw; rewrite glyphs_phrase in *.
  rewrite (all_more n q Hq ((sp, 1%nat) :: glyphs b) (glyphs a) 0); [|exists sp, 1%nat, (glyphs b); auto|apply unspaced_glyphs; exact Ha|exact Hw].
  destruct (all n q (glyphs a) 0) as [|v l]; [|reflexivity]; cbn [app hd_error]; rewrite Nat.add_0_l, gwidth_glyphs.
  apply all_space; [exact Hq|]; apply Forall_app in Hw; tauto.
Qed.
Lemma hd_cons {A} (l : list A) x : hd_error l = Some x -> exists t, l = x :: t.
Proof. destruct l; [discriminate|]; intros H; injection H as ->; eauto. Qed.
Lemma hd_none {A} (l : list A) : hd_error l = None -> l = [].
Proof. destruct l; [reflexivity|discriminate]. Qed.


(** ** What one search sees: start, stop and groups *)
Definition sight : Type := Z * Z * list Z.
Definition look (p : pattern) (word : bytes) (off : Z) : option sight :=
  match pick_start_stop (raw p word off), slice (raw p word off) 6 (len (raw p word off) - 4) with
  | Ok (s, e), Ok core => Some (s, e, core)
  | _, _ => None
  end.
Definition put (d : Z) (v : sight) : sight := let '(s, e, core) := v in (off_by d s, off_by d e, map (off_by d) core).
Definition flat (v : sight) : list Z := let '(s, e, core) := v in s :: e :: core.
Definition later (d : Z) (ms : list (list Z)) : list (list Z) := map (map (off_by d)) ms.
Lemma flat_put d v : flat (put d v) = map (off_by d) (flat v).
Proof. destruct v as [[s e] core]; reflexivity. Qed.
Lemma look_some p word off s e core : look p word off = Some (s, e, core) ->
  pick_start_stop (raw p word off) = Ok (s, e) /\ slice (raw p word off) 6 (len (raw p word off) - 4) = Ok core.
Proof.
  unfold look; destruct (pick_start_stop _) as [[s' e']| | | | |]; try discriminate; destruct (slice _ _ _) as [c'| | | | |]; try discriminate.
  intros H; injection H as <- <- <-; auto.
Qed.
Lemma look_nil p word off : raw p word off = [] -> look p word off = None.
Proof. unfold look; intros ->; reflexivity. Qed.

Lemma index_map (f : Z -> Z) (m : list Z) i : index (map f m) i = map_res f (index m i).
Proof.
  unfold index; destruct (0 <=? i); [|reflexivity]; rewrite nth_error_map; destruct (nth_error m (Z.to_nat i)); reflexivity.
Qed.
Lemma index_in (m : list Z) i x : index m i = Ok x -> In x m.
Proof.
  unfold index; destruct (0 <=? i); [|discriminate]; destruct (nth_error m (Z.to_nat i)) eqn:E; [|discriminate].
  intros H; injection H as <-; eapply nth_error_In; exact E.
Qed.
Lemma pick_map d m : 0 <= d -> Forall (fun x => -1 <= x) m ->
  pick_start_stop (map (off_by d) m) = map_res (fun se => (off_by d (fst se), off_by d (snd se))) (pick_start_stop m).
Proof.
  intros Hd Hm; unfold pick_start_stop; rewrite len_map, !index_map.
  assert (forall x, -1 <= x -> (off_by d x =? -1) = (x =? -1)) as He.
  { intros x Hx; unfold off_by; destruct (x =? -1) eqn:E; [exact E|]; lia. }
  rewrite Forall_forall in Hm.
  destruct (index m 5) as [m5| | | | |] eqn:E5; cbn [map_res bind]; try reflexivity; rewrite He by (apply Hm; eapply index_in; exact E5).
  destruct (index m (len m - 4)) as [m4| | | | |] eqn:E4; cbn [map_res bind];
    (destruct (m5 =? -1); [destruct (index m 0); cbn [map_res bind]; try reflexivity|cbn [bind]; try reflexivity]);
    rewrite He by (apply Hm; eapply index_in; exact E4); destruct (m4 =? -1); cbn [bind map_res]; try reflexivity;
    destruct (index m 1); reflexivity.
Qed.
Lemma slice_map (f : Z -> Z) (m : list Z) i j : slice (map f m) i j = map_res (map f) (slice m i j).
Proof.
  unfold slice; rewrite len_map; destruct (_ && _); [|reflexivity]; cbn [map_res]; rewrite skipn_map, firstn_map; reflexivity.
Qed.
Lemma look_map p word off p' word' off' d : 0 <= d -> Forall (fun x => -1 <= x) (raw p word off) ->
  raw p' word' off' = map (off_by d) (raw p word off) -> look p' word' off' = option_map (put d) (look p word off).
Proof.
  intros Hd Hr E; unfold look; rewrite E, pick_map, slice_map, len_map by assumption.
  destruct (pick_start_stop _) as [[s e]| | | | |]; cbn [map_res]; try reflexivity; destruct (slice _ _ _); reflexivity.
Qed.
Lemma raw_real p word off : 0 <= off -> Forall (fun x => -1 <= x) (raw p word off).
Proof.
  intros Ho; unfold raw, find_submatch_index; destruct (search _ _ _) as [[[a b] c]|]; [|constructor].
  unfold shift; apply Forall_map.
  assert (Forall (fun x => -1 <= x) (Z.of_nat a :: Z.of_nat b :: cap_array c 1 (numcap (p_re p)))) as H
    by (constructor; [lia|]; constructor; [lia|apply cap_array_real]).
  eapply Forall_impl; [|exact H]; cbv beta; intros x Hx; destruct (x =? -1) eqn:E; lia.
Qed.
Lemma raw_later p pre b off : 0 <= off -> raw p (pre ++ b) (off + len pre) = map (off_by (len pre)) (raw p b off).
Proof.
  intros Ho; unfold raw; rewrite skipn_shift by exact Ho; unfold shift; rewrite map_map; apply map_ext_in; intros x Hx.
  change (off_by (off + len pre) x = off_by (len pre) (off_by off x)); symmetry; apply off_by_twice; [|exact Ho].
  unfold find_submatch_index in Hx; destruct (search _ _ _) as [[[a b0] c]|]; [|destruct Hx].
  destruct Hx as [<-|[<-|Hx]]; [lia|lia|]; pose proof (cap_array_real c (numcap (p_re p)) 1) as H; rewrite Forall_forall in H; apply H; exact Hx.
Qed.
Lemma look_later p pre b off : 0 <= off -> look p (pre ++ b) (off + len pre) = option_map (put (len pre)) (look p b off).
Proof. intros Ho; apply look_map; [unfold len; lia|apply raw_real; exact Ho|apply raw_later; exact Ho]. Qed.
Lemma look_bound p word off s e core : compiled p -> 0 <= off < len word -> look p word off = Some (s, e, core) ->
  0 <= s <= len word /\ 0 <= e <= len word.
Proof.
  intros Hc Ho E; apply look_some in E; destruct E as [E _]; pose proof (raw_bound p word off Hc Ho) as Hb; rewrite Forall_forall in Hb.
  unfold pick_start_stop in E.
  destruct (index (raw p word off) 5) as [m5| | | | |] eqn:E5; cbn [bind] in E; try discriminate.
  assert (forall i x, index (raw p word off) i = Ok x -> -1 <= x <= len word) as Hi by (intros i x Hx; apply Hb; eapply index_in; exact Hx).
  assert (forall i x, 0 <= i <= 1 -> index (raw p word off) i = Ok x -> 0 <= x) as H01.
  { intros i x Hr; unfold raw, find_submatch_index; destruct (search _ _ _) as [[[a b] c]|]; [|unfold index; destruct (0 <=? i); [destruct (Z.to_nat i); discriminate|discriminate]].
    assert (i = 0 \/ i = 1) as [-> | ->] by lia; intros H.
    - assert (Ok (off_by off (Z.of_nat a)) = Ok x) as Hx by exact H; injection Hx as <-; rewrite off_by_real; lia.
    - assert (Ok (off_by off (Z.of_nat b)) = Ok x) as Hx by exact H; injection Hx as <-; rewrite off_by_real; lia. }
  destruct (m5 =? -1) eqn:En.
  - destruct (index (raw p word off) 0) as [m0| | | | |] eqn:E0; cbn [bind] in E; try discriminate.
    destruct (index (raw p word off) (len (raw p word off) - 4)) as [m4| | | | |] eqn:E4; cbn [bind] in E; try discriminate.
    destruct (m4 =? -1) eqn:En4.
    + destruct (index (raw p word off) 1) as [m1| | | | |] eqn:E1; cbn [bind] in E; try discriminate; injection E as <- <-.
      pose proof (H01 0 m0 ltac:(lia) E0); pose proof (H01 1 m1 ltac:(lia) E1); pose proof (Hi _ _ E0); pose proof (Hi _ _ E1); lia.
    + cbn [bind] in E; injection E as <- <-; pose proof (H01 0 m0 ltac:(lia) E0); pose proof (Hi _ _ E0); pose proof (Hi _ _ E4); lia.
  - cbn [bind] in E; destruct (index (raw p word off) (len (raw p word off) - 4)) as [m4| | | | |] eqn:E4; cbn [bind] in E; try discriminate.
    destruct (m4 =? -1) eqn:En4.
    + destruct (index (raw p word off) 1) as [m1| | | | |] eqn:E1; cbn [bind] in E; try discriminate; injection E as <- <-.
      pose proof (H01 1 m1 ltac:(lia) E1); pose proof (Hi _ _ E5); pose proof (Hi _ _ E1); lia.
    + cbn [bind] in E; injection E as <- <-; pose proof (Hi _ _ E5); pose proof (Hi _ _ E4); lia.
Qed.

(** ** Negative lookarounds of one character *)
Definition single_neg (e : option regexp) (width : Z) : bool :=
  match e with
  | None => true
  | Some e => (width =? 1) && (negb (match_string e []) && negb (match_string e [0x20%N]))
  end.
Definition blocked (e : option regexp) (t : bytes) : bool := match e with None => false | Some e => match_string e t end.
Definition free (p : pattern) (word : bytes) (s e : Z) : bool :=
  negb (blocked (p_negA p) (substr word e (e + 1))) && negb (blocked (p_negB p) (substr word (s - 1) s)).
Definition alone (p : pattern) : Prop := p_negA p = None /\ p_negB p = None.
Definition clear (p : pattern) (word : bytes) (off : Z) : Prop :=
  match look p word off with
  | None => raw p word off = []
  | Some (s, e, _) => 10 <= len (raw p word off) /\
      (alone p \/ index (raw p word off) 5 = Ok s /\ index (raw p word off) (len (raw p word off) - 4) = Ok e)
  end.
Definition single (p : pattern) : bool := single_neg (p_negA p) (p_negAWidth p) && single_neg (p_negB p) (p_negBWidth p).
Lemma single_blank p : single p = true -> forall t, t = [] \/ t = [0x20%N] -> blocked (p_negA p) t = false /\ blocked (p_negB p) t = false.
Proof.
  unfold single; intros H; apply andb_true_iff in H; destruct H as [Ha Hb].
  assert (forall e w, single_neg e w = true -> forall t, t = [] \/ t = [0x20%N] -> blocked e t = false) as Hs.
  { intros [e|] w H t Ht; [|reflexivity]; cbn [single_neg blocked] in *; apply andb_true_iff in H; destruct H as [_ H].
    apply andb_true_iff in H; destruct H as [H1 H2]; apply negb_true_iff in H1, H2; destruct Ht as [-> | ->]; assumption. }
  intros t Ht; split; eapply Hs; eassumption.
Qed.
Lemma allow_free p word off s e core : single p = true -> clear p word off -> look p word off = Some (s, e, core) ->
  negatives_allow p word (raw p word off) = Ok (free p word s e).
Proof.
  unfold clear, single, negatives_allow, free; intros Hs Hc E; rewrite E in Hc; destruct Hc as [_ [[Ha Hb]|[H5 H4]]].
  - rewrite Ha, Hb; reflexivity.
  - rewrite H5, H4; apply andb_true_iff in Hs; destruct Hs as [Ha Hb]; destruct (p_negA p) as [na|], (p_negB p) as [nb|];
      cbn [single_neg blocked bind negb andb] in *;
      repeat match goal with H : (_ && _) = true |- _ => apply andb_true_iff in H; destruct H end;
      repeat match goal with H : (_ =? 1) = true |- _ => apply Z.eqb_eq in H; rewrite H; clear H end;
      change (1 =? -1) with false; cbv iota; rewrite ?andb_true_r; try reflexivity;
      destruct (match_string na (substr word e (e + 1))); reflexivity.
Qed.
Lemma substr_before (a b : bytes) i j : j <= len a -> substr (a ++ b) i j = substr a i j.
Proof.
  intros Hj; unfold substr; destruct ((i <? 0) || (j <? 0)) eqn:E; [reflexivity|]; cbv zeta; rewrite SubwordFacts.len_app.
  assert (0 <= i /\ 0 <= j) as [Hi Hj0] by lia; pose proof (Zle_0_nat (length b)) as Hb; fold (len b) in Hb.
  replace (len a <? j) with false by lia; replace (len a + len b <? j) with false by lia.
  destruct (Z.leb_spec (len a) i) as [H|H].
  - destruct (len a + len b <=? i); [reflexivity|]; replace (0 <? j - i) with false by lia; reflexivity.
  - replace (len a + len b <=? i) with false by lia; destruct (0 <? j - i) eqn:E2; [|reflexivity].
    rewrite skipn_app, firstn_app, skipn_length; unfold len in *.
    replace (Z.to_nat (j - i) - (length a - Z.to_nat i))%nat with 0%nat by lia; cbn [firstn]; apply app_nil_r.
Qed.
Lemma substr_behind (pre b : bytes) i j : 0 <= i -> 0 <= j -> substr (pre ++ b) (i + len pre) (j + len pre) = substr b i j.
Proof.
  intros Hi Hj; unfold substr; cbv zeta; rewrite SubwordFacts.len_app; pose proof (Zle_0_nat (length pre)) as Hp; fold (len pre) in Hp.
  replace ((i + len pre <? 0) || (j + len pre <? 0)) with false by lia; replace ((i <? 0) || (j <? 0)) with false by lia.
  replace (len pre + len b <=? i + len pre) with (len b <=? i) by (destruct (Z.leb_spec (len b) i); lia).
  destruct (len b <=? i); [reflexivity|].
  replace (len pre + len b <? j + len pre) with (len b <? j) by (destruct (Z.ltb_spec (len b) j); lia).
  rewrite skipn_shift by exact Hi.
  destruct (len b <? j); [replace (len pre + len b - (i + len pre)) with (len b - i) by lia|replace (j + len pre - (i + len pre)) with (j - i) by lia]; reflexivity.
Qed.
Lemma substr_space (a b : bytes) : substr (phrase a b) (len a) (len a + 1) = [0x20%N].
Proof.
  unfold phrase; replace (len a) with (0 + len a) at 1 by lia; replace (len a + 1) with (1 + len a) by lia; rewrite substr_behind by lia.
  unfold substr; cbn [Z.ltb]; cbv zeta; replace (len (0x20%N :: b) <=? 0) with false by (unfold len; cbn [length]; lia).
  replace (len (0x20%N :: b) <? 1) with false by (unfold len; cbn [length]; lia); reflexivity.
Qed.
Lemma free_first p a b s e : single p = true -> 0 <= s <= len a -> 0 <= e <= len a -> free p (phrase a b) s e = free p a s e.
Proof.
  intros Hs Hb He; unfold free; f_equal; f_equal; [|unfold phrase; rewrite substr_before by lia; reflexivity].
  destruct (Z.eq_dec e (len a)) as [->|Hne].
  - rewrite substr_space; assert (substr a (len a) (len a + 1) = []) as ->.
    { unfold substr; replace ((len a <? 0) || (len a + 1 <? 0)) with false by lia; cbv zeta; rewrite Z.leb_refl; reflexivity. }
    destruct (single_blank p Hs [] (or_introl eq_refl)) as [-> _], (single_blank p Hs [0x20%N] (or_intror eq_refl)) as [-> _]; reflexivity.
  - unfold phrase; rewrite substr_before by lia; reflexivity.
Qed.
Lemma free_later p a b s e : single p = true -> 0 <= s -> 0 <= e ->
  free p (phrase a b) (s + (len a + 1)) (e + (len a + 1)) = free p b s e.
Proof.
  intros Hs Hb He; assert (len (a ++ [0x20%N]) = len a + 1) as Hl by (rewrite SubwordFacts.len_app; reflexivity).
  unfold free; f_equal; f_equal.
  - rewrite phrase_app, <- Hl; replace (e + len (a ++ [0x20%N]) + 1) with (e + 1 + len (a ++ [0x20%N])) by lia; rewrite substr_behind by lia; reflexivity.
  - destruct (Z.eq_dec s 0) as [->|Hne].
    + replace (0 + (len a + 1) - 1) with (len a) by lia; rewrite Z.add_0_l, substr_space.
      change (substr b (0 - 1) 0) with (@nil N).
      destruct (single_blank p Hs [] (or_introl eq_refl)) as [_ ->], (single_blank p Hs [0x20%N] (or_intror eq_refl)) as [_ ->]; reflexivity.
    + rewrite phrase_app, <- Hl; replace (s + len (a ++ [0x20%N]) - 1) with (s - 1 + len (a ++ [0x20%N])) by lia; rewrite substr_behind by lia; reflexivity.
Qed.

(** ** Patterns that see one word at a time *)
Definition wordly (p : pattern) : Prop :=
  (forall word off, 0 <= off -> clear p word off) /\ raw p [] 0 = [] /\
  forall a b off, unspaced a -> 0 <= off <= len a ->
    look p (phrase a b) off = match look p a off with Some v => Some v | None => option_map (put (len a + 1)) (look p b 0) end.

(** The scan of Find, by what is seen. *)
Inductive glance (p : pattern) (word : bytes) : Z -> list (list Z) -> Prop :=
| glance_end off : len word <= off -> glance p word off []
| glance_none off : 0 <= off < len word -> look p word off = None -> glance p word off []
| glance_hit off s e core ms : 0 <= off < len word -> look p word off = Some (s, e, core) -> e <> s -> free p word s e = true ->
    glance p word e ms -> glance p word off ((s :: e :: core) :: ms)
| glance_miss off s e core ms : 0 <= off < len word -> look p word off = Some (s, e, core) -> e <> s -> free p word s e = false ->
    glance p word e ms -> glance p word off ms.
Lemma scan_glance p word off ms : wordly p -> single p = true -> scan p word off ms -> glance p word off ms.
Proof.
  intros (Hw & _) Hs; induction 1 as [off H|off H Hr|off start stop core ms Ho Hl Hp Hne Ha Hc Hsc IH|off start stop ms Ho Hl Hp Hne Ha Hsc IH].
  - apply glance_end; exact H.
  - apply glance_none; [exact H|apply look_nil; exact Hr].
  - assert (look p word off = Some (start, stop, core)) as E by (unfold look; rewrite Hp, Hc; reflexivity).
    eapply glance_hit; try eassumption; rewrite (allow_free p word off _ _ _ Hs (Hw word off ltac:(lia)) E) in Ha; injection Ha as Ha; exact Ha.
  - pose proof (Hw word off ltac:(lia)) as Hcl; destruct (look p word off) as [[[s e] core]|] eqn:E.
    + pose proof E as E'; apply look_some in E'; destruct E' as [E1 _]; rewrite Hp in E1; injection E1 as <- <-.
      eapply glance_miss; try eassumption; rewrite (allow_free p word off _ _ _ Hs Hcl E) in Ha; injection Ha as Ha; exact Ha.
    + unfold clear in Hcl; rewrite E in Hcl; rewrite Hcl in Hl; cbn in Hl; lia.
Qed.
Lemma glance_scan p word off ms : wordly p -> single p = true -> glance p word off ms -> scan p word off ms.
Proof.
  intros (Hw & _) Hs; induction 1 as [off H|off H Hr|off s e core ms Ho E Hne Ha Hsc IH|off s e core ms Ho E Hne Ha Hsc IH].
  - apply scan_end; exact H.
  - apply scan_none; [exact H|]; pose proof (Hw word off ltac:(lia)) as Hcl; unfold clear in Hcl; rewrite Hr in Hcl; exact Hcl.
  - pose proof (Hw word off ltac:(lia)) as Hcl; pose proof (allow_free p word off _ _ _ Hs Hcl E) as Hal; rewrite Ha in Hal.
    unfold clear in Hcl; rewrite E in Hcl; apply look_some in E; destruct E as [E1 E2]; eapply scan_hit; try eassumption; apply Hcl.
  - pose proof (Hw word off ltac:(lia)) as Hcl; pose proof (allow_free p word off _ _ _ Hs Hcl E) as Hal; rewrite Ha in Hal.
    unfold clear in Hcl; rewrite E in Hcl; apply look_some in E; destruct E as [E1 E2]; eapply scan_miss; try eassumption; apply Hcl.
Qed.
Lemma glance_later p a b off ms : compiled p -> single p = true -> 0 <= off ->
  glance p b off ms -> glance p (phrase a b) (off + (len a + 1)) (later (len a + 1) ms).
Proof.
  intros Hc Hs Ho Hg; assert (len (a ++ [0x20%N]) = len a + 1) as Hl by (rewrite SubwordFacts.len_app; reflexivity).
  pose proof (Zle_0_nat (length a)) as Hla; fold (len a) in Hla.
  assert (forall o, 0 <= o -> look p (phrase a b) (o + (len a + 1)) = option_map (put (len a + 1)) (look p b o)) as Hk
    by (intros o H; rewrite phrase_app, <- Hl; apply look_later; exact H).
  revert Ho; induction Hg as [off H|off H Hr|off s e core ms Hof E Hne Ha Hsc IH|off s e core ms Hof E Hne Ha Hsc IH]; intros Ho.
  - apply glance_end; rewrite len_phrase; lia.
  - apply glance_none; [rewrite len_phrase; lia|]; rewrite Hk, Hr by lia; reflexivity.
  - destruct (look_bound p b off s e core Hc Hof E) as [Bs Be]; cbn [later map]; rewrite !off_by_real by lia.
    eapply glance_hit; [rewrite len_phrase; lia| |lia|rewrite free_later by (try assumption; lia); exact Ha|apply IH; lia].
    rewrite Hk, E by lia; cbn [option_map put]; rewrite !off_by_real by lia; reflexivity.
  - destruct (look_bound p b off s e core Hc Hof E) as [Bs Be].
    eapply (glance_miss p _ _ (s + (len a + 1)) (e + (len a + 1))); [rewrite len_phrase; lia| |lia|rewrite free_later by (try assumption; lia); exact Ha|apply IH; lia].
    rewrite Hk, E by lia; cbn [option_map put]; rewrite !off_by_real by lia; reflexivity.
Qed.

(** The rest of the scan, when nothing more is found in the first text. *)
Lemma glance_second p a b off ms : compiled p -> wordly p -> single p = true -> unspaced a -> 0 <= off <= len a ->
  look p a off = None -> glance p b 0 ms -> glance p (phrase a b) off (later (len a + 1) ms).
Proof.
  intros Hc (_ & Hnil & Hw) Hs Ha Ho Hn Hg; pose proof (Hw a b off Ha Ho) as E; rewrite Hn in E.
  pose proof (Zle_0_nat (length b)) as Hlb; fold (len b) in Hlb.
  assert (0 <= off < len (phrase a b)) as Hb by (rewrite len_phrase; lia).
  remember 0 as z eqn:Ez; destruct Hg as [z H|z H Hr|z s e core ms H E0 Hne Hf Hg|z s e core ms H E0 Hne Hf Hg]; subst z.
  - apply glance_none; [exact Hb|]; rewrite E; destruct b; [|unfold len in H; cbn [length] in H; lia]; rewrite look_nil by exact Hnil; reflexivity.
  - apply glance_none; [exact Hb|]; rewrite E, Hr; reflexivity.
  - destruct (look_bound p b 0 s e core Hc H E0) as [Bs Be]; rewrite E0 in E; cbn [option_map put] in E; cbn [later map].
    rewrite !off_by_real in * by lia.
    eapply glance_hit; [exact Hb|exact E|lia|rewrite free_later by (try assumption; lia); exact Hf|].
    apply glance_later; try assumption; lia.
  - destruct (look_bound p b 0 s e core Hc H E0) as [Bs Be]; rewrite E0 in E; cbn [option_map put] in E.
    rewrite !off_by_real in * by lia.
    eapply glance_miss; [exact Hb|exact E|lia|rewrite free_later by (try assumption; lia); exact Hf|].
    apply glance_later; try assumption; lia.
Qed.
Lemma glance_words p a b off ms ms2 : compiled p -> wordly p -> single p = true -> unspaced a -> 0 <= off <= len a ->
  glance p a off ms -> glance p b 0 ms2 -> glance p (phrase a b) off (ms ++ later (len a + 1) ms2).
Proof.
  intros Hc Hwo Hs Ha Ho Hg Hb; pose proof Hwo as (_ & Hnil & Hw); pose proof (Zle_0_nat (length b)) as Hlb; fold (len b) in Hlb.
  revert Ho; induction Hg as [off H|off H Hr|off s e core ms Hof E Hne Hf Hg IH|off s e core ms Hof E Hne Hf Hg IH]; intros Ho.
  - apply glance_second; try assumption; apply look_nil; unfold raw.
    rewrite skipn_all2 by (unfold len in *; lia); unfold raw in Hnil; cbn [Z.to_nat skipn] in Hnil.
    unfold shift in *; apply map_eq_nil in Hnil; rewrite Hnil; reflexivity.
  - apply glance_second; assumption.
  - destruct (look_bound p a off s e core Hc Hof E) as [Bs Be]; cbn [app].
    eapply glance_hit; [rewrite len_phrase; lia|rewrite Hw, E by assumption; reflexivity|exact Hne|rewrite free_first by assumption; exact Hf|apply IH; lia].
  - destruct (look_bound p a off s e core Hc Hof E) as [Bs Be].
    eapply glance_miss; [rewrite len_phrase; lia|rewrite Hw, E by assumption; reflexivity|exact Hne|rewrite free_first by assumption; exact Hf|apply IH; lia].
Qed.

(** ** Which patterns do *)
Definition view_at (n : nat) (off : Z) (v : view) : sight :=
  let '(p2, p3, c3) := v in (off + Z.of_nat p2, off + Z.of_nat p3, map (off_by off) (core_of n c3)).
Lemma look_view p q word off : parts_of (prog (p_re p)) = Some q -> fit (numcap (p_re p)) q = true -> 0 <= off ->
  look p word off = option_map (view_at (numcap (p_re p)) off) (hd_error (all (numcap (p_re p)) q (glyphs (skipn (Z.to_nat off) word)) 0)).
Proof.
  intros Hx Hq Ho; pose proof (raw_seen p q word off Hx Hq Ho) as H; destruct (all _ _ _ _) as [|[[p2 p3] c3] l]; cbn [hd_error option_map].
  - apply look_nil; exact H.
  - destruct H as (_ & Hp & _ & Hc); unfold look; rewrite Hp, Hc; reflexivity.
Qed.
Lemma parts_wordly p q : parts_of (prog (p_re p)) = Some q -> fit (numcap (p_re p)) q = true -> wordly p.
Proof.
  intros Hx Hq; set (n := numcap (p_re p)) in *; split; [|split].
  - intros word off Ho; unfold clear; rewrite (look_view p q) by assumption; pose proof (raw_seen p q word off Hx Hq Ho) as H.
    destruct (all _ _ _ _) as [|[[p2 p3] c3] l]; cbn [hd_error option_map view_at]; [exact H|].
    destruct H as (Hl & _ & Hi & _); split; [exact Hl|right; exact Hi].
  - pose proof (raw_seen p q [] 0 Hx Hq ltac:(lia)) as H; cbn [Z.to_nat skipn] in H; rewrite glyphs_nil in H; cbn [all] in H.
    rewrite (gives_nil _ q Hq) in H; exact H.
  - intros a b off Ha Ho; rewrite !(look_view p q) by (try assumption; lia); fold n; rewrite skipn_phrase by lia; rewrite all_phrase.
    + destruct (hd_error (all n q (glyphs (skipn (Z.to_nat off) a)) 0)) as [v|]; [reflexivity|].
      cbn [Z.to_nat skipn]; destruct (hd_error (all n q (glyphs b) 0)) as [[[p2 p3] c3]|]; [|reflexivity].
      cbn [option_map moved_view view_at put]; rewrite skipn_length.
      rewrite !off_by_real by lia; rewrite later_core by (unfold len in *; lia).
      assert (off + Z.of_nat (length a - Z.to_nat off + 1) = len a + 1) as Hd by (unfold len in *; lia).
      f_equal; f_equal; [f_equal; lia|].
      unfold core_of; rewrite cap_array_move, map_map; apply map_ext_in; intros x Hin.
      rewrite off_by_twice; [f_equal; lia| |lia].
      pose proof (cap_array_real c3 (n - 4) 3) as H; rewrite Forall_forall in H; apply H; exact Hin.
    + exact Hq.
    + unfold unspaced in *; rewrite <- (firstn_skipn (Z.to_nat off) a) in Ha; apply Forall_app in Ha; tauto.
Qed.

(** An expression without edges, whatever its groups are. *)
Definition first_end (x : rx) (s : text) (p : nat) : option (nat * nat * caps) :=
  match outs x s p with [] => None | (_, p', c) :: _ => Some (p, p', c) end.
Lemma search_step x s p : search x s p =
  match first_end x s p with
  | Some v => Some v
  | None => match s with [] => None | (_, w) :: s' => search x s' (p + w)%nat end
  end.
Proof.
  unfold first_end; destruct s as [|[ch w] s]; cbn [search]; rewrite mt_outs; destruct (outs x _ p) as [|[[s' p'] c] l]; cbn [first give]; rewrite ?(app_nil_r c); reflexivity.
Qed.
Definition moved_match (d : nat) (m : nat * nat * caps) : nat * nat * caps := let '(a, b, c) := m in (a + d, b + d, move_caps d c)%nat.
Lemma search_moved x d : has_begin x = false -> forall s p, search x s (p + d) = option_map (moved_match d) (search x s p).
Proof.
  intros Hb; induction s as [|[ch w] s IH]; intros p.
  - rewrite (search_step x [] (p + d)), (search_step x [] p); unfold first_end; rewrite (outs_moved d x Hb).
    destruct (outs x [] p) as [|[[s' p'] c] l]; reflexivity.
  - rewrite (search_step x ((ch, w) :: s) (p + d)), (search_step x ((ch, w) :: s) p); unfold first_end; rewrite (outs_moved d x Hb).
    destruct (outs x ((ch, w) :: s) p) as [|[[s' p'] c] l]; cbn [map moved option_map moved_match]; [|reflexivity].
    replace (p + d + w)%nat with (p + w + d)%nat by lia; apply IH.
Qed.
Lemma search_phrase x (b : text) : plain x = true -> outs x [] 0 = [] -> forall s p,
  search x (s ++ (sp, 1%nat) :: b) p =
  match search x s p with Some v => Some v | None => option_map (moved_match (p + gwidth s + 1)) (search x b 0) end.
Proof.
  intros Hx Hn; pose proof (plain_begin x Hx) as Hb; set (X := (sp, 1%nat) :: b).
  assert (blank_first X) as HX by (exists sp, 1%nat, b; auto).
  assert (forall p, outs x [] p = []) as Hnp by (intros p; rewrite <- (Nat.add_0_l p), (outs_moved p x Hb), Hn; reflexivity).
  assert (forall s p, first_end x (s ++ X) p = first_end x s p) as Hf.
  { intros s p; unfold first_end; rewrite (outs_more X x HX Hx); destruct (outs x s p) as [|[[s' p'] c] l]; reflexivity. }
  induction s as [|[ch w] s IH]; intros p.
  - cbn [app gwidth]; rewrite (search_step x X), (search_step x []); rewrite (Hf [] p : first_end x X p = _); unfold first_end; rewrite Hnp.
    unfold X; rewrite <- search_moved by exact Hb; f_equal; cbn; lia.
  - rewrite (search_step x ((ch, w) :: s)), (search_step x (((ch, w) :: s) ++ X)), Hf; destruct (first_end x ((ch, w) :: s) p); [reflexivity|].
    cbn [app]; rewrite IH; destruct (search x s (p + w)); [reflexivity|].
    replace (p + gwidth ((ch, w) :: s) + 1)%nat with (p + w + gwidth s + 1)%nat by (change (gwidth ((ch, w) :: s)) with (w + gwidth s)%nat; lia); reflexivity.
Qed.
Definition edgeless (e : regexp) : bool :=
  plain (prog e) && (4 <=? numcap e)%nat && negb (has (outs (prog e) [] 0)).
Lemma raw_phrase p a b off : plain (prog (p_re p)) = true -> outs (prog (p_re p)) [] 0 = [] -> 0 <= off <= len a ->
  raw p (phrase a b) off = match raw p a off with [] => map (off_by (len a + 1)) (raw p b 0) | m => m end.
Proof.
  intros Hx Hn Ho; unfold raw, find_submatch_index; rewrite skipn_phrase by lia; rewrite glyphs_phrase, (search_phrase _ _ Hx Hn).
  destruct (search (prog (p_re p)) (glyphs (skipn (Z.to_nat off) a)) 0) as [[[x y] c]|]; [reflexivity|].
  cbn [Z.to_nat skipn]; destruct (search (prog (p_re p)) (glyphs b) 0) as [[[x y] c]|]; [|reflexivity].
  rewrite gwidth_glyphs, skipn_length; cbn [option_map moved_match].
  set (d := (0 + (length a - Z.to_nat off) + 1)%nat); set (L := Z.of_nat x :: Z.of_nat y :: cap_array c 1 (numcap (p_re p))).
  assert (Z.of_nat (x + d) :: Z.of_nat (y + d) :: cap_array (move_caps d c) 1 (numcap (p_re p)) = map (off_by (Z.of_nat d)) L) as ->.
  { unfold L; cbn [map]; rewrite cap_array_move, !off_by_real by lia; f_equal; [lia|]; f_equal; lia. }
  change (shift off) with (map (off_by off)); change (shift 0) with (map (off_by 0)); rewrite !map_map; apply map_ext_in; intros z Hz.
  assert (-1 <= z) as Hr.
  { unfold L in Hz; destruct Hz as [<-|[<-|Hz]]; [lia|lia|].
    pose proof (cap_array_real c (numcap (p_re p)) 1) as H; rewrite Forall_forall in H; apply H; exact Hz. }
  rewrite !off_by_twice by lia; f_equal; unfold d, len in *; lia.
Qed.
Lemma edgeless_wordly p : edgeless (p_re p) = true -> alone p -> wordly p.
Proof.
  unfold edgeless; intros H Hal; apply andb_true_iff in H; destruct H as [H Hn]; apply andb_true_iff in H; destruct H as [Hx Hk].
  apply Nat.leb_le in Hk; apply negb_true_iff in Hn; assert (outs (prog (p_re p)) [] 0 = []) as Hnil by (destruct (outs _ _ _); [reflexivity|discriminate]).
  split; [|split].
  - intros word off Ho; unfold clear.
    destruct (search (prog (p_re p)) (glyphs (skipn (Z.to_nat off) word)) 0) as [[[a b] c]|] eqn:Es.
    2:{ pose proof (raw_miss _ _ _ Es) as E; rewrite (look_nil _ _ _ E); exact E. }
    pose proof (raw_len p word off a b c Es) as Hlen.
    pose proof (raw_index p word off a b c Es 0 ltac:(lia)) as [H0 H1].
    pose proof (raw_index p word off a b c Es 2 ltac:(lia)) as [_ H5].
    pose proof (raw_index p word off a b c Es (numcap (p_re p) - 1) ltac:(lia)) as [H4 _].
    change (2 * Z.of_nat 0) with 0 in *; change (0 + 1) with 1 in H1; change (2 * Z.of_nat 2 + 1) with 5 in H5.
    replace (2 * Z.of_nat (numcap (p_re p) - 1)) with (len (raw p word off) - 4) in H4 by lia.
    unfold look, pick_start_stop; rewrite H0, H1, H5, H4; cbn [bind].
    assert (slice (raw p word off) 6 (len (raw p word off) - 4) = Ok (firstn (Z.to_nat (len (raw p word off) - 4 - 6)) (skipn 6 (raw p word off)))) as ->.
    { unfold slice; replace ((0 <=? 6) && (6 <=? len (raw p word off) - 4) && (len (raw p word off) - 4 <=? len (raw p word off))) with true by lia; reflexivity. }
    destruct (_ =? -1); cbn [bind]; destruct (_ =? -1); cbn [bind]; (split; [lia|left; exact Hal]).
  - apply raw_miss; cbn [Z.to_nat skipn]; rewrite glyphs_nil, search_step; unfold first_end; rewrite Hnil; reflexivity.
  - intros a b off _ Ho; pose proof (raw_phrase p a b off Hx Hnil Ho) as E.
    destruct (raw p a off) as [|z m] eqn:Er.
    + rewrite (look_nil p a off Er); apply look_map; [unfold len; lia|apply raw_real; lia|exact E].
    + assert (look p (phrase a b) off = look p a off) as -> by (unfold look; rewrite E, Er; reflexivity).
      destruct (look p a off) eqn:El; [reflexivity|exfalso].
      clear E; revert El; unfold look, pick_start_stop.
      destruct (search (prog (p_re p)) (glyphs (skipn (Z.to_nat off) a)) 0) as [[[x y] c]|] eqn:Es.
      2:{ rewrite (raw_miss _ _ _ Es) in Er; discriminate. }
      pose proof (raw_len p a off x y c Es) as Hlen.
      pose proof (raw_index p a off x y c Es 0 ltac:(lia)) as [H0 H1].
      pose proof (raw_index p a off x y c Es 2 ltac:(lia)) as [_ H5].
      pose proof (raw_index p a off x y c Es (numcap (p_re p) - 1) ltac:(lia)) as [H4 _].
      change (2 * Z.of_nat 0) with 0 in *; change (0 + 1) with 1 in H1; change (2 * Z.of_nat 2 + 1) with 5 in H5.
      replace (2 * Z.of_nat (numcap (p_re p) - 1)) with (len (raw p a off) - 4) in H4 by lia.
      rewrite H0, H1, H5, H4; cbn [bind].
      assert (slice (raw p a off) 6 (len (raw p a off) - 4) = Ok (firstn (Z.to_nat (len (raw p a off) - 4 - 6)) (skipn 6 (raw p a off)))) as ->.
      { unfold slice; replace ((0 <=? 6) && (6 <=? len (raw p a off) - 4) && (len (raw p a off) - 4 <=? len (raw p a off))) with true by lia; reflexivity. }
      destruct (_ =? -1); cbn [bind]; destruct (_ =? -1); cbn [bind]; discriminate.
Qed.

Definition wordwise_pattern (p : pattern) : bool :=
  (wordwise (p_re p) && single p) ||
  (edgeless (p_re p) && match p_negA p, p_negB p with None, None => true | _, _ => false end).
Lemma wordwise_wordly p : wordwise_pattern p = true -> wordly p /\ single p = true.
Proof.
  unfold wordwise_pattern, wordwise; intros H; apply orb_true_iff in H; destruct H as [H|H]; apply andb_true_iff in H; destruct H as [H1 H2].
  - destruct (parts_of (prog (p_re p))) as [q|] eqn:E; [|discriminate]; split; [eapply parts_wordly; eassumption|exact H2].
  - destruct (p_negA p) eqn:Ea, (p_negB p) eqn:Eb; try discriminate; split; [apply edgeless_wordly; [exact H1|split; assumption]|].
    unfold single; rewrite Ea, Eb; reflexivity.
Qed.

Lemma scan_det p word off ms : scan p word off ms -> forall ms', scan p word off ms' -> ms' = ms.
Proof.
  induction 1 as [off H|off H Hr|off start stop core ms Ho Hl Hp Hne Ha Hc Hs IH|off start stop ms Ho Hl Hp Hne Ha Hs IH];
    intros ms' H'; inversion H'; subst; try reflexivity; try lia; try congruence;
    try (match goal with E : raw _ _ _ = [] |- _ => rewrite E in *; cbn in *; lia end).
  - rewrite Hp in *; match goal with E : Ok _ = Ok _ |- _ => injection E as <- <- end.
    rewrite Hc in *; match goal with E : Ok _ = Ok _ |- _ => injection E as <- end; f_equal; auto.
  - rewrite Hp in *; match goal with E : Ok _ = Ok _ |- _ => injection E as <- <- end; auto.
Qed.

Lemma find_words p a b : compiled p -> safe_pattern p = true -> wordwise_pattern p = true -> unspaced a ->
  exists ms ms2, find p a (-1) = Ok ms /\ ordered a 0 ms /\ find p b (-1) = Ok ms2 /\ ordered b 0 ms2 /\
    find p (phrase a b) (-1) = Ok (ms ++ later (len a + 1) ms2).
Proof.
  intros Hc Hs Hw Ha; destruct (wordwise_wordly p Hw) as [Hwo Hsi].
  destruct (find_safe p a Hc Hs (-1)) as (ms & Ea & Oa), (find_safe p b Hc Hs (-1)) as (ms2 & Eb & Ob).
  destruct (find_safe p (phrase a b) Hc Hs (-1)) as (ms3 & Ep & Op).
  exists ms, ms2; split; [exact Ea|]; split; [exact Oa|]; split; [exact Eb|]; split; [exact Ob|]; rewrite Ep; f_equal.
  eapply scan_det; [|eapply find_scan; [|exact Ep]; lia].
  apply glance_scan; try assumption; apply glance_words; try assumption; [unfold len; lia| |];
    apply scan_glance; try assumption; (eapply find_scan; [|eassumption]; lia).
Qed.
