(** Searching a phrase: where the words are separated by a space, a pattern that does not
    cross spaces finds in the phrase what it finds in the words. *)
From Coq Require Import Lia List Bool.
From Verif Require Import GoBase Utf8 Utf8Facts Regex RegexSpec RegexFacts RegexParse CaptureFacts ReplaceFacts Hre FindFacts.
Import ListNotations.
Open Scope nat_scope.

(** ** All ways to match, the preferred first *)
Definition out : Type := text * nat * caps.
Definition add (c1 : caps) (o : out) : out := let '(s2, p2, c2) := o in (s2, p2, c2 ++ c1).
Definition mark (i p : nat) (o : out) : out := let '(s2, p2, c2) := o in (s2, p2, (i, (p, p2)) :: c2).
Definition next (f : text -> nat -> list out) (o : out) : list out := let '(s1, p1, c1) := o in map (add c1) (f s1 p1).
Definition onward (p : nat) (f : text -> nat -> list out) (o : out) : list out :=
  let '(s1, p1, c1) := o in if p1 <=? p then [] else map (add c1) (f s1 p1).
Fixpoint rounds (f : text -> nat -> list out) (g : bool) (n : text) (s : text) (p : nat) : list out :=
  match n with
  | [] => [(s, p, [])]
  | _ :: n' =>
    let more := flat_map (onward p (rounds f g n')) (f s p) in
    if g then more ++ [(s, p, [])] else (s, p, []) :: more
  end.
Fixpoint outs (r : rx) (s : text) (p : nat) {struct r} : list out :=
  match r with
  | XFail => []
  | XEps => [(s, p, [])]
  | XSet ranges =>
    match s with
    | [] => []
    | (ch, w) :: s' => if in_set ranges ch then [(s', p + w, [])] else []
    end
  | XBegin => match p with O => [(s, p, [])] | S _ => [] end
  | XEnd => match s with [] => [(s, p, [])] | _ :: _ => [] end
  | XCap i r => map (mark i p) (outs r s p)
  | XCat a b => flat_map (next (outs b)) (outs a s p)
  | XAlt a b => outs a s p ++ outs b s p
  | XStar g r => rounds (outs r) g s s p
  end.

Fixpoint first {A B} (k : A -> option B) (l : list A) : option B :=
  match l with
  | [] => None
  | x :: l' => match k x with Some y => Some y | None => first k l' end
  end.
Lemma first_app {A B} (k : A -> option B) l m :
  first k (l ++ m) = match first k l with Some y => Some y | None => first k m end.
Proof. induction l as [|x l IH]; [reflexivity|]; cbn [app first]; destruct (k x); [reflexivity|exact IH]. Qed.
Lemma first_flat {A B C} (k : B -> option C) (f : A -> list B) l :
  first k (flat_map f l) = first (fun x => first k (f x)) l.
Proof. induction l as [|x l IH]; [reflexivity|]; cbn [flat_map first]; rewrite first_app, IH; reflexivity. Qed.
Lemma first_map {A B C} (k : B -> option C) (f : A -> B) l : first k (map f l) = first (fun x => k (f x)) l.
Proof. induction l as [|x l IH]; [reflexivity|]; cbn [map first]; rewrite IH; reflexivity. Qed.
Lemma first_ext {A B} (k k' : A -> option B) l : (forall x, k x = k' x) -> first k l = first k' l.
Proof. intros H; induction l as [|x l IH]; [reflexivity|]; cbn [first]; rewrite H, IH; reflexivity. Qed.

Definition give {A} (k : text -> nat -> caps -> option A) (c : caps) (o : out) : option A :=
  let '(s, p, c') := o in k s p (c' ++ c).
Lemma mt_outs {A} r : forall s p c (k : text -> nat -> caps -> option A), mt r s p c k = first (give k c) (outs r s p).
Proof.
  induction r as [| |ranges| | |i r IH|a IHa b IHb|a IHa b IHb|g r IH]; intros s p c k; cbn [mt outs].
  - reflexivity.
  - cbn [first give app]; destruct (k s p c); reflexivity.
  - destruct s as [|[ch w] s]; [reflexivity|]; destruct (in_set ranges ch); [|reflexivity].
    cbn [first give app]; destruct (k s (p + w) c); reflexivity.
  - destruct p; [|reflexivity]; cbn [first give app]; destruct (k s 0 c); reflexivity.
  - destruct s; [|reflexivity]; cbn [first give app]; destruct (k [] p c); reflexivity.
  - rewrite IH, first_map; apply first_ext; intros [[s1 p1] c1]; reflexivity.
  - rewrite IHa, first_flat; apply first_ext; intros [[s1 p1] c1]; cbn [give next].
    rewrite IHb, first_map; apply first_ext; intros [[s2 p2] c2]; cbn [give add]; rewrite app_assoc; reflexivity.
  - rewrite IHa, IHb, first_app; reflexivity.
  - generalize s at 1 3 as n; intros n; revert s p c; induction n as [|g0 n IHn]; intros s p c.
    + cbn [rounds first give app]; destruct (k s p c); reflexivity.
    + cbn [rounds].
      assert (mt r s p c (fun s' p' c' => if p' <=? p then None else
                (fix loop (n0 s0 : text) (p0 : nat) (c0 : caps) {struct n0} : option A :=
                   match n0 with
                   | [] => k s0 p0 c0
                   | _ :: n' => if g then match mt r s0 p0 c0 (fun s'0 p'0 c'0 => if p'0 <=? p0 then None else loop n' s'0 p'0 c'0) with
                                          | Some x => Some x | None => k s0 p0 c0 end
                                else match k s0 p0 c0 with
                                     | Some x => Some x
                                     | None => mt r s0 p0 c0 (fun s'0 p'0 c'0 => if p'0 <=? p0 then None else loop n' s'0 p'0 c'0) end
                   end) n s' p' c')
              = first (give k c) (flat_map (onward p (rounds (outs r) g n)) (outs r s p))) as E.
      { rewrite IH, first_flat; apply first_ext; intros [[s1 p1] c1]; cbn [give onward].
        destruct (p1 <=? p); [reflexivity|].
        rewrite IHn, first_map; apply first_ext; intros [[s2 p2] c2]; cbn [give add]; rewrite app_assoc; reflexivity. }
      destruct g.
      * rewrite E, first_app; cbn [first give app]; destruct (first _ _); [reflexivity|]; destruct (k s p c); reflexivity.
      * rewrite E; cbn [first give app]; reflexivity.
Qed.

Lemma outs_consume r : forall s p s' p' c, In (s', p', c) (outs r s p) -> exists u, s = u ++ s' /\ p' = p + gwidth u.
Proof.
  assert (forall s p, exists u : text, s = u ++ s /\ p = p + gwidth u) as H0 by (intros s p; exists []; cbn; split; [reflexivity|lia]).
  induction r as [| |ranges| | |i r IH|a IHa b IHb|a IHa b IHb|g r IH]; intros s p s' p' c H; cbn [outs] in H.
  - destruct H.
  - destruct H as [H|[]]; injection H as <- <- <-; apply H0.
  - destruct s as [|[ch w] s]; [destruct H|]; destruct (in_set ranges ch); [|destruct H].
    destruct H as [H|[]]; injection H as <- <- <-; exists [(ch, w)]; cbn; split; [reflexivity|lia].
  - destruct p; [|destruct H]; destruct H as [H|[]]; injection H as <- <- <-; apply H0.
  - destruct s; [|destruct H]; destruct H as [H|[]]; injection H as <- <- <-; apply H0.
  - apply in_map_iff in H; destruct H as ([[s1 p1] c1] & E & H); injection E as <- <- <-; eauto.
  - apply in_flat_map in H; destruct H as ([[s1 p1] c1] & H1 & H2); cbn [next] in H2.
    apply in_map_iff in H2; destruct H2 as ([[s2 p2] c2] & E & H2); injection E as <- <- <-.
    apply IHa in H1; apply IHb in H2; destruct H1 as (u & -> & ->), H2 as (v & -> & ->).
    exists (u ++ v); rewrite <- app_assoc, gwidth_app; split; [reflexivity|lia].
  - apply in_app_iff in H; destruct H; eauto.
  - revert H; generalize s at 1 as n; intros n; revert s p s' p' c; induction n as [|g0 n IHn]; intros s p s' p' c H.
    + destruct H as [H|[]]; injection H as <- <- <-; apply H0.
    + cbn [rounds] in H.
      assert (In (s', p', c) (flat_map (onward p (rounds (outs r) g n)) (outs r s p)) \/ (s', p', c) = (s, p, [])) as [H1|H1].
      { destruct g; [apply in_app_iff in H; cbn [In] in H|cbn [In] in H]; intuition. }
      2:{ injection H1 as -> -> ->; apply H0. }
      apply in_flat_map in H1; destruct H1 as ([[s1 p1] c1] & H1 & H2); cbn [onward] in H2.
      destruct (p1 <=? p); [destruct H2|].
      apply in_map_iff in H2; destruct H2 as ([[s2 p2] c2] & E & H2); injection E as <- <- <-.
      apply IH in H1; apply IHn in H2; destruct H1 as (u & -> & ->), H2 as (v & -> & ->).
      exists (u ++ v); rewrite <- app_assoc, gwidth_app; split; [reflexivity|lia].
Qed.

Lemma outs_ids r : forall s p s' p' c e, In (s', p', c) (outs r s p) -> In e c -> In (fst e) (map fst (xcaps r)).
Proof.
  induction r as [| |ranges| | |i r IH|a IHa b IHb|a IHa b IHb|g r IH]; intros s p s' p' c e H He; cbn [outs] in H; cbn [xcaps].
  - destruct H.
  - destruct H as [H|[]]; injection H as <- <- <-; destruct He.
  - destruct s as [|[ch w] s]; [destruct H|]; destruct (in_set ranges ch); [|destruct H].
    destruct H as [H|[]]; injection H as <- <- <-; destruct He.
  - destruct p; [|destruct H]; destruct H as [H|[]]; injection H as <- <- <-; destruct He.
  - destruct s; [|destruct H]; destruct H as [H|[]]; injection H as <- <- <-; destruct He.
  - apply in_map_iff in H; destruct H as ([[s1 p1] c1] & E & H); injection E as <- <- <-.
    cbn [map fst]; destruct He as [<-|He]; [left; reflexivity|right; eauto].
  - apply in_flat_map in H; destruct H as ([[s1 p1] c1] & H1 & H2); cbn [next] in H2.
    apply in_map_iff in H2; destruct H2 as ([[s2 p2] c2] & E & H2); injection E as <- <- <-.
    rewrite map_app; apply in_app_iff; apply in_app_iff in He; destruct He; [right|left]; eauto.
  - rewrite map_app; apply in_app_iff; apply in_app_iff in H; destruct H; [left|right]; eauto.
  - revert H; generalize s at 1 as n; intros n; revert s p s' p' c He; induction n as [|g0 n IHn]; intros s p s' p' c He H.
    + destruct H as [H|[]]; injection H as <- <- <-; destruct He.
    + cbn [rounds] in H.
      assert (In (s', p', c) (flat_map (onward p (rounds (outs r) g n)) (outs r s p)) \/ (s', p', c) = (s, p, [])) as [H1|H1].
      { destruct g; [apply in_app_iff in H; cbn [In] in H|cbn [In] in H]; intuition. }
      2:{ injection H1 as -> -> ->; destruct He. }
      apply in_flat_map in H1; destruct H1 as ([[s1 p1] c1] & H1 & H2); cbn [onward] in H2.
      destruct (p1 <=? p); [destruct H2|].
      apply in_map_iff in H2; destruct H2 as ([[s2 p2] c2] & E & H2); injection E as <- <- <-.
      apply in_app_iff in He; destruct He; [eapply IHn|eapply IH]; eassumption.
Qed.

(** The fuel of a repetition does not matter when it suffices. *)
Lemma rounds_fuel r g : forall n m s p, length s <= length n -> length s <= length m ->
  rounds (outs r) g n s p = rounds (outs r) g m s p.
Proof.
  assert (forall f n p, flat_map (onward p (rounds f g n)) (outs r [] p) = []) as Hnil.
  { intros f n p; apply incl_l_nil; intros x Hx; apply in_flat_map in Hx; destruct Hx as ([[s1 p1] c1] & H1 & H2).
    apply outs_consume in H1; destruct H1 as (u & E & ->); symmetry in E; apply app_eq_nil in E; destruct E as [-> ->].
    cbn [onward] in H2; replace (p + gwidth [] <=? p) with true in H2; [destruct H2|].
    symmetry; apply Nat.leb_le; cbn; lia. }
  assert (forall n p, rounds (outs r) g n [] p = [([], p, [])]) as Hz.
  { intros [|x n] p; [reflexivity|]; cbn [rounds]; rewrite Hnil; destruct g; reflexivity. }
  induction n as [|x n IH]; intros m s p Hn Hm.
  - destruct s; [|cbn in Hn; lia]; rewrite !Hz; reflexivity.
  - destruct s as [|y s]; [rewrite !Hz; reflexivity|].
    destruct m as [|z m]; [cbn in Hm; lia|]; cbn [rounds].
    assert (flat_map (onward p (rounds (outs r) g n)) (outs r (y :: s) p)
            = flat_map (onward p (rounds (outs r) g m)) (outs r (y :: s) p)) as ->; [|reflexivity].
    assert (forall l, incl l (outs r (y :: s) p) ->
              flat_map (onward p (rounds (outs r) g n)) l = flat_map (onward p (rounds (outs r) g m)) l) as Hl.
    2:{ apply Hl, incl_refl. }
    induction l as [|[[s1 p1] c1] l IHl]; intros Hi; [reflexivity|]; cbn [flat_map].
    rewrite IHl by (intros q Hq; apply Hi; right; exact Hq); f_equal; cbn [onward].
    destruct (p1 <=? p) eqn:E; [reflexivity|].
    assert (In (s1, p1, c1) (outs r (y :: s) p)) as H1 by (apply Hi; left; reflexivity).
    apply outs_consume in H1; destruct H1 as (u & Eu & ->).
    assert (length s1 <= length s) as Hs.
    { destruct u as [|y' u]; [cbn in E; apply Nat.leb_gt in E; lia|].
      apply (f_equal (@length _)) in Eu; cbn [length app] in Eu; rewrite app_length in Eu; lia. }
    cbn [length] in Hn, Hm; rewrite (IH m s1) by lia; reflexivity.
Qed.

(** ** At another position *)
Definition moved (d : nat) (o : out) : out := let '(s, p, c) := o in (s, p + d, move_caps d c).
Lemma move_caps_app d a b : move_caps d (a ++ b) = move_caps d a ++ move_caps d b.
Proof. apply map_app. Qed.
Lemma flat_map_map {A B C} (f : A -> B) (g : B -> list C) l : flat_map g (map f l) = flat_map (fun x => g (f x)) l.
Proof. induction l as [|x l IH]; [reflexivity|]; cbn; rewrite IH; reflexivity. Qed.
Lemma map_flat_map {A B C} (f : B -> C) (g : A -> list B) l : map f (flat_map g l) = flat_map (fun x => map f (g x)) l.
Proof. induction l as [|x l IH]; [reflexivity|]; cbn; rewrite map_app, IH; reflexivity. Qed.
Lemma flat_map_in_ext {A B} (f g : A -> list B) l : (forall x, In x l -> f x = g x) -> flat_map f l = flat_map g l.
Proof. induction l as [|x l IH]; intros H; [reflexivity|]; cbn; rewrite (H x), IH; auto; [intros; apply H; right; assumption|left; reflexivity]. Qed.

Lemma next_moved d f f' s1 p1 c1 :
  (forall s p, f' s (p + d) = map (moved d) (f s p)) ->
  next f' (s1, p1 + d, move_caps d c1) = map (moved d) (next f (s1, p1, c1)).
Proof.
  intros H; cbn [next]; rewrite H, !map_map; apply map_ext; intros [[s2 p2] c2]; cbn [moved add]; rewrite move_caps_app; reflexivity.
Qed.
Lemma outs_moved d r : has_begin r = false -> forall s p, outs r s (p + d) = map (moved d) (outs r s p).
Proof.
  induction r as [| |ranges| | |i r IH|a IHa b IHb|a IHa b IHb|g r IH]; intros Hb s p; cbn [outs]; cbn [has_begin] in Hb.
  - reflexivity.
  - reflexivity.
  - destruct s as [|[ch w] s]; [reflexivity|]; destruct (in_set ranges ch); [|reflexivity].
    cbn [map moved move_caps]; replace (p + d + w) with (p + w + d) by lia; reflexivity.
  - discriminate.
  - destruct s; reflexivity.
  - rewrite IH by exact Hb; rewrite !map_map; apply map_ext; intros [[s1 p1] c1]; reflexivity.
  - apply orb_false_iff in Hb; destruct Hb as [Ha Hb'].
    rewrite (IHa Ha), flat_map_map, map_flat_map; apply flat_map_ext; intros [[s1 p1] c1]; cbn [moved].
    apply next_moved; intros; apply IHb; exact Hb'.
  - apply orb_false_iff in Hb; destruct Hb as [Ha Hb']; rewrite (IHa Ha), (IHb Hb'), map_app; reflexivity.
  - generalize s at 1 3 as n; intros n; revert s p; induction n as [|g0 n IHn]; intros s p; [reflexivity|].
    cbn [rounds].
    assert (flat_map (onward (p + d) (rounds (outs r) g n)) (outs r s (p + d))
            = map (moved d) (flat_map (onward p (rounds (outs r) g n)) (outs r s p))) as E.
    { rewrite (IH Hb), flat_map_map, map_flat_map; apply flat_map_ext; intros [[s1 p1] c1]; cbn [moved onward].
      replace (p1 + d <=? p + d) with (p1 <=? p).
      2:{ destruct (Nat.leb_spec p1 p), (Nat.leb_spec (p1 + d) (p + d)); try reflexivity; lia. }
      destruct (p1 <=? p); [reflexivity|]; apply (next_moved d (rounds (outs r) g n)); intros; apply IHn. }
    rewrite E; destruct g; [rewrite map_app; reflexivity|reflexivity].
Qed.

(** ** Expressions that do not match white space *)
Definition white (c : rune) : bool := in_set cls_s c.
Definition whites : list rune := [9; 10; 12; 13; 32]%N.
Lemma white_in c : white c = true -> In c whites.
Proof.
  unfold white, in_set, cls_s, whites; cbn [existsb fst snd In]; intros H.
  repeat (apply orb_true_iff in H; destruct H as [H|H]); try discriminate;
    apply andb_true_iff in H; destruct H as [H1 H2]; apply N.leb_le in H1, H2; lia.
Qed.
Fixpoint plain (x : rx) : bool :=
  match x with
  | XFail | XEps => true
  | XSet ranges => forallb (fun c => negb (in_set ranges c)) whites
  | XBegin | XEnd => false
  | XCap _ r | XStar _ r => plain r
  | XCat a b | XAlt a b => plain a && plain b
  end.
Lemma plain_begin x : plain x = true -> has_begin x = false.
Proof.
  induction x; cbn [plain has_begin]; intros H; try reflexivity; try discriminate; auto;
    apply andb_true_iff in H; destruct H; apply orb_false_iff; auto.
Qed.
(** A text that begins with white space. *)
Definition blank_first (X : text) : Prop := exists (c : rune) (w : nat) Y, X = (c, w) :: Y /\ white c = true.
Definition more (X : text) (o : out) : out := let '(s, p, c) := o in (s ++ X, p, c).
Lemma next_more X f f' s1 p1 c1 :
  (forall s p, f' (s ++ X) p = map (more X) (f s p)) -> next f' (s1 ++ X, p1, c1) = map (more X) (next f (s1, p1, c1)).
Proof. intros H; cbn [next]; rewrite H, !map_map; apply map_ext; intros [[s2 p2] c2]; reflexivity. Qed.
Lemma outs_more X x : blank_first X -> plain x = true -> forall s p, outs x (s ++ X) p = map (more X) (outs x s p).
Proof.
  intros HX; induction x as [| |ranges| | |i r IH|a IHa b IHb|a IHa b IHb|g r IH]; intros Hb s p; cbn [outs]; cbn [plain] in Hb.
  - reflexivity.
  - reflexivity.
  - destruct s as [|[ch w] s].
    + destruct HX as (c & w & Y & -> & Hc); apply white_in in Hc; rewrite forallb_forall in Hb; specialize (Hb c Hc).
      cbn [app]; apply negb_true_iff in Hb; rewrite Hb; reflexivity.
    + cbn [app]; destruct (in_set ranges ch); reflexivity.
  - discriminate.
  - discriminate.
  - rewrite IH by exact Hb; rewrite !map_map; apply map_ext; intros [[s1 p1] c1]; reflexivity.
  - apply andb_true_iff in Hb; destruct Hb as [Ha Hb'].
    rewrite (IHa Ha), flat_map_map, map_flat_map; apply flat_map_ext; intros [[s1 p1] c1]; cbn [more].
    apply next_more; intros; apply IHb; exact Hb'.
  - apply andb_true_iff in Hb; destruct Hb as [Ha Hb']; rewrite (IHa Ha), (IHb Hb'), map_app; reflexivity.
  - assert (forall n s p, rounds (outs r) g n (s ++ X) p = map (more X) (rounds (outs r) g n s p)) as H.
    { induction n as [|g0 n IHn]; intros s1 p1; [reflexivity|]; cbn [rounds].
      assert (flat_map (onward p1 (rounds (outs r) g n)) (outs r (s1 ++ X) p1)
              = map (more X) (flat_map (onward p1 (rounds (outs r) g n)) (outs r s1 p1))) as E.
      { rewrite (IH Hb), flat_map_map, map_flat_map; apply flat_map_ext; intros [[s2 p2] c2]; cbn [more onward].
        destruct (p2 <=? p1); [reflexivity|]; apply (next_more X (rounds (outs r) g n)); intros; apply IHn. }
      rewrite E; destruct g; [rewrite map_app; reflexivity|reflexivity]. }
    rewrite H; f_equal; apply rounds_fuel; rewrite ?app_length; lia.
Qed.

(** ** Edges *)
Definition brace1 : list (N * N) := [(0x7B, 0x7B)]%N.
Definition brace2 : list (N * N) := [(0x7D, 0x7D)]%N.
Definition gap : rx := XCat (XSet cls_s) (XStar true (XSet cls_s)).
Definition hole : rx := XCat (XSet brace1) (XSet brace2).
Definition left_edge : rx := XAlt XBegin (XAlt gap hole).
Definition right_edge : rx := XAlt XEnd (XAlt gap hole).
Fixpoint ranges_eqb (a b : list (N * N)) : bool :=
  match a, b with
  | [], [] => true
  | (x, y) :: a', (z, w) :: b' => N.eqb x z && N.eqb y w && ranges_eqb a' b'
  | _, _ => false
  end.
Fixpoint rx_eqb (a b : rx) : bool :=
  match a, b with
  | XFail, XFail | XEps, XEps | XBegin, XBegin | XEnd, XEnd => true
  | XSet r, XSet r' => ranges_eqb r r'
  | XCap i x, XCap j y => (i =? j) && rx_eqb x y
  | XCat x y, XCat x' y' | XAlt x y, XAlt x' y' => rx_eqb x x' && rx_eqb y y'
  | XStar g x, XStar g' y => Bool.eqb g g' && rx_eqb x y
  | _, _ => false
  end.
Lemma ranges_eqb_eq a : forall b, ranges_eqb a b = true -> a = b.
Proof.
  induction a as [|[x y] a IH]; intros [|[z w] b] H; try discriminate; [reflexivity|]; cbn [ranges_eqb] in H.
  apply andb_true_iff in H; destruct H as [H H3]; apply andb_true_iff in H; destruct H as [H1 H2].
  apply N.eqb_eq in H1, H2; rewrite (IH _ H3), H1, H2; reflexivity.
Qed.
Lemma rx_eqb_eq a : forall b, rx_eqb a b = true -> a = b.
Proof.
  induction a as [| |ranges| | |i r IH|x IHa y IHb|x IHa y IHb|g r IH]; intros b H; destruct b; try discriminate; try reflexivity;
    cbn [rx_eqb] in H.
  - apply ranges_eqb_eq in H; congruence.
  - apply andb_true_iff in H; destruct H as [H1 H2]; apply Nat.eqb_eq in H1; apply IH in H2; congruence.
  - apply andb_true_iff in H; destruct H as [H1 H2]; apply IHa in H1; apply IHb in H2; congruence.
  - apply andb_true_iff in H; destruct H as [H1 H2]; apply IHa in H1; apply IHb in H2; congruence.
  - apply andb_true_iff in H; destruct H as [H1 H2]; apply Bool.eqb_prop in H1; apply IH in H2; congruence.
Qed.

(** ** What may follow a match *)
Definition has {A} (l : list A) : bool := match l with [] => false | _ :: _ => true end.
Lemma has_app {A} (a b : list A) : has (a ++ b) = has a || has b.
Proof. destruct a; reflexivity. Qed.
Lemma has_map {A B} (f : A -> B) l : has (map f l) = has l.
Proof. destruct l; reflexivity. Qed.
Lemma has_flat {A B} (f : A -> list B) l : has (flat_map f l) = existsb (fun x => has (f x)) l.
Proof. induction l as [|x l IH]; [reflexivity|]; cbn; rewrite has_app, IH; reflexivity. Qed.
Lemma existsb_map {A B} (f : A -> B) (g : B -> bool) l : existsb g (map f l) = existsb (fun x => g (f x)) l.
Proof. induction l as [|x l IH]; [reflexivity|]; cbn; rewrite IH; reflexivity. Qed.
Lemma existsb_ext {A} (f g : A -> bool) l : (forall x, f x = g x) -> existsb f l = existsb g l.
Proof. intros H; induction l as [|x l IH]; [reflexivity|]; cbn; rewrite H, IH; reflexivity. Qed.

(** What matches nothing but the empty text. *)
Definition idle (x : rx) : bool := match x with XEps | XCap _ XEps => true | _ => false end.
Lemma idle_outs x s p : idle x = true -> exists c, outs x s p = [(s, p, c)].
Proof. destruct x as [| |ranges| | |i [| |?| | |? ?|? ?|? ?|? ?]|a b|a b|g r]; try discriminate; intros _; eexists; reflexivity. Qed.
Fixpoint tail (x : rx) : bool :=
  plain x || rx_eqb x right_edge ||
  match x with
  | XCap _ a => tail a
  | XCat a b => (plain a && tail b) || (tail a && idle b)
  | XAlt a b => tail a && tail b
  | _ => false
  end.
Lemma tail_begin x : tail x = true -> has_begin x = false.
Proof.
  induction x as [| |ranges| | |i r IH|a IHa b IHb|a IHa b IHb|g r IH]; cbn [tail]; intros H;
    repeat (apply orb_true_iff in H; destruct H as [H|H]);
    try discriminate; try (apply plain_begin in H; exact H); try (apply rx_eqb_eq in H; rewrite H; reflexivity); cbn [has_begin]; auto;
    apply andb_true_iff in H; destruct H as [H1 H2]; apply orb_false_iff; split; auto using plain_begin.
  destruct b as [| |?| | |? []|? ?|? ?|? ?]; try discriminate; reflexivity.
Qed.
Lemma has_gap c w s p : has (outs gap ((c, w) :: s) p) = white c.
Proof.
  unfold gap; cbn [outs]; fold (white c); destruct (white c); [|reflexivity].
  cbn [flat_map next outs]; rewrite app_nil_r, has_map; destruct s; cbn [rounds]; [reflexivity|].
  rewrite has_app; apply orb_true_r.
Qed.
Lemma has_tail X x : blank_first X -> tail x = true -> forall s p, has (outs x (s ++ X) p) = has (outs x s p).
Proof.
  intros HX.
  assert (forall x, plain x = true -> forall s p, has (outs x (s ++ X) p) = has (outs x s p)) as Hp.
  { intros y Hy s p; rewrite (outs_more X y HX Hy), has_map; reflexivity. }
  assert (forall s p, has (outs right_edge (s ++ X) p) = has (outs right_edge s p)) as Hr.
  { intros s p; destruct s as [|[c w] s].
    - destruct HX as (c & w & Y & -> & Hc); unfold right_edge; change (outs (XAlt XEnd (XAlt gap hole)) ([] ++ (c, w) :: Y) p)
        with (outs gap ((c, w) :: Y) p ++ outs hole ((c, w) :: Y) p).
      rewrite has_app, has_gap, Hc; reflexivity.
    - unfold right_edge; change (outs (XAlt XEnd (XAlt gap hole)) (((c, w) :: s) ++ X) p)
        with (outs gap ((c, w) :: s ++ X) p ++ outs hole ((c, w) :: s ++ X) p).
      change (outs (XAlt XEnd (XAlt gap hole)) ((c, w) :: s) p) with (outs gap ((c, w) :: s) p ++ outs hole ((c, w) :: s) p).
      rewrite !has_app, !has_gap; f_equal; apply (Hp hole eq_refl ((c, w) :: s)). }
  induction x as [| |ranges| | |i r IH|a IHa b IHb|a IHa b IHb|g r IH]; intros H s p; cbn [tail] in H;
    apply orb_true_iff in H; destruct H as [H|H]; try discriminate;
    try (apply orb_true_iff in H; destruct H as [H|H]; [apply Hp; exact H|apply rx_eqb_eq in H; rewrite H; apply Hr]).
  - cbn [outs]; rewrite !has_map; apply IH; exact H.
  - apply orb_true_iff in H; destruct H as [H|H]; apply andb_true_iff in H; destruct H as [Ha Hb]; cbn [outs].
    + rewrite (outs_more X a HX Ha), !has_flat, existsb_map; apply existsb_ext; intros [[s1 p1] c1]; cbn [more next].
      rewrite !has_map; apply IHb; exact Hb.
    + assert (forall l, has (flat_map (next (outs b)) l) = has l) as He.
      { intros [|[[s1 p1] c1] l]; [reflexivity|]; cbn [flat_map next]; destruct (idle_outs b s1 p1 Hb) as (c & ->); reflexivity. }
      rewrite !He; apply IHa; exact Ha.
  - apply andb_true_iff in H; destruct H as [Ha Hb]; cbn [outs]; rewrite !has_app, (IHa Ha), (IHb Hb); reflexivity.
Qed.

(** ** The parts of a pattern *)
Definition final (n : nat) (a b : rx) : bool :=
  match a, b with XCap i _, XCap j _ => (i =? n - 1) && (j =? n) | _, _ => false end.
(** Where the match ends, before the group [n - 1]. *)
Fixpoint mids (n : nat) (r : rx) (s : text) (p : nat) : list out :=
  match r with
  | XCat a b => if final n a b then (if has (outs r s p) then [(s, p, [])] else []) else flat_map (next (mids n b)) (outs a s p)
  | _ => []
  end.
Definition between (n i : nat) : bool := (3 <=? i) && (i <=? n - 2).
Definition capless (x : rx) : bool := match xcaps x with [] => true | _ => false end.
Definition inside (a : rx) : rx := match a with XCap _ x => x | _ => a end.
Fixpoint middle (n : nat) (r : rx) : bool :=
  match r with
  | XCat a b => if final n a b then tail r && capless (inside a) && capless (inside b)
                else plain a && forallb (between n) (map fst (xcaps a)) && middle n b
  | _ => false
  end.
Lemma mids_more n X r : blank_first X -> middle n r = true -> forall s p, mids n r (s ++ X) p = map (more X) (mids n r s p).
Proof.
  intros HX; induction r as [| |ranges| | |i r IH|a IHa b IHb|a IHa b IHb|g r IH]; try discriminate; intros H s p; cbn [mids]; cbn [middle] in H.
  destruct (final n a b) eqn:E.
  - apply andb_true_iff in H; destruct H as [H _]; apply andb_true_iff in H; destruct H as [H _].
    rewrite (has_tail X _ HX H); destruct (has _); reflexivity.
  - apply andb_true_iff in H; destruct H as [H Hb]; apply andb_true_iff in H; destruct H as [Ha _].
    rewrite (outs_more X a HX Ha), flat_map_map, map_flat_map; apply flat_map_ext; intros [[s1 p1] c1]; cbn [more].
    apply next_more; intros; apply IHb; exact Hb.
Qed.
Lemma mids_moved n d r : middle n r = true -> forall s p, mids n r s (p + d) = map (moved d) (mids n r s p).
Proof.
  induction r as [| |ranges| | |i r IH|a IHa b IHb|a IHa b IHb|g r IH]; try discriminate; intros H s p; cbn [mids]; cbn [middle] in H.
  destruct (final n a b) eqn:E.
  - apply andb_true_iff in H; destruct H as [H _]; apply andb_true_iff in H; destruct H as [H _].
    rewrite (outs_moved d _ (tail_begin _ H)), has_map; destruct (has _); reflexivity.
  - apply andb_true_iff in H; destruct H as [H Hb]; apply andb_true_iff in H; destruct H as [Ha _].
    rewrite (outs_moved d a (plain_begin _ Ha)), flat_map_map, map_flat_map; apply flat_map_ext; intros [[s1 p1] c1]; cbn [moved].
    apply next_moved; intros; apply IHb; exact Hb.
Qed.

(** What Find uses of a match: where it starts, where it stops, and the groups within. *)
Definition view : Type := nat * nat * caps.
Definition view_of (p2 : nat) (o : out) : view := let '(_, p3, c3) := o in (p2, p3, c3).
Definition body_from (n : nat) (r : rx) (o : out) : list view := let '(s2, p2, _) := o in map (view_of p2) (mids n r s2 p2).
Definition body (n : nat) (x r : rx) (s : text) (p : nat) : list view := flat_map (body_from n r) (outs x s p).
Record parts := { edged : bool; behind : rx; onto : rx }.
Definition body_at (n : nat) (q : parts) (o : out) : list view := let '(s1, p1, _) := o in body n (behind q) (onto q) s1 p1.
Definition gives (n : nat) (q : parts) (s : text) (p : nat) : list view :=
  if edged q then flat_map (body_at n q) (outs left_edge s p) else body n (behind q) (onto q) s p.
Fixpoint all (n : nat) (q : parts) (s : text) (p : nat) : list view :=
  gives n q s p ++ match s with [] => [] | (_, w) :: s' => all n q s' (p + w) end.
Definition fit (n : nat) (q : parts) : bool :=
  plain (behind q) && capless (behind q) && middle n (onto q) && negb (has (body n (behind q) (onto q) [] 0)) && (4 <=? n).

Definition is_eps (x : rx) : bool := match x with XEps => true | _ => false end.
Definition parts_of (x : rx) : option parts :=
  match x with
  | XCat (XCap 1 l1) (XCat (XCap 2 l2) r) =>
    if is_eps l1
    then if rx_eqb l2 left_edge then Some {| edged := true; behind := XEps; onto := r |}
         else match l2 with
              | XCat a b => if rx_eqb a left_edge then Some {| edged := true; behind := b; onto := r |}
                            else Some {| edged := false; behind := l2; onto := r |}
              | _ => Some {| edged := false; behind := l2; onto := r |}
              end
    else if rx_eqb l1 left_edge && is_eps l2 then Some {| edged := true; behind := XEps; onto := r |}
    else None
  | _ => None
  end.
Definition wordwise (e : regexp) : bool :=
  match parts_of (prog e) with Some q => fit (numcap e) q | None => false end.

Definition moved_view (d : nat) (v : view) : view := let '(a, b, c) := v in (a + d, b + d, move_caps d c).
Section Fit.
  Context (n : nat) (q : parts) (Hq : fit n q = true).
  Let bd := body n (behind q) (onto q).
  Lemma fit_parts : plain (behind q) = true /\ capless (behind q) = true /\ middle n (onto q) = true /\ bd [] 0 = [] /\ 4 <= n.
  Proof.
    unfold fit in Hq; repeat (apply andb_true_iff in Hq; destruct Hq as [Hq' ?]; clear Hq; rename Hq' into Hq).
    apply Nat.leb_le in H; apply negb_true_iff in H0; unfold bd; destruct (body _ _ _ [] 0); [|discriminate]; auto 6.
  Qed.
  Lemma body_more X s p : blank_first X -> bd (s ++ X) p = bd s p.
  Proof.
    intros HX; destruct fit_parts as (Hp & _ & Hm & _); unfold bd, body.
    rewrite (outs_more X _ HX Hp), flat_map_map; apply flat_map_ext; intros [[s1 p1] c1]; cbn [more body_from].
    rewrite (mids_more n X _ HX Hm), map_map; apply map_ext; intros [[s2 p2] c2]; reflexivity.
  Qed.
  Lemma body_moved d s p : bd s (p + d) = map (moved_view d) (bd s p).
  Proof.
    destruct fit_parts as (Hp & _ & Hm & _); unfold bd, body.
    rewrite (outs_moved d _ (plain_begin _ Hp)), flat_map_map, map_flat_map; apply flat_map_ext; intros [[s1 p1] c1]; cbn [moved body_from].
    rewrite (mids_moved n d _ Hm), !map_map; apply map_ext; intros [[s2 p2] c2]; reflexivity.
  Qed.
  Lemma body_nil p : bd [] p = [].
  Proof. destruct fit_parts as (_ & _ & _ & H & _); rewrite <- (Nat.add_0_l p), body_moved, H; reflexivity. Qed.
  Lemma body_blank c w s p : white c = true -> bd ((c, w) :: s) p = [].
  Proof.
    intros Hc; rewrite <- (body_nil p); apply (body_more ((c, w) :: s) []); exists c, w, s; auto.
  Qed.

  Fixpoint strip (s : text) (p : nat) : text * nat :=
    match s with
    | (c, w) :: s' => if white c then strip s' (p + w) else (s, p)
    | [] => (s, p)
    end.
  Lemma rounds_body m : forall s p, wide s -> length s <= length m ->
    flat_map (body_at n q) (rounds (outs (XSet cls_s)) true m s p) = bd (fst (strip s p)) (snd (strip s p)).
  Proof.
    induction m as [|x m IH]; intros s p Hw Hl.
    - destruct s; [|cbn in Hl; lia]; cbn [rounds flat_map body_at strip fst snd]; apply app_nil_r.
    - cbn [rounds]; rewrite flat_map_app; cbn [flat_map body_at]; rewrite app_nil_r; fold bd.
      destruct s as [|[c w] s]; [reflexivity|]; cbn [strip outs]; fold (white c).
      inversion Hw as [|? ? Hw1 Hw2]; subst; cbn [snd] in Hw1; cbn [length] in Hl.
      destruct (white c) eqn:Ec; [|cbn [flat_map app fst snd]; reflexivity].
      rewrite (body_blank c w s p Ec), app_nil_r; cbn [flat_map onward]; rewrite app_nil_r.
      replace (p + w <=? p) with false by (symmetry; apply Nat.leb_gt; lia).
      rewrite <- IH by (try exact Hw2; lia); rewrite flat_map_map; apply flat_map_ext; intros [[s1 p1] c1]; reflexivity.
  Qed.
  Definition holes (s : text) (p : nat) : list view := flat_map (body_at n q) (outs hole s p).
  Definition gaps (s : text) (p : nat) : list view :=
    match s with
    | (c, w) :: s' => if white c then bd (fst (strip s' (p + w))) (snd (strip s' (p + w))) else []
    | [] => []
    end.
  Lemma edge_gives s p : wide s -> edged q = true ->
    gives n q s p = (if p =? 0 then bd s p else []) ++ gaps s p ++ holes s p.
  Proof.
    intros Hw He; unfold gives; rewrite He; unfold left_edge.
    change (outs (XAlt XBegin (XAlt gap hole)) s p) with (outs XBegin s p ++ outs gap s p ++ outs hole s p).
    rewrite !flat_map_app; f_equal; [|f_equal].
    - destruct p; cbn [outs flat_map body_at Nat.eqb]; [apply app_nil_r|reflexivity].
    - unfold gap; cbn [outs]; destruct s as [|[c w] s]; [reflexivity|]; cbn [gaps]; fold (white c).
      inversion Hw; subst.
      destruct (white c); [|reflexivity]; cbn [flat_map next]; rewrite app_nil_r, <- (rounds_body s s) by auto.
      rewrite flat_map_map; apply flat_map_ext; intros [[s1 p1] c1]; reflexivity.
  Qed.
  Lemma holes_more X s p : blank_first X -> holes (s ++ X) p = holes s p.
  Proof.
    intros HX; unfold holes; rewrite (outs_more X hole HX eq_refl), flat_map_map; apply flat_map_ext; intros [[s1 p1] c1]; cbn [more body_at].
    apply (body_more X); exact HX.
  Qed.
  Lemma holes_moved d s p : holes s (p + d) = map (moved_view d) (holes s p).
  Proof.
    unfold holes; rewrite (outs_moved d hole eq_refl), flat_map_map, map_flat_map; apply flat_map_ext; intros [[s1 p1] c1]; cbn [moved body_at].
    apply (body_moved d).
  Qed.
  Lemma strip_moved d s : forall p, strip s (p + d) = (fst (strip s p), snd (strip s p) + d).
  Proof.
    induction s as [|[c w] s IH]; intros p; cbn [strip]; [reflexivity|]; destruct (white c); [|reflexivity].
    rewrite <- IH; f_equal; lia.
  Qed.
  Lemma gaps_moved d s p : gaps s (p + d) = map (moved_view d) (gaps s p).
  Proof.
    destruct s as [|[c w] s]; [reflexivity|]; cbn [gaps]; destruct (white c); [|reflexivity].
    replace (p + d + w) with (p + w + d) by lia; rewrite strip_moved; cbn [fst snd]; apply body_moved.
  Qed.

  (** Within the first word. *)
  Definition blankless (s : text) : Prop := Forall (fun g => white (fst g) = false) s.
  Lemma gives_more X s p : blank_first X -> blankless s -> s <> [] -> wide (s ++ X) -> gives n q (s ++ X) p = gives n q s p.
  Proof.
    intros HX Hb Hn Hw; destruct (edged q) eqn:E.
    - assert (wide s) as Hw' by (apply Forall_app in Hw; tauto).
      rewrite !edge_gives by assumption; rewrite (holes_more X) by exact HX; rewrite (body_more X) by exact HX.
      f_equal; f_equal; destruct s as [|[c w] s]; [contradiction|]; inversion Hb; subst; cbn [app gaps]; cbn [fst] in *.
      rewrite H1; reflexivity.
    - unfold gives; rewrite E; apply (body_more X); exact HX.
  Qed.
  Fixpoint firsts (s : text) (p : nat) : list view :=
    match s with [] => [] | (c, w) :: s' => gives n q s p ++ firsts s' (p + w) end.
  Lemma gives_nil p : gives n q [] p = [].
  Proof.
    destruct (edged q) eqn:E; [|unfold gives; rewrite E; apply body_nil].
    rewrite edge_gives by (try constructor; assumption); rewrite body_nil; cbn; destruct (p =? 0); reflexivity.
  Qed.
  Lemma all_firsts s : forall p, all n q s p = firsts s p.
  Proof.
    induction s as [|[c w] s IH]; intros p; cbn [all firsts]; [rewrite gives_nil; reflexivity|rewrite IH; reflexivity].
  Qed.
  Lemma all_more X s : forall p, blank_first X -> blankless s -> wide (s ++ X) -> all n q (s ++ X) p = all n q s p ++ all n q X (p + gwidth s).
  Proof.
    induction s as [|[c w] s IH]; intros p HX Hb Hw.
    - cbn [app all]; rewrite gives_nil, gwidth_nil, Nat.add_0_r; reflexivity.
    - cbn [app all]; inversion Hb; inversion Hw; subst.
      rewrite IH by assumption; rewrite <- app_assoc; f_equal; [|f_equal; f_equal; rewrite gwidth_cons; cbn [snd]; lia].
      apply (gives_more X ((c, w) :: s)); try assumption; discriminate.
  Qed.
  (** Beyond the first character the position does not matter. *)
  Lemma gives_moved d s p : wide s -> 0 < p -> gives n q s (p + d) = map (moved_view d) (gives n q s p).
  Proof.
    intros Hw Hp; destruct (edged q) eqn:E; [|unfold gives; rewrite E; apply body_moved].
    rewrite !edge_gives by assumption; rewrite !map_app, gaps_moved, holes_moved; f_equal.
    replace (p + d =? 0) with false by (symmetry; apply Nat.eqb_neq; lia).
    replace (p =? 0) with false by (symmetry; apply Nat.eqb_neq; lia); reflexivity.
  Qed.
  Lemma all_moved d s : forall p, wide s -> 0 < p -> all n q s (p + d) = map (moved_view d) (all n q s p).
  Proof.
    induction s as [|[c w] s IH]; intros p Hw Hp; cbn [all]; rewrite gives_moved, map_app by assumption; f_equal.
    replace (p + d + w) with (p + w + d) by lia; apply IH; [inversion Hw; assumption|lia].
  Qed.
  Lemma hd_map {A B} (f : A -> B) l : hd_error (map f l) = option_map f (hd_error l).
  Proof. destruct l; reflexivity. Qed.
  Lemma hd_double {A} (a b : list A) : hd_error (a ++ a ++ b) = hd_error (a ++ b).
  Proof. destruct a; reflexivity. Qed.
  (** After the space the second word begins. *)
  Definition sp : rune := 0x20%N.
  Lemma all_space w (b : text) p : wide ((sp, w) :: b) ->
    hd_error (all n q ((sp, w) :: b) p) = option_map (moved_view (p + w)) (hd_error (all n q b 0)).
  Proof.
    intros Hw; inversion Hw as [|? ? Hw1 Hw2]; subst; cbn [snd] in Hw1; rewrite <- hd_map; cbn [all].
    destruct (edged q) eqn:E.
    - rewrite edge_gives by assumption; rewrite body_blank by reflexivity.
      assert (holes ((sp, w) :: b) p = []) as -> by reflexivity.
      replace (if p =? 0 then [] else []) with (@nil view) by (destruct (p =? 0); reflexivity).
      cbn [app]; rewrite app_nil_r; cbn [gaps]; change (white sp) with true; cbv iota.
      destruct b as [|[c v] b].
      + cbn [strip fst snd all]; rewrite body_nil, !gives_nil; reflexivity.
      + cbn [strip all]; inversion Hw2 as [|? ? Hv Hb]; subst; cbn [snd] in Hv.
        rewrite !edge_gives by assumption.
        replace (p + w =? 0) with false by (symmetry; apply Nat.eqb_neq; lia); cbn [Nat.eqb app].
        rewrite !map_app; cbn [Nat.add].
        rewrite (Nat.add_comm (p + w) v), (all_moved (p + w) b v Hb Hv), <- gaps_moved, <- holes_moved; cbn [Nat.add].
        destruct (white c) eqn:Ec.
        * rewrite (body_blank c v b 0 Ec); cbn [map app gaps]; rewrite Ec, (Nat.add_comm (p + w) v), <- !app_assoc; apply hd_double.
        * cbn [fst snd gaps]; rewrite Ec; cbn [app]; rewrite <- (body_moved (p + w)); cbn [Nat.add]; rewrite <- app_assoc; reflexivity.
    - assert (gives n q ((sp, w) :: b) p = []) as -> by (unfold gives; rewrite E; apply body_blank; reflexivity).
      cbn [app]; f_equal.
      assert (forall s t, all n q s (t + (p + w)) = map (moved_view (p + w)) (all n q s t)) as H.
      { induction s as [|[c v] s IH]; intros t; cbn [all]; rewrite map_app; unfold gives; rewrite E; fold bd; rewrite body_moved; f_equal.
        replace (t + (p + w) + v) with (t + v + (p + w)) by lia; apply IH. }
      exact (H b 0).
  Qed.
End Fit.
