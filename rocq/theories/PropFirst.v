(** C94: of all ways in which an expression matches, the preferred one is found. *)
From Coq Require Import String Lia List.
From Verif Require Import GoBase Utf8 Utf8Facts Regex RegexSpec RegexFacts RegexParse Hre FindFacts CaptureFacts RuleFacts ReplaceFacts PropFind.
Import ListNotations.
Open Scope nat_scope.

(** ** The ways in which an expression matches, and which of them is preferred

    Where an expression leaves a choice, the choices are numbered by preference: the
    alternatives from left to right; for a greedy repetition another round is 0 and the end
    is 1, for a lazy one the other way round. A way is the list of the choices made. After
    its first round a repetition without a maximum only makes rounds that match something.

    [way f s p cs s' p' c]: the choices [cs] lead [f] through the text [s], of which the first
    character is at the byte [p], up to [s'] at the byte [p'], and the groups take [c], the
    latest first. *)
Definition again (g : bool) : nat := if g then 0 else 1.
Definition enough (g : bool) : nat := if g then 1 else 0.
Inductive form :=
| FOne (r : re)
| FSeq (l : list re)                       (* one after the other *)
| FRounds (g : bool) (r : re)              (* further rounds of a repetition *)
| FUpto (g : bool) (n : nat) (r : re).     (* at most n rounds *)
Inductive way : form -> text -> nat -> list nat -> text -> nat -> caps -> Prop :=
| W_empty s p : way (FOne REmpty) s p [] s p []
| W_lit u s p : way (FOne (RLit (map fst u))) (u ++ s) p [] s (p + gwidth u) []
| W_class ranges ch w s p : in_set ranges ch = true -> way (FOne (RClass ranges)) ((ch, w) :: s) p [] s (p + w) []
| W_any_not_nl ch w s p : ch <> 10%N -> (ch <= 0x10FFFF)%N -> way (FOne RAnyNotNL) ((ch, w) :: s) p [] s (p + w) []
| W_any ch w s p : (ch <= 0x10FFFF)%N -> way (FOne RAny) ((ch, w) :: s) p [] s (p + w) []
| W_begin s : way (FOne RBegin) s 0 [] s 0 []
| W_end p : way (FOne REnd) [] p [] [] p []
| W_cap i r s p cs s' p' c : way (FOne r) s p cs s' p' c -> way (FOne (RCap i r)) s p cs s' p' ((i, (p, p')) :: c)
| W_cat l s p cs s' p' c : way (FSeq l) s p cs s' p' c -> way (FOne (RCat l)) s p cs s' p' c
| W_alt l n r s p cs s' p' c : nth_error l n = Some r -> way (FOne r) s p cs s' p' c -> way (FOne (RAlt l)) s p (n :: cs) s' p' c
| W_quest_no g r s p : way (FOne (RQuest g r)) s p [enough g] s p []
| W_quest g r s p cs s' p' c : way (FOne r) s p cs s' p' c -> way (FOne (RQuest g r)) s p (again g :: cs) s' p' c
| W_star_no g r s p : way (FOne (RStar g r)) s p [enough g] s p []
| W_star g r s p cs s1 p1 c cs' s2 p2 c' :
    way (FOne r) s p cs s1 p1 c -> way (FRounds g r) s1 p1 cs' s2 p2 c' ->
    way (FOne (RStar g r)) s p (again g :: cs ++ cs') s2 p2 (c' ++ c)
| W_plus g r s p cs s1 p1 c cs' s2 p2 c' :
    way (FOne r) s p cs s1 p1 c -> way (FRounds g r) s1 p1 cs' s2 p2 c' ->
    way (FOne (RPlus g r)) s p (cs ++ cs') s2 p2 (c' ++ c)
| W_repeat g mn m r s p cs s1 p1 c cs' s2 p2 c' :
    way (FSeq (repeat r mn)) s p cs s1 p1 c -> way (FUpto g (m - mn) r) s1 p1 cs' s2 p2 c' ->
    way (FOne (RRepeat g mn (Some m) r)) s p (cs ++ cs') s2 p2 (c' ++ c)
| W_repeat_min g mn r s p cs s1 p1 c cs' s2 p2 c' :
    way (FSeq (repeat r (S mn))) s p cs s1 p1 c -> way (FRounds g r) s1 p1 cs' s2 p2 c' ->
    way (FOne (RRepeat g (S mn) None r)) s p (cs ++ cs') s2 p2 (c' ++ c)
| W_repeat_any g r s p cs s' p' c : way (FOne (RStar g r)) s p cs s' p' c -> way (FOne (RRepeat g 0 None r)) s p cs s' p' c
| W_seq_end s p : way (FSeq []) s p [] s p []
| W_seq r l s p cs s1 p1 c cs' s2 p2 c' :
    way (FOne r) s p cs s1 p1 c -> way (FSeq l) s1 p1 cs' s2 p2 c' -> way (FSeq (r :: l)) s p (cs ++ cs') s2 p2 (c' ++ c)
| W_rounds_end g r s p : way (FRounds g r) s p [enough g] s p []
| W_rounds g r s p cs s1 p1 c cs' s2 p2 c' :
    way (FOne r) s p cs s1 p1 c -> p < p1 -> way (FRounds g r) s1 p1 cs' s2 p2 c' ->
    way (FRounds g r) s p (again g :: cs ++ cs') s2 p2 (c' ++ c)
| W_upto_max g r s p : way (FUpto g 0 r) s p [] s p []
| W_upto_end g n r s p : way (FUpto g (S n) r) s p [enough g] s p []
| W_upto g n r s p cs s1 p1 c cs' s2 p2 c' :
    way (FOne r) s p cs s1 p1 c -> way (FUpto g n r) s1 p1 cs' s2 p2 c' ->
    way (FUpto g (S n) r) s p (again g :: cs ++ cs') s2 p2 (c' ++ c).

(** The first choice in which two ways differ decides. *)
Definition before (a b : list nat) : Prop :=
  exists u n m v w, a = u ++ n :: v /\ b = u ++ m :: w /\ n < m.

Lemma before_irrefl a : ~ before a a.
Proof. intros (u & n & m & v & w & E1 & E2 & Hlt); rewrite E1 in E2; apply app_inv_head in E2; injection E2 as -> _; lia. Qed.
Lemma before_app a b x y : before a b -> before (a ++ x) (b ++ y).
Proof.
  intros (u & n & m & v & w & -> & -> & Hlt); exists u, n, m, (v ++ x), (w ++ y); rewrite <- !app_assoc; auto.
Qed.
Lemma before_same u a b : before a b -> before (u ++ a) (u ++ b).
Proof. intros (t & n & m & v & w & -> & -> & Hlt); exists (u ++ t), n, m, v, w; rewrite <- !app_assoc; auto. Qed.
Lemma before_tag n a b : before a b -> before (n :: a) (n :: b).
Proof. apply (before_same [n]). Qed.
Lemma before_first n m a b : n < m -> before (n :: a) (m :: b).
Proof. intros H; exists [], n, m, a, b; auto. Qed.

(** ** All ways in the order of preference *)
Definition outcome : Type := list nat * text * nat * caps.
Definition choices_of (o : outcome) : list nat := fst (fst (fst o)).
Definition ascending (l : list outcome) : Prop := ForallOrdPairs (fun a b => before (choices_of a) (choices_of b)) l.

Fixpoint firstk {A} (k : text -> nat -> caps -> option A) (c : caps) (l : list outcome) : option A :=
  match l with
  | [] => None
  | (_, s, p, c') :: l' => match k s p (c' ++ c) with Some x => Some x | None => firstk k c l' end
  end.
Definition tag (n : nat) (o : outcome) : outcome := let '(cs, s, p, c) := o in (n :: cs, s, p, c).
Definition after (o o' : outcome) : outcome := let '(cs, _, _, c) := o in let '(cs', s, p, c') := o' in (cs ++ cs', s, p, c' ++ c).
Definition then_ways (f : text -> nat -> list outcome) (o : outcome) : list outcome := let '(_, s, p, _) := o in map (after o) (f s p).
Definition wseq (f h : text -> nat -> list outcome) (s : text) (p : nat) : list outcome := flat_map (then_ways h) (f s p).
Definition stay (n : nat) (s : text) (p : nat) : outcome := ([n], s, p, []).
Definition wquest (g : bool) (f : text -> nat -> list outcome) (s : text) (p : nat) : list outcome :=
  if g then map (tag 0) (f s p) ++ [stay 1 s p] else stay 0 s p :: map (tag 1) (f s p).
Definition progress (p : nat) (o : outcome) : bool := negb (snd (fst o) <=? p).
Fixpoint wrounds (g : bool) (f : text -> nat -> list outcome) (n : text) (s : text) (p : nat) : list outcome :=
  match n with
  | [] => [stay (enough g) s p]
  | _ :: n' => wquest g (wseq (fun s p => filter (progress p) (f s p)) (wrounds g f n')) s p
  end.

Lemma firstk_app {A} (k : text -> nat -> caps -> option A) c a b :
  firstk k c (a ++ b) = match firstk k c a with Some x => Some x | None => firstk k c b end.
Proof. induction a as [|[[[cs s] p] c'] a IH]; [reflexivity|]; cbn [app firstk]; destruct (k s p (c' ++ c)); [reflexivity|exact IH]. Qed.
Lemma firstk_tag {A} (k : text -> nat -> caps -> option A) c n l : firstk k c (map (tag n) l) = firstk k c l.
Proof. induction l as [|[[[cs s] p] c'] l IH]; [reflexivity|]; cbn [map tag firstk]; rewrite IH; reflexivity. Qed.
Lemma firstk_after {A} (k : text -> nat -> caps -> option A) c o l :
  firstk k c (map (after o) l) = firstk k (snd o ++ c) l.
Proof.
  destruct o as [[[cs s] p] c1]; induction l as [|[[[cs' s'] p'] c'] l IH]; [reflexivity|]; cbn [map after firstk snd] in *.
  rewrite <- app_assoc, IH; reflexivity.
Qed.
Lemma firstk_ext {A} (k k' : text -> nat -> caps -> option A) c l :
  (forall cs s p c', In (cs, s, p, c') l -> k s p (c' ++ c) = k' s p (c' ++ c)) -> firstk k c l = firstk k' c l.
Proof.
  induction l as [|[[[cs s] p] c'] l IH]; intros H; [reflexivity|]; cbn [firstk].
  rewrite (H cs s p c') by (left; reflexivity); rewrite IH; [reflexivity|]; intros; eapply H; right; eassumption.
Qed.
Lemma firstk_flat {A} (k : text -> nat -> caps -> option A) c l h :
  firstk k c (flat_map (then_ways h) l) = firstk (fun s p c' => firstk k c' (h s p)) c l.
Proof.
  induction l as [|[[[cs s] p] c'] l IH]; [reflexivity|]; cbn [flat_map firstk]; rewrite firstk_app, IH; unfold then_ways at 1; rewrite firstk_after; reflexivity.
Qed.
Lemma firstk_filter {A} (k : text -> nat -> caps -> option A) c l p0 :
  firstk (fun s p c' => if p <=? p0 then None else k s p c') c l = firstk k c (filter (progress p0) l).
Proof.
  induction l as [|[[[cs s] p] c'] l IH]; [reflexivity|]; cbn [filter firstk]; unfold progress at 1; cbn [fst snd].
  destruct (p <=? p0); cbn [negb firstk]; rewrite IH; reflexivity.
Qed.

Lemma ascending_app a b : ascending a -> ascending b ->
  (forall x y, In x a -> In y b -> before (choices_of x) (choices_of y)) -> ascending (a ++ b).
Proof.
  intros Ha Hb H; induction Ha as [|x a Hx Ha IH]; [exact Hb|]; cbn [app]; constructor.
  - apply Forall_app; split; [exact Hx|]; apply Forall_forall; intros y Hy; apply H; [left; reflexivity|exact Hy].
  - apply IH; intros z y Hz Hy; apply H; [right; exact Hz|exact Hy].
Qed.
Lemma ascending_map f l : (forall a b, before (choices_of a) (choices_of b) -> before (choices_of (f a)) (choices_of (f b))) ->
  ascending l -> ascending (map f l).
Proof.
  intros Hf Hl; induction Hl as [|x l Hx Hl IH]; [constructor|]; cbn [map]; constructor; [|exact IH].
  apply Forall_map; eapply Forall_impl; [|exact Hx]; cbv beta; intros a Ha; apply Hf; exact Ha.
Qed.
Lemma ascending_tag n l : ascending l -> ascending (map (tag n) l).
Proof. apply ascending_map; intros [[[? ?] ?] ?] [[[? ?] ?] ?]; apply before_tag. Qed.
Lemma ascending_filter q l : ascending l -> ascending (filter q l).
Proof.
  intros Hl; induction Hl as [|x l Hx Hl IH]; [constructor|]; cbn [filter]; destruct (q x); [|exact IH]; constructor; [|exact IH].
  apply Forall_forall; intros y Hy; apply filter_In in Hy; rewrite Forall_forall in Hx; apply Hx, Hy.
Qed.
Lemma ascending_flat h l : ascending l -> (forall cs s p c, In (cs, s, p, c) l -> ascending (h s p)) -> ascending (flat_map (then_ways h) l).
Proof.
  intros Hl; induction Hl as [|x l Hx Hl IH]; intros Hh; [constructor|]; cbn [flat_map]; apply ascending_app.
  - destruct x as [[[cs s] p] c]; unfold then_ways; apply ascending_map; [|eapply Hh; left; reflexivity].
    intros [[[? ?] ?] ?] [[[? ?] ?] ?]; apply before_same.
  - apply IH; intros; eapply Hh; right; eassumption.
  - intros y z Hy Hz; apply in_flat_map in Hz; destruct Hz as (x' & Hx' & Hz); rewrite Forall_forall in Hx; specialize (Hx x' Hx').
    destruct x as [[[cs s] p] c], x' as [[[cs' s'] p'] c']; unfold then_ways in Hy, Hz; apply in_map_iff in Hy, Hz.
    destruct Hy as ([[[? ?] ?] ?] & <- & _), Hz as ([[[? ?] ?] ?] & <- & _); apply before_app; exact Hx.
Qed.
Lemma ascending_quest g f s p : ascending (f s p) -> ascending (wquest g f s p).
Proof.
  intros H; unfold wquest; destruct g.
  - apply ascending_app; [apply ascending_tag; exact H|repeat constructor|].
    intros x y Hx [<-|[]]; apply in_map_iff in Hx; destruct Hx as ([[[? ?] ?] ?] & <- & _); apply before_first; lia.
  - constructor; [|apply ascending_tag; exact H].
    apply Forall_forall; intros x Hx; apply in_map_iff in Hx; destruct Hx as ([[[? ?] ?] ?] & <- & _); apply before_first; lia.
Qed.

Lemma in_tag n cs s p c l : In (cs, s, p, c) (map (tag n) l) <-> exists cs', cs = n :: cs' /\ In (cs', s, p, c) l.
Proof.
  rewrite in_map_iff; split.
  - intros ([[[cs' s'] p'] c'] & E & Hin); injection E as <- <- <- <-; eauto.
  - intros (cs' & -> & Hin); exists (cs', s, p, c); auto.
Qed.
Lemma in_wseq f h s p cs s2 p2 c : In (cs, s2, p2, c) (wseq f h s p) <->
  exists cs1 s1 p1 c1 cs2 c2, In (cs1, s1, p1, c1) (f s p) /\ In (cs2, s2, p2, c2) (h s1 p1) /\ cs = cs1 ++ cs2 /\ c = c2 ++ c1.
Proof.
  unfold wseq; rewrite in_flat_map; split.
  - intros ([[[cs1 s1] p1] c1] & H1 & H2); unfold then_ways in H2; apply in_map_iff in H2; destruct H2 as ([[[cs2 s2'] p2'] c2] & E & H2).
    injection E as <- <- <- <-; exists cs1, s1, p1, c1, cs2, c2; auto.
  - intros (cs1 & s1 & p1 & c1 & cs2 & c2 & H1 & H2 & -> & ->); exists (cs1, s1, p1, c1); split; [exact H1|].
    unfold then_ways; apply in_map_iff; exists (cs2, s2, p2, c2); auto.
Qed.
Lemma in_wquest g f s p cs s' p' c : In (cs, s', p', c) (wquest g f s p) <->
  (cs = [enough g] /\ s' = s /\ p' = p /\ c = []) \/ exists cs', cs = again g :: cs' /\ In (cs', s', p', c) (f s p).
Proof.
  unfold wquest, stay; destruct g; cbn [again enough]; [rewrite in_app_iff|]; cbn [In]; rewrite in_tag;
    (split; [intros H; decompose [or] H; clear H|intros [(-> & -> & -> & ->)|H]]); auto; try contradiction.
  - match goal with H : _ = _ |- _ => injection H as <- <- <- <- end; auto.
  - match goal with H : _ = _ |- _ => injection H as <- <- <- <- end; auto.
Qed.

(** [enum x W f]: [f] lists the ways [W] in their order, and the matcher tries them in it. *)
Record enum (x : rx) (W : text -> nat -> list nat -> text -> nat -> caps -> Prop) (f : text -> nat -> list outcome) : Prop := {
  e_mt : forall A s p c (k : text -> nat -> caps -> option A), wide s -> mt x s p c k = firstk k c (f s p);
  e_in : forall s p cs s' p' c, wide s -> (In (cs, s', p', c) (f s p) <-> W s p cs s' p' c);
  e_asc : forall s p, wide s -> ascending (f s p);
  e_rest : forall s p cs s' p' c, wide s -> In (cs, s', p', c) (f s p) -> exists u, s = u ++ s' /\ p' = p + gwidth u;
  e_progress : nullable x = false -> forall s p cs s' p' c, wide s -> In (cs, s', p', c) (f s p) -> p < p'
}.
Definition enumerable (x : rx) (W : text -> nat -> list nat -> text -> nat -> caps -> Prop) : Prop := exists f, enum x W f.

Lemma enumerable_ext x (W W' : text -> nat -> list nat -> text -> nat -> caps -> Prop) :
  enumerable x W -> (forall s p cs s' p' c, wide s -> (W s p cs s' p' c <-> W' s p cs s' p' c)) -> enumerable x W'.
Proof.
  intros (f & [H1 H2 H3 H4 H5]) H; exists f; split; try assumption.
  intros; rewrite H2 by assumption; apply H; assumption.
Qed.
Lemma rest_wide x W f s p cs s' p' c : enum x W f -> wide s -> In (cs, s', p', c) (f s p) -> wide s'.
Proof. intros He Hw Hin; destruct (e_rest _ _ _ He _ _ _ _ _ _ Hw Hin) as (u & -> & _); apply wide_app in Hw; apply Hw. Qed.
Lemma rest_le x W f s p cs s' p' c : enum x W f -> wide s -> In (cs, s', p', c) (f s p) -> p <= p'.
Proof. intros He Hw Hin; destruct (e_rest _ _ _ He _ _ _ _ _ _ Hw Hin) as (u & -> & ->); lia. Qed.

Lemma enum_fail : enumerable XFail (fun _ _ _ _ _ _ => False).
Proof. exists (fun _ _ => []); split; [intros; reflexivity|intros; split; intros []|intros; constructor|intros; contradiction|intros; contradiction]. Qed.
Lemma enum_eps : enumerable XEps (fun s p cs s' p' c => cs = [] /\ s' = s /\ p' = p /\ c = []).
Proof.
  exists (fun s p => [([], s, p, [])]); split.
  - intros; cbn; destruct (k s p c); reflexivity.
  - intros; cbn [In]; split; [intros [E|[]]; injection E as <- <- <- <-; auto|intros (-> & -> & -> & ->); auto].
  - intros; repeat constructor.
  - intros s p cs s' p' c _ [E|[]]; injection E as <- <- <- <-; exists []; split; [reflexivity|rewrite gwidth_nil; lia].
  - discriminate.
Qed.
Lemma enum_set ranges : enumerable (XSet ranges)
  (fun s p cs s' p' c => exists ch w, s = (ch, w) :: s' /\ in_set ranges ch = true /\ p' = p + w /\ cs = [] /\ c = []).
Proof.
  exists (fun s p => match s with (ch, w) :: s' => if in_set ranges ch then [([], s', p + w, [])] else [] | [] => [] end); split.
  - intros A [|[ch w] s] p c k Hw; cbn; [reflexivity|]; destruct (in_set ranges ch); [|reflexivity]; cbn; destruct (k s (p + w) c); reflexivity.
  - intros [|[ch w] s] p cs s' p' c Hw.
    + split; [intros []|]; intros (ch & w & E & _); discriminate.
    + destruct (in_set ranges ch) eqn:Ei; cbn [In]; split.
      * intros [E|[]]; injection E as <- <- <- <-; exists ch, w; auto.
      * intros (ch' & w' & E & _ & -> & -> & ->); injection E as <- <- <-; auto.
      * intros [].
      * intros (ch' & w' & E & Hi & _); injection E as <- <- <-; congruence.
  - intros [|[ch w] s] p Hw; [constructor|]; destruct (in_set ranges ch); repeat constructor.
  - intros [|[ch w] s] p cs s' p' c Hw; [intros []|]; destruct (in_set ranges ch); [|intros []]; intros [E|[]]; injection E as <- <- <- <-.
    exists [(ch, w)]; split; [reflexivity|]; rewrite gwidth_cons, gwidth_nil; cbn [snd]; lia.
  - intros _ [|[ch w] s] p cs s' p' c Hw; [intros []|]; destruct (in_set ranges ch); [|intros []]; intros [E|[]]; injection E as <- <- <- <-.
    inversion Hw as [|? ? H1 _]; cbn [snd] in H1; lia.
Qed.
Lemma enum_begin : enumerable XBegin (fun s p cs s' p' c => p = 0 /\ p' = 0 /\ s' = s /\ cs = [] /\ c = []).
Proof.
  exists (fun s p => match p with 0 => [([], s, 0, [])] | S _ => [] end); split.
  - intros A s [|p] c k _; cbn; [destruct (k s 0 c); reflexivity|reflexivity].
  - intros s [|p] cs s' p' c _; cbn [In]; (split; [intros H; decompose [or] H; try contradiction|]).
    + match goal with H : _ = _ |- _ => injection H as <- <- <- <- end; auto.
    + intros (_ & -> & -> & -> & ->); auto.
    + intros (E & _); discriminate.
  - intros s [|p] _; repeat constructor.
  - intros s [|p] cs s' p' c _; [|intros []]; intros [E|[]]; injection E as <- <- <- <-; exists []; split; reflexivity.
  - discriminate.
Qed.
Lemma enum_end : enumerable XEnd (fun s p cs s' p' c => s = [] /\ s' = [] /\ p' = p /\ cs = [] /\ c = []).
Proof.
  exists (fun s p => match s with [] => [([], [], p, [])] | _ :: _ => [] end); split.
  - intros A [|x s] p c k _; cbn; [destruct (k [] p c); reflexivity|reflexivity].
  - intros [|x s] p cs s' p' c _; cbn [In]; (split; [intros H; decompose [or] H; try contradiction|]).
    + match goal with H : _ = _ |- _ => injection H as <- <- <- <- end; auto.
    + intros (_ & -> & -> & -> & ->); auto.
    + intros (E & _); discriminate.
  - intros [|x s] p _; repeat constructor.
  - intros [|x s] p cs s' p' c _; [|intros []]; intros [E|[]]; injection E as <- <- <- <-; exists []; split; [reflexivity|rewrite gwidth_nil; lia].
  - discriminate.
Qed.
Definition marked (i p : nat) (o : outcome) : outcome := let '(cs, s', p', c) := o in (cs, s', p', (i, (p, p')) :: c).
Lemma enum_cap i x W : enumerable x W ->
  enumerable (XCap i x) (fun s p cs s' p' c => exists c0, c = (i, (p, p')) :: c0 /\ W s p cs s' p' c0).
Proof.
  intros (f & He); exists (fun s p => map (marked i p) (f s p)).
  assert (forall s p cs s' p' c, In (cs, s', p', c) (map (marked i p) (f s p)) <-> exists c0, c = (i, (p, p')) :: c0 /\ In (cs, s', p', c0) (f s p)) as Hin.
  { intros; rewrite in_map_iff; split.
    - intros ([[[cs1 s1] p1] c1] & E & H); injection E as <- <- <- <-; eauto.
    - intros (c0 & -> & H); exists (cs, s', p', c0); auto. }
  split.
  - intros A s p c k Hw; cbn [mt]; rewrite (e_mt _ _ _ He) by exact Hw.
    induction (f s p) as [|[[[cs1 s1] p1] c1] l IH]; [reflexivity|]; cbn [map marked firstk app]; rewrite IH; reflexivity.
  - intros s p cs s' p' c Hw; rewrite Hin; split; intros (c0 & -> & H); exists c0; split; auto; apply (e_in _ _ _ He); assumption.
  - intros s p Hw; apply ascending_map; [|apply (e_asc _ _ _ He); exact Hw]; intros [[[? ?] ?] ?] [[[? ?] ?] ?]; auto.
  - intros s p cs s' p' c Hw H; apply Hin in H; destruct H as (c0 & -> & H); eapply (e_rest _ _ _ He); eassumption.
  - cbn [nullable]; intros Hn s p cs s' p' c Hw H; apply Hin in H; destruct H as (c0 & -> & H); eapply (e_progress _ _ _ He); eassumption.
Qed.

Definition followed (W W' : text -> nat -> list nat -> text -> nat -> caps -> Prop) s p cs s2 p2 c : Prop :=
  exists cs1 s1 p1 c1 cs2 c2, W s p cs1 s1 p1 c1 /\ W' s1 p1 cs2 s2 p2 c2 /\ cs = cs1 ++ cs2 /\ c = c2 ++ c1.
Lemma enum_cat_ways x W f y W' h : enum x W f -> enum y W' h -> enum (XCat x y) (followed W W') (wseq f h).
Proof.
  intros Hx Hy; split.
  - intros A s p c k Hw; cbn [mt]; rewrite (e_mt _ _ _ Hx) by exact Hw; unfold wseq; rewrite firstk_flat; apply firstk_ext.
    intros cs s1 p1 c1 H; apply (e_mt _ _ _ Hy); eapply (rest_wide _ _ _ _ _ _ _ _ _ Hx); eassumption.
  - intros s p cs s2 p2 c Hw; rewrite in_wseq; split; intros (cs1 & s1 & p1 & c1 & cs2 & c2 & H1 & H2 & -> & ->); exists cs1, s1, p1, c1, cs2, c2.
    + assert (wide s1) as Hw1 by (eapply (rest_wide _ _ _ _ _ _ _ _ _ Hx); eassumption).
      split; [apply (e_in _ _ _ Hx); assumption|]; split; [apply (e_in _ _ _ Hy); assumption|auto].
    + apply (e_in _ _ _ Hx) in H1; [|exact Hw]; assert (wide s1) as Hw1 by (eapply (rest_wide _ _ _ _ _ _ _ _ _ Hx); eassumption).
      split; [exact H1|]; split; [apply (e_in _ _ _ Hy); assumption|auto].
  - intros s p Hw; apply ascending_flat; [apply (e_asc _ _ _ Hx); exact Hw|]; intros cs s1 p1 c1 H; apply (e_asc _ _ _ Hy); eapply (rest_wide _ _ _ _ _ _ _ _ _ Hx); eassumption.
  - intros s p cs s2 p2 c Hw H; apply in_wseq in H; destruct H as (cs1 & s1 & p1 & c1 & cs2 & c2 & H1 & H2 & -> & ->).
    assert (wide s1) as Hw1 by (eapply (rest_wide _ _ _ _ _ _ _ _ _ Hx); eassumption).
    destruct (e_rest _ _ _ Hx _ _ _ _ _ _ Hw H1) as (u & -> & ->), (e_rest _ _ _ Hy _ _ _ _ _ _ Hw1 H2) as (v & -> & ->).
    exists (u ++ v); split; [apply app_assoc|rewrite gwidth_app; lia].
  - cbn [nullable]; intros Hn s p cs s2 p2 c Hw H; apply in_wseq in H; destruct H as (cs1 & s1 & p1 & c1 & cs2 & c2 & H1 & H2 & -> & ->).
    assert (wide s1) as Hw1 by (eapply (rest_wide _ _ _ _ _ _ _ _ _ Hx); eassumption).
    pose proof (rest_le _ _ _ _ _ _ _ _ _ Hx Hw H1); pose proof (rest_le _ _ _ _ _ _ _ _ _ Hy Hw1 H2).
    apply andb_false_iff in Hn; destruct Hn as [Hn|Hn].
    + pose proof (e_progress _ _ _ Hx Hn _ _ _ _ _ _ Hw H1); lia.
    + pose proof (e_progress _ _ _ Hy Hn _ _ _ _ _ _ Hw1 H2); lia.
Qed.
Lemma enum_cat x W y W' : enumerable x W -> enumerable y W' -> enumerable (XCat x y) (followed W W').
Proof. intros (f & Hx) (h & Hy); exists (wseq f h); apply enum_cat_ways; assumption. Qed.

(** Alternatives numbered from [n]. *)
Definition chosen (n : nat) (W : text -> nat -> list nat -> text -> nat -> caps -> Prop) s p cs s' p' c : Prop :=
  exists cs', cs = n :: cs' /\ W s p cs' s' p' c.
Lemma enum_tag n x W f : enum x W f -> enum x (chosen n W) (fun s p => map (tag n) (f s p)).
Proof.
  intros He; split.
  - intros A s p c k Hw; rewrite firstk_tag; apply (e_mt _ _ _ He); exact Hw.
  - intros s p cs s' p' c Hw; rewrite in_tag; split; intros (cs' & -> & H); exists cs'; split; auto; apply (e_in _ _ _ He); assumption.
  - intros s p Hw; apply ascending_tag, (e_asc _ _ _ He); exact Hw.
  - intros s p cs s' p' c Hw H; apply in_tag in H; destruct H as (cs' & -> & H); eapply (e_rest _ _ _ He); eassumption.
  - intros Hn s p cs s' p' c Hw H; apply in_tag in H; destruct H as (cs' & -> & H); eapply (e_progress _ _ _ He); eassumption.
Qed.
Lemma enum_alt x W y W' : enumerable x W -> enumerable y W' ->
  (forall s p cs s' p' c cs2 s2 p2 c2, W s p cs s' p' c -> W' s p cs2 s2 p2 c2 -> before cs cs2) ->
  enumerable (XAlt x y) (fun s p cs s' p' c => W s p cs s' p' c \/ W' s p cs s' p' c).
Proof.
  intros (f & Hx) (h & Hy) Hb; exists (fun s p => f s p ++ h s p); split.
  - intros A s p c k Hw; cbn [mt]; rewrite (e_mt _ _ _ Hx), (e_mt _ _ _ Hy), firstk_app by exact Hw; reflexivity.
  - intros s p cs s' p' c Hw; rewrite in_app_iff, (e_in _ _ _ Hx), (e_in _ _ _ Hy) by exact Hw; reflexivity.
  - intros s p Hw; apply ascending_app; [apply (e_asc _ _ _ Hx); exact Hw|apply (e_asc _ _ _ Hy); exact Hw|].
    intros [[[cs1 s1] p1] c1] [[[cs2 s2] p2] c2] H1 H2; apply (e_in _ _ _ Hx) in H1; [|exact Hw]; apply (e_in _ _ _ Hy) in H2; [|exact Hw].
    eapply Hb; eassumption.
  - intros s p cs s' p' c Hw H; apply in_app_iff in H; destruct H as [H|H]; [eapply (e_rest _ _ _ Hx)|eapply (e_rest _ _ _ Hy)]; eassumption.
  - cbn [nullable]; intros Hn s p cs s' p' c Hw H; apply orb_false_iff in Hn; destruct Hn as [Hn1 Hn2].
    apply in_app_iff in H; destruct H as [H|H]; [eapply (e_progress _ _ _ Hx)|eapply (e_progress _ _ _ Hy)]; eassumption.
Qed.
Lemma enum_chosen n x W : enumerable x W -> enumerable x (chosen n W).
Proof. intros (f & H); eexists; apply enum_tag; exact H. Qed.

Definition optional (g : bool) (W : text -> nat -> list nat -> text -> nat -> caps -> Prop) s p cs s' p' c : Prop :=
  (cs = [enough g] /\ s' = s /\ p' = p /\ c = []) \/ chosen (again g) W s p cs s' p' c.
Lemma enum_quest g x W : enumerable x W -> enumerable (xquest g x) (optional g W).
Proof.
  intros Hx; unfold xquest; destruct g.
  - eapply enumerable_ext; [apply enum_alt; [apply (enum_chosen 0); exact Hx|apply (enum_chosen 1), enum_eps|]|].
    + intros s p cs s' p' c cs2 s2 p2 c2 (a & -> & _) (b & -> & _); apply before_first; lia.
    + intros s p cs s' p' c _; unfold optional; cbn [enough again]; split.
      * intros [H|(a & -> & -> & H)]; [right; exact H|left; auto].
      * intros [(-> & H)|H]; [right; exists []; auto|left; exact H].
  - eapply enumerable_ext; [apply enum_alt; [apply (enum_chosen 0), enum_eps|apply (enum_chosen 1); exact Hx|]|].
    + intros s p cs s' p' c cs2 s2 p2 c2 (a & -> & _) (b & -> & _); apply before_first; lia.
    + intros s p cs s' p' c _; unfold optional; cbn [enough again]; split.
      * intros [(a & -> & -> & H)|H]; [left; auto|right; exact H].
      * intros [(-> & H)|H]; [left; exists []; auto|right; exact H].
Qed.

(** Rounds that match something. *)
Inductive rounds (g : bool) (W : text -> nat -> list nat -> text -> nat -> caps -> Prop) : text -> nat -> list nat -> text -> nat -> caps -> Prop :=
| R_end s p : rounds g W s p [enough g] s p []
| R_more s p cs s1 p1 c cs' s2 p2 c' : W s p cs s1 p1 c -> p < p1 -> rounds g W s1 p1 cs' s2 p2 c' ->
    rounds g W s p (again g :: cs ++ cs') s2 p2 (c' ++ c).
Lemma rounds_in g x W f : enum x W f -> forall n s p cs s' p' c, wide s -> length s <= length n ->
  (In (cs, s', p', c) (wrounds g f n s p) <-> rounds g W s p cs s' p' c).
Proof.
  intros He; induction n as [|z n IH]; intros s p cs s' p' c Hw Hn; cbn [wrounds].
  - destruct s as [|y s]; [|cbn in Hn; lia]; cbn [In]; split.
    + intros [E|[]]; injection E as <- <- <- <-; constructor.
    + intros H; inversion H as [|s0 p0 cs1 s1 p1 c1 cs2 s2 p2 c2 H1 Hlt _]; subst; [left; reflexivity|exfalso].
      apply (e_in _ _ _ He) in H1; [|exact Hw]; destruct (e_rest _ _ _ He _ _ _ _ _ _ Hw H1) as (u & E & ->).
      destruct u; [rewrite gwidth_nil in Hlt; lia|discriminate].
  - rewrite in_wquest; split.
    + intros [(-> & -> & -> & ->)|(cs' & -> & H)]; [constructor|].
      apply in_wseq in H; destruct H as (cs1 & s1 & p1 & c1 & cs2 & c2 & H1 & H2 & -> & ->); apply filter_In in H1; destruct H1 as [H1 Hp].
      unfold progress in Hp; cbn [fst snd] in Hp; apply negb_true_iff, Nat.leb_gt in Hp.
      assert (wide s1) as Hw1 by (eapply rest_wide; eassumption).
      destruct (e_rest _ _ _ He _ _ _ _ _ _ Hw H1) as (u & Es & Ep).
      econstructor; [apply (e_in _ _ _ He); eassumption|exact Hp|]; apply IH; [exact Hw1| |exact H2].
      subst s; destruct u; [rewrite gwidth_nil in Ep; lia|]; cbn [app length] in Hn; rewrite app_length in Hn; lia.
    + intros H; inversion H as [|s0 p0 cs1 s1 p1 c1 cs2 s2 p2 c2 H1 Hlt H2]; subst; [left; auto|right].
      apply (e_in _ _ _ He) in H1; [|exact Hw].
      assert (wide s1) as Hw1 by (eapply rest_wide; eassumption).
      destruct (e_rest _ _ _ He _ _ _ _ _ _ Hw H1) as (u & Es & Ep).
      eexists; split; [reflexivity|]; apply in_wseq; exists cs1, s1, p1, c1, cs2, c2; split.
      * apply filter_In; split; [exact H1|]; unfold progress; cbn [fst snd]; apply negb_true_iff, Nat.leb_gt; exact Hlt.
      * split; [|auto]; apply IH; [exact Hw1| |exact H2].
        subst s; destruct u; [rewrite gwidth_nil in Ep; lia|]; cbn [app length] in Hn; rewrite app_length in Hn; lia.
Qed.
Lemma rounds_mt {A} g x W f (k : text -> nat -> caps -> option A) : enum x W f -> forall n s p c, wide s ->
  mt_loop g x k n s p c = firstk k c (wrounds g f n s p).
Proof.
  intros He; induction n as [|z n IH]; intros s p c Hw; cbn [mt_loop wrounds].
  - cbn [firstk stay app]; destruct (k s p c); reflexivity.
  - assert (mt x s p c (fun s' p' c' => if p' <=? p then None else mt_loop g x k n s' p' c') =
            firstk k c (wseq (fun s p => filter (progress p) (f s p)) (wrounds g f n) s p)) as E.
    { rewrite (e_mt _ _ _ He) by exact Hw; rewrite firstk_filter; unfold wseq; rewrite firstk_flat; apply firstk_ext.
      intros cs s1 p1 c1 H; apply IH; apply filter_In in H; destruct H as [H _]; eapply rest_wide; eassumption. }
    rewrite E; unfold wquest; destruct g.
    + rewrite firstk_app, firstk_tag; destruct (firstk k c (wseq _ _ s p)); [reflexivity|]; cbn [firstk stay app]; destruct (k s p c); reflexivity.
    + cbn [firstk stay app]; rewrite firstk_tag; reflexivity.
Qed.
Lemma rounds_asc g x W f : enum x W f -> forall n s p, wide s -> ascending (wrounds g f n s p).
Proof.
  intros He; induction n as [|z n IH]; intros s p Hw; cbn [wrounds]; [repeat constructor|].
  apply ascending_quest, ascending_flat; [apply ascending_filter, (e_asc _ _ _ He); exact Hw|].
  intros cs s1 p1 c1 H; apply IH; apply filter_In in H; destruct H as [H _]; eapply rest_wide; eassumption.
Qed.
Lemma enum_rounds g x W : enumerable x W -> enumerable (XStar g x) (rounds g W).
Proof.
  intros (f & He); exists (fun s p => wrounds g f s s p); split.
  - intros A s p c k Hw; rewrite mt_star; eapply rounds_mt; eassumption.
  - intros s p cs s' p' c Hw; eapply rounds_in; [exact He|exact Hw|lia].
  - intros s p Hw; eapply rounds_asc; eassumption.
  - intros s p cs s' p' c Hw H; rewrite (rounds_in g x W f He) in H by (try exact Hw; lia).
    induction H as [s p|s p cs s1 p1 c cs' s2 p2 c' H1 Hlt H2 IH]; [exists []; split; [reflexivity|rewrite gwidth_nil; lia]|].
    apply (e_in _ _ _ He) in H1; [|exact Hw]; assert (wide s1) as Hw1 by (eapply rest_wide; eassumption).
    destruct (e_rest _ _ _ He _ _ _ _ _ _ Hw H1) as (u & -> & ->), (IH Hw1) as (v & -> & ->).
    exists (u ++ v); split; [apply app_assoc|rewrite gwidth_app; lia].
  - discriminate.
Qed.
(** A repetition: its first round may match the empty text. *)
Definition starred (g : bool) (W : text -> nat -> list nat -> text -> nat -> caps -> Prop) := optional g (followed W (rounds g W)).
Lemma enum_star g x W : enumerable x W -> enumerable (xstar g x) (starred g W).
Proof.
  intros Hx; unfold xstar; destruct (nullable x) eqn:En; [apply enum_quest, enum_cat; [exact Hx|apply enum_rounds; exact Hx]|].
  eapply enumerable_ext; [apply enum_rounds; exact Hx|]; intros s p cs s' p' c Hw; unfold starred, optional, chosen, followed; split.
  - intros H; inversion H as [|s0 p0 cs1 s1 p1 c1 cs2 s2 p2 c2 H1 Hlt H2]; subst; [left; auto|right].
    eexists; split; [reflexivity|]; exists cs1, s1, p1, c1, cs2, c2; auto.
  - intros [(-> & -> & -> & ->)|(cs' & -> & cs1 & s1 & p1 & c1 & cs2 & c2 & H1 & H2 & -> & ->)]; [constructor|].
    econstructor; [exact H1| |exact H2]; destruct Hx as (f & He); eapply (e_progress _ _ _ He); [exact En|exact Hw|].
    apply (e_in _ _ _ He); eassumption.
Qed.

(** ** The ways of each form are those of the parts *)
Lemma followed_ext (W1 W2 V1 V2 : text -> nat -> list nat -> text -> nat -> caps -> Prop) s p cs s2 p2 c :
  (forall s p cs s' p' c, W1 s p cs s' p' c -> V1 s p cs s' p' c) -> (forall s p cs s' p' c, W2 s p cs s' p' c -> V2 s p cs s' p' c) ->
  followed W1 W2 s p cs s2 p2 c -> followed V1 V2 s p cs s2 p2 c.
Proof. intros H1 H2 (cs1 & s1 & p1 & c1 & cs2 & c2 & A & B & E); exists cs1, s1, p1, c1, cs2, c2; split; [apply H1; exact A|]; split; [apply H2; exact B|exact E]. Qed.
Lemma followed_assoc (W1 W2 W3 : text -> nat -> list nat -> text -> nat -> caps -> Prop) s p cs s2 p2 c :
  followed W1 (followed W2 W3) s p cs s2 p2 c <-> followed (followed W1 W2) W3 s p cs s2 p2 c.
Proof.
  split.
  - intros (a1 & s1 & p1 & c1 & a2 & c2 & H1 & (a3 & s3 & p3 & c3 & a4 & c4 & H2 & H3 & -> & ->) & -> & ->).
    exists (a1 ++ a3), s3, p3, (c3 ++ c1), a4, c4; split; [|rewrite <- !app_assoc; auto].
    exists a1, s1, p1, c1, a3, c3; auto.
  - intros (a1 & s1 & p1 & c1 & a2 & c2 & (a3 & s3 & p3 & c3 & a4 & c4 & H2 & H3 & -> & ->) & H1 & -> & ->).
    exists a3, s3, p3, c3, (a4 ++ a2), (c2 ++ c4); split; [exact H2|]; split; [|rewrite <- !app_assoc; auto].
    exists a4, s1, p1, c4, a2, c2; auto.
Qed.
Definition whole (r : re) := way (FOne r).
Lemma way_seq_nil s p cs s' p' c : way (FSeq []) s p cs s' p' c <-> cs = [] /\ s' = s /\ p' = p /\ c = [].
Proof. split; [intros H; inversion H; auto|intros (-> & -> & -> & ->); constructor]. Qed.
Lemma way_seq_cons r l s p cs s' p' c : way (FSeq (r :: l)) s p cs s' p' c <-> followed (whole r) (way (FSeq l)) s p cs s' p' c.
Proof.
  split.
  - intros H; inversion H; subst; do 6 eexists; split; [eassumption|]; split; [eassumption|auto].
  - intros (cs1 & s1 & p1 & c1 & cs2 & c2 & H1 & H2 & -> & ->); econstructor; eassumption.
Qed.
Lemma way_seq_one r s p cs s' p' c : way (FSeq [r]) s p cs s' p' c <-> whole r s p cs s' p' c.
Proof.
  rewrite way_seq_cons; split.
  - intros (cs1 & s1 & p1 & c1 & cs2 & c2 & H1 & H2 & -> & ->); apply way_seq_nil in H2; destruct H2 as (-> & -> & -> & ->).
    rewrite app_nil_r; exact H1.
  - intros H; exists cs, s', p', c, [], []; split; [exact H|]; split; [constructor|]; rewrite app_nil_r; auto.
Qed.
Lemma way_seq_app l l' s p cs s' p' c : way (FSeq (l ++ l')) s p cs s' p' c <-> followed (way (FSeq l)) (way (FSeq l')) s p cs s' p' c.
Proof.
  revert s p cs s' p' c; induction l as [|r l IH]; intros s p cs s' p' c; cbn [app].
  - split.
    + intros H; exists [], s, p, [], cs, c; split; [constructor|]; split; [exact H|]; rewrite app_nil_r; auto.
    + intros (cs1 & s1 & p1 & c1 & cs2 & c2 & H1 & H2 & -> & ->); apply way_seq_nil in H1; destruct H1 as (-> & -> & -> & ->).
      rewrite app_nil_r; exact H2.
  - rewrite way_seq_cons; split.
    + intros H; apply (followed_ext (followed (whole r) (way (FSeq l))) (way (FSeq l'))).
      * intros; apply way_seq_cons; assumption.
      * intros; assumption.
      * apply followed_assoc; revert H; apply followed_ext; [intros; assumption|intros; apply IH; assumption].
    + intros H; assert (followed (followed (whole r) (way (FSeq l))) (way (FSeq l')) s p cs s' p' c) as H'.
      { revert H; apply followed_ext; [intros; apply way_seq_cons; assumption|intros; assumption]. }
      apply followed_assoc in H'; revert H'; apply followed_ext; [intros; assumption|intros; apply IH; assumption].
Qed.
Lemma way_rounds g r s p cs s' p' c : way (FRounds g r) s p cs s' p' c <-> rounds g (whole r) s p cs s' p' c.
Proof.
  split.
  - intros H; remember (FRounds g r) as f eqn:Ef; revert Ef; induction H; intros Ef; try discriminate; injection Ef as -> ->.
    + constructor.
    + econstructor; [eassumption|assumption|]; apply IHway2; reflexivity.
  - induction 1; [constructor|econstructor; eassumption].
Qed.
Lemma way_upto_zero g r s p cs s' p' c : way (FUpto g 0 r) s p cs s' p' c <-> cs = [] /\ s' = s /\ p' = p /\ c = [].
Proof. split; [intros H; inversion H; auto|intros (-> & -> & -> & ->); constructor]. Qed.
Lemma way_upto_succ g n r s p cs s' p' c :
  way (FUpto g (S n) r) s p cs s' p' c <-> optional g (followed (whole r) (way (FUpto g n r))) s p cs s' p' c.
Proof.
  split.
  - intros H; inversion H; subst; [left; auto|right]; eexists; split; [reflexivity|]; do 6 eexists; split; [eassumption|]; split; [eassumption|auto].
  - intros [(-> & -> & -> & ->)|(cs' & -> & cs1 & s1 & p1 & c1 & cs2 & c2 & H1 & H2 & -> & ->)]; [constructor|econstructor; eassumption].
Qed.

Lemma enum_seq l : Forall (fun r => enumerable (simplify r) (whole r)) l -> enumerable (simplify (RCat l)) (way (FSeq l)).
Proof.
  intros H; induction H as [|r l Hr Hl IH].
  - eapply enumerable_ext; [apply enum_eps|]; intros; symmetry; apply way_seq_nil.
  - destruct l as [|r' l].
    + eapply enumerable_ext; [exact Hr|]; intros; symmetry; apply way_seq_one.
    + eapply enumerable_ext; [exact (enum_cat _ _ _ _ Hr IH)|]; intros; symmetry; apply way_seq_cons.
Qed.
Definition alt_from (n : nat) (l : list re) s p cs s' p' c : Prop :=
  exists i r cs', nth_error l i = Some r /\ cs = n + i :: cs' /\ whole r s p cs' s' p' c.
Lemma enum_alts l : Forall (fun r => enumerable (simplify r) (whole r)) l -> forall n, enumerable (simplify (RAlt l)) (alt_from n l).
Proof.
  intros H; induction H as [|r l Hr Hl IH]; intros n.
  - eapply enumerable_ext; [apply enum_fail|]; intros; split; [intros []|intros (i & r & cs' & E & _); destruct i; discriminate].
  - destruct l as [|r' l].
    + eapply enumerable_ext; [exact (enum_chosen n _ _ Hr)|]; intros s p cs s' p' c _; split.
      * intros (cs' & -> & H); exists 0, r, cs'; rewrite Nat.add_0_r; auto.
      * intros (i & r0 & cs' & E & -> & H); destruct i as [|[|i]]; try discriminate; injection E as <-; exists cs'; rewrite Nat.add_0_r; auto.
    + eapply enumerable_ext; [apply (enum_alt _ _ _ _ (enum_chosen n _ _ Hr) (IH (S n)))|].
      * intros s p cs s' p' c cs2 s2 p2 c2 (a & -> & _) (i & r0 & b & _ & -> & _); apply before_first; lia.
      * intros s p cs s' p' c _; split.
        -- intros [(cs' & -> & H)|(i & r0 & cs' & E & -> & H)]; [exists 0, r, cs'; rewrite Nat.add_0_r; auto|].
           exists (S i), r0, cs'; split; [exact E|]; split; [f_equal; lia|exact H].
        -- intros (i & r0 & cs' & E & -> & H); destruct i as [|i]; [left; injection E as <-; exists cs'; rewrite Nat.add_0_r; auto|right].
           exists i, r0, cs'; split; [exact E|]; split; [f_equal; lia|exact H].
Qed.
Lemma enum_pow x r y W : enumerable x (whole r) -> enumerable y W -> forall n, enumerable (xpow n x y) (followed (way (FSeq (repeat r n))) W).
Proof.
  intros Hx Hy; induction n as [|n IH]; cbn [xpow repeat].
  - eapply enumerable_ext; [exact Hy|]; intros s p cs s' p' c _; split.
    + intros H; exists [], s, p, [], cs, c; split; [constructor|]; split; [exact H|]; rewrite app_nil_r; auto.
    + intros (cs1 & s1 & p1 & c1 & cs2 & c2 & H1 & H2 & -> & ->); apply way_seq_nil in H1; destruct H1 as (-> & -> & -> & ->).
      rewrite app_nil_r; exact H2.
  - eapply enumerable_ext; [exact (enum_cat _ _ _ _ Hx IH)|]; intros s p cs s' p' c _; rewrite followed_assoc; split;
      apply followed_ext; intros; try assumption; apply way_seq_cons; assumption.
Qed.
Lemma enum_upto g x r : enumerable x (whole r) -> forall n, enumerable (xupto g n x) (way (FUpto g n r)).
Proof.
  intros Hx; induction n as [|n IH]; cbn [xupto].
  - eapply enumerable_ext; [apply enum_eps|]; intros; symmetry; apply way_upto_zero.
  - destruct n as [|n].
    + eapply enumerable_ext; [apply enum_quest; exact Hx|]; intros s p cs s' p' c _; rewrite way_upto_succ; unfold optional, chosen.
      split; (intros [H|(cs' & -> & H)]; [left; exact H|right; exists cs'; split; [reflexivity|]]).
      * exists cs', s', p', c, [], []; split; [exact H|]; split; [constructor|]; rewrite app_nil_r; auto.
      * destruct H as (cs1 & s1 & p1 & c1 & cs2 & c2 & H1 & H2 & -> & ->); apply way_upto_zero in H2; destruct H2 as (-> & -> & -> & ->).
        rewrite app_nil_r; exact H1.
    + eapply enumerable_ext; [apply enum_quest; exact (enum_cat _ _ _ _ Hx IH)|]; intros; symmetry; apply way_upto_succ.
Qed.
Lemma enum_plus g x r : enumerable x (whole r) -> enumerable (xplus g x) (followed (whole r) (way (FRounds g r))).
Proof.
  intros Hx; eapply enumerable_ext; [exact (enum_cat _ _ _ _ Hx (enum_rounds g _ _ Hx))|]; intros; split; apply followed_ext; intros; try assumption;
    apply way_rounds; assumption.
Qed.
Lemma way_star g r s p cs s' p' c : way (FOne (RStar g r)) s p cs s' p' c <-> starred g (whole r) s p cs s' p' c.
Proof.
  split.
  - intros H; inversion H; subst; [left; auto|right]; eexists; split; [reflexivity|]; do 6 eexists.
    split; [eassumption|]; split; [apply way_rounds; eassumption|auto].
  - intros [(-> & -> & -> & ->)|(cs' & -> & cs1 & s1 & p1 & c1 & cs2 & c2 & H1 & H2 & -> & ->)]; [constructor|].
    econstructor; [eassumption|apply way_rounds; eassumption].
Qed.

Lemma enum_lit rs : enumerable (simplify (RLit rs)) (way (FOne (RLit rs))).
Proof.
  assert (enumerable (simplify (RLit rs)) (fun s p cs s' p' c => exists u, rs = map fst u /\ s = u ++ s' /\ p' = p + gwidth u /\ cs = [] /\ c = [])) as H.
  { induction rs as [|ch rs IH].
    - eapply enumerable_ext; [apply enum_eps|]; intros s p cs s' p' c _; split.
      + intros (-> & -> & -> & ->); exists []; rewrite gwidth_nil; auto.
      + intros (u & E & -> & -> & -> & ->); destruct u; [|discriminate]; rewrite gwidth_nil; cbn [app]; repeat split; lia.
    - assert (enumerable (XCat (XSet [(ch, ch)]) (simplify (RLit rs)))
        (fun s p cs s' p' c => exists u, ch :: rs = map fst u /\ s = u ++ s' /\ p' = p + gwidth u /\ cs = [] /\ c = [])) as Hc.
      { eapply enumerable_ext; [exact (enum_cat _ _ _ _ (enum_set _) IH)|]; intros s p cs s' p' c _; split.
        - intros (cs1 & s1 & p1 & c1 & cs2 & c2 & (x & w & -> & Hx & -> & -> & ->) & (u & E & -> & -> & -> & ->) & -> & ->).
          exists ((x, w) :: u); rewrite gwidth_cons; cbn [map fst snd app]; cbn in Hx.
          assert (x = ch) as -> by lia; repeat split; [f_equal; exact E|lia].
        - intros ([|[x w] u] & E & -> & -> & -> & ->); [discriminate|]; injection E as <- E; rewrite gwidth_cons; cbn [snd app].
          exists [], (u ++ s'), (p + w), [], [], []; split; [|split; [|auto]].
          + exists ch, w; repeat split; cbn; lia.
          + exists u; repeat split; [exact E|lia]. }
      destruct rs as [|ch' rs]; [|exact Hc].
      eapply enumerable_ext; [exact (enum_set [(ch, ch)])|]; intros s p cs s' p' c _; split.
      + intros (x & w & -> & Hx & -> & -> & ->); cbn in Hx; assert (x = ch) as -> by lia; exists [(ch, w)]; rewrite gwidth_cons, gwidth_nil.
        cbn [map fst snd app]; repeat split; lia.
      + intros ([|[x w] [|y u]] & E & -> & -> & -> & ->); try discriminate; injection E as <-; exists ch, w; rewrite gwidth_cons, gwidth_nil.
        cbn [snd app]; repeat split; [cbn|]; lia. }
  eapply enumerable_ext; [exact H|]; intros s p cs s' p' c _; split.
  - intros (u & -> & -> & -> & -> & ->); constructor.
  - intros Hw; inversion Hw; subst; eauto 7.
Qed.

Lemma enum_simplify r : enumerable (simplify r) (whole r).
Proof.
  induction r as [| |rs|ranges| | | | |i r IH|g r IH|g r IH|g r IH|g mn mx r IH|l IH|l IH] using re_ind'.
  - eapply enumerable_ext; [apply enum_fail|]; intros s p cs s' p' c _; split; [contradiction|intros H; inversion H].
  - eapply enumerable_ext; [apply enum_eps|]; intros s p cs s' p' c _; split; [intros (-> & -> & -> & ->); constructor|intros H; inversion H; auto].
  - apply enum_lit.
  - eapply enumerable_ext; [apply enum_set|]; intros s p cs s' p' c _; split.
    + intros (ch & w & -> & H & -> & -> & ->); constructor; exact H.
    + intros H; inversion H; subst; eauto 8.
  - eapply enumerable_ext; [apply enum_set|]; intros s p cs s' p' c _; split.
    + intros (ch & w & -> & H & -> & -> & ->); cbn in H; constructor; lia.
    + intros H; inversion H; subst; do 2 eexists; split; [reflexivity|]; split; [cbn; lia|auto].
  - eapply enumerable_ext; [apply enum_set|]; intros s p cs s' p' c _; split.
    + intros (ch & w & -> & H & -> & -> & ->); cbn in H; constructor; lia.
    + intros H; inversion H; subst; do 2 eexists; split; [reflexivity|]; split; [cbn; lia|auto].
  - eapply enumerable_ext; [apply enum_begin|]; intros s p cs s' p' c _; split; [intros (-> & -> & -> & -> & ->); constructor|intros H; inversion H; auto].
  - eapply enumerable_ext; [apply enum_end|]; intros s p cs s' p' c _; split; [intros (-> & -> & -> & -> & ->); constructor|intros H; inversion H; auto].
  - eapply enumerable_ext; [apply enum_cap; exact IH|]; intros s p cs s' p' c _; split; [intros (c0 & -> & H); constructor; exact H|intros H; inversion H; subst; eauto].
  - eapply enumerable_ext; [apply enum_star; exact IH|]; intros; symmetry; apply way_star.
  - eapply enumerable_ext; [apply enum_plus; exact IH|]; intros s p cs s' p' c _; split.
    + intros (cs1 & s1 & p1 & c1 & cs2 & c2 & H1 & H2 & -> & ->); econstructor; eassumption.
    + intros H; inversion H; subst; do 6 eexists; split; [eassumption|]; split; [eassumption|auto].
  - eapply enumerable_ext; [apply enum_quest; exact IH|]; intros s p cs s' p' c _; split.
    + intros [(-> & -> & -> & ->)|(cs' & -> & H)]; constructor; exact H.
    + intros H; inversion H; subst; [left; auto|right; eexists; split; [reflexivity|assumption]].
  - cbn [simplify]; destruct mx as [m|]; [|destruct mn as [|mn]].
    + eapply enumerable_ext; [exact (enum_pow _ _ _ _ IH (enum_upto g _ _ IH (m - mn)) mn)|]; intros s p cs s' p' c _; split.
      * intros (cs1 & s1 & p1 & c1 & cs2 & c2 & H1 & H2 & -> & ->); econstructor; eassumption.
      * intros H; inversion H; subst; do 6 eexists; split; [eassumption|]; split; [eassumption|auto].
    + eapply enumerable_ext; [apply enum_star; exact IH|]; intros s p cs s' p' c _; rewrite <- way_star; split; [apply W_repeat_any|].
      intros H; inversion H; subst; assumption.
    + eapply enumerable_ext; [exact (enum_pow _ _ _ _ IH (enum_plus g _ _ IH) mn)|]; intros s p cs s' p' c _; rewrite followed_assoc.
      assert (repeat r (S mn) = repeat r mn ++ [r]) as E.
      { clear; induction mn as [|mn IH]; [reflexivity|]; cbn [repeat app] in *; f_equal; exact IH. }
      split.
      * intros H; assert (followed (way (FSeq (repeat r (S mn)))) (way (FRounds g r)) s p cs s' p' c) as H'.
        { revert H; apply followed_ext; [|intros; assumption]; intros * H; rewrite E; apply way_seq_app; revert H; apply followed_ext; [intros; assumption|].
          intros; apply way_seq_one; assumption. }
        destruct H' as (cs1 & s1 & p1 & c1 & cs2 & c2 & H1 & H2 & -> & ->); econstructor; eassumption.
      * intros H; inversion H as [| | | | | | | | | | | | | | | |g0 mn0 r0 s0 p0 cs1 s1 p1 c1 cs2 s2 p2 c2 H1 H2| | | | | | | |]; subst; clear H.
        exists cs1, s1, p1, c1, cs2, c2; split; [|auto].
        rewrite E in H1; apply way_seq_app in H1; revert H1; apply followed_ext; [intros; assumption|]; intros; apply way_seq_one; assumption.
  - eapply enumerable_ext; [apply enum_seq; exact IH|]; intros s p cs s' p' c _; split; [apply W_cat|intros H; inversion H; assumption].
  - eapply enumerable_ext; [exact (enum_alts l IH 0)|]; intros s p cs s' p' c _; split.
    + intros (i & r & cs' & E & -> & H); econstructor; eassumption.
    + intros H; inversion H; subst; do 3 eexists; split; [eassumption|]; split; [reflexivity|assumption].
Qed.

(** ** C94 *)

(** The way [cs] is the preferred one in [s]: it begins after [u], no way begins earlier, and
    every other way that begins there comes after it. *)
Record preferred (r : re) (s u v : text) (cs : list nat) (s' : text) (p' : nat) (c : caps) : Prop := {
  pr_text : s = u ++ v;
  pr_way : way (FOne r) v (gwidth u) cs s' p' c;
  pr_leftmost : forall u1 v1 cs1 s1 p1 c1, s = u1 ++ v1 -> length u1 < length u -> ~ way (FOne r) v1 (gwidth u1) cs1 s1 p1 c1;
  pr_first : forall cs2 s2 p2 c2, way (FOne r) v (gwidth u) cs2 s2 p2 c2 -> (cs2, s2, p2, c2) = (cs, s', p', c) \/ before cs cs2
}.

Lemma first_of r s p : wide s ->
  match mt (simplify r) s p [] (fun _ p' c => Some (p', c)) with
  | None => forall cs s' p' c, ~ whole r s p cs s' p' c
  | Some (p', c) => exists cs s', whole r s p cs s' p' c /\
      forall cs2 s2 p2 c2, whole r s p cs2 s2 p2 c2 -> (cs2, s2, p2, c2) = (cs, s', p', c) \/ before cs cs2
  end.
Proof.
  intros Hw; destruct (enum_simplify r) as (f & He); rewrite (e_mt _ _ _ He) by exact Hw.
  pose proof (e_asc _ _ _ He s p Hw) as Ha; pose proof (e_in _ _ _ He s p) as Hi.
  destruct (f s p) as [|[[[cs s'] p'] c] l]; cbn [firstk].
  - intros cs s' p' c H; apply Hi in H; [destruct H|exact Hw].
  - rewrite app_nil_r; exists cs, s'; split; [apply Hi; [exact Hw|left; reflexivity]|].
    intros cs2 s2 p2 c2 H; apply Hi in H; [|exact Hw]; destruct H as [E|H]; [left; symmetry; exact E|right].
    inversion Ha as [|x l' Hx _]; subst; rewrite Forall_forall in Hx; exact (Hx _ H).
Qed.
Lemma search_first r : forall s p, wide s ->
  match search (simplify r) s p with
  | None => forall u v cs s' p' c, s = u ++ v -> ~ whole r v (p + gwidth u) cs s' p' c
  | Some (a, b, c) => exists u v cs s', s = u ++ v /\ a = p + gwidth u /\ whole r v a cs s' b c /\
      (forall u1 v1 cs1 s1 p1 c1, s = u1 ++ v1 -> length u1 < length u -> ~ whole r v1 (p + gwidth u1) cs1 s1 p1 c1) /\
      (forall cs2 s2 p2 c2, whole r v a cs2 s2 p2 c2 -> (cs2, s2, p2, c2) = (cs, s', b, c) \/ before cs cs2)
  end.
Proof.
  induction s as [|[ch w] s IH]; intros p Hw; cbn [search]; pose proof (first_of r _ p Hw) as H.
  - destruct (mt (simplify r) [] p [] _) as [[p' c]|].
    + destruct H as (cs & s' & H1 & H2); exists [], [], cs, s'; rewrite gwidth_nil, Nat.add_0_r; repeat split; try assumption.
      intros u1 v1 cs1 s1 p1 c1 _ Hl; cbn [length] in Hl; lia.
    + intros u v cs s' p' c E; destruct u; [|discriminate]; cbn [app] in E; subst v; rewrite gwidth_nil, Nat.add_0_r; apply H.
  - destruct (mt (simplify r) ((ch, w) :: s) p [] _) as [[p' c]|].
    + destruct H as (cs & s' & H1 & H2); exists [], ((ch, w) :: s), cs, s'; rewrite gwidth_nil, Nat.add_0_r; repeat split; try assumption.
      intros u1 v1 cs1 s1 p1 c1 _ Hl; cbn [length] in Hl; lia.
    + inversion Hw as [|? ? _ Hw']; subst; specialize (IH (p + w) Hw').
      destruct (search (simplify r) s (p + w)) as [[[a b] c]|].
      * destruct IH as (u & v & cs & s' & -> & -> & H1 & H2 & H3); exists ((ch, w) :: u), v, cs, s'; rewrite gwidth_cons; cbn [snd].
        replace (p + (w + gwidth u)) with (p + w + gwidth u) by lia; repeat split; try assumption.
        intros [|x u1] v1 cs1 s1 p1 c1 E Hl; cbn [app] in E.
        -- subst v1; rewrite gwidth_nil, Nat.add_0_r; apply H.
        -- injection E as <- E; rewrite gwidth_cons; cbn [snd length] in *.
           replace (p + (w + gwidth u1)) with (p + w + gwidth u1) by lia; apply H2; [exact E|lia].
      * intros [|x u] v cs s' p' c E; cbn [app] in E.
        -- subst v; rewrite gwidth_nil, Nat.add_0_r; apply H.
        -- injection E as <- E; rewrite gwidth_cons; cbn [snd].
           replace (p + (w + gwidth u)) with (p + w + gwidth u) by lia; apply IH; exact E.
Qed.

(** A search gives the preferred way in the text, its ends and its groups, and nothing only if
    there is no way anywhere. *)
Theorem C94_first : forall e b, prog e = simplify (tree e) ->
  (find_submatch_index e b = [] /\
   forall u v cs s' p' c, glyphs b = u ++ v -> ~ way (FOne (tree e)) v (gwidth u) cs s' p' c) \/
  exists u v cs s' p' c, preferred (tree e) (glyphs b) u v cs s' p' c /\
    find_submatch_index e b = Z.of_nat (gwidth u) :: Z.of_nat p' :: cap_array c 1 (numcap e).
Proof.
  intros e b Ep; unfold find_submatch_index; rewrite Ep.
  pose proof (search_first (tree e) (glyphs b) 0 (glyphs_wide b)) as H.
  destruct (search (simplify (tree e)) (glyphs b) 0) as [[[x y] c]|].
  - right; destruct H as (u & v & cs & s' & Es & -> & H1 & H2 & H3); exists u, v, cs, s', y, c; split; [|reflexivity]; split; assumption.
  - left; split; [reflexivity|exact H].
Qed.
Print Assumptions C94_first.

(** There is only one. *)
Lemma before_asym a b : before a b -> ~ before b a.
Proof.
  revert b; induction a as [|x a IH]; intros b (u & n & m & v & w & E1 & E2 & Hlt); [destruct u; discriminate|].
  intros (u' & n' & m' & v' & w' & E3 & E4 & Hlt').
  destruct u as [|y u], u' as [|y' u']; cbn [app] in E1, E2, E3, E4; subst b; injection E1 as E5 E6; injection E3 as E7 E8; injection E4 as E9 E10; try lia.
  apply (IH (u ++ m :: w)); [exists u, n, m, v, w; auto|exists u', n', m', v', w'; auto].
Qed.
Theorem C94_one : forall r s u v cs s' p' c u2 v2 cs2 s2 p2 c2,
  preferred r s u v cs s' p' c -> preferred r s u2 v2 cs2 s2 p2 c2 -> (u, v, cs, s', p', c) = (u2, v2, cs2, s2, p2, c2).
Proof.
  intros r s u v cs s' p' c u2 v2 cs2 s2 p2 c2 [A1 A2 A3 A4] [B1 B2 B3 B4].
  assert (length u = length u2) as El.
  { destruct (Nat.lt_trichotomy (length u) (length u2)) as [H|[H|H]]; [|exact H|].
    - destruct (B3 _ _ _ _ _ _ A1 H A2).
    - destruct (A3 _ _ _ _ _ _ B1 H B2). }
  assert (u = u2 /\ v = v2) as [<- <-].
  { rewrite A1 in B1; clear - El B1; revert u2 El B1; induction u as [|x u IH]; intros [|y u2] El E; try discriminate; [auto|].
    cbn [length app] in El, E; injection El as El; injection E as -> E; destruct (IH u2 El E) as [-> ->]; auto. }
  destruct (A4 _ _ _ _ B2) as [E|H]; [injection E as <- <- <- <-; reflexivity|].
  destruct (B4 _ _ _ _ A2) as [E|H']; [injection E as <- <- <- <-; reflexivity|].
  destruct (before_asym _ _ H H').
Qed.
Print Assumptions C94_one.

(** The ways lead to the same pieces of the text as the expression describes. *)
Lemma firstk_some {A} (k : text -> nat -> caps -> option A) c l :
  firstk k c l <> None <-> exists cs s p c', In (cs, s, p, c') l /\ k s p (c' ++ c) <> None.
Proof.
  induction l as [|[[[cs s] p] c'] l IH]; cbn [firstk]; [split; [congruence|intros (? & ? & ? & ? & [] & _)]|].
  destruct (k s p (c' ++ c)) eqn:Ek; split.
  - intros _; exists cs, s, p, c'; split; [left; reflexivity|congruence].
  - congruence.
  - intros H; apply IH in H; destruct H as (a & b & d & e & Hin & H); exists a, b, d, e; split; [right; exact Hin|exact H].
  - intros (a & b & d & e & [E|Hin] & H); [injection E as <- <- <- <-; contradiction|]; apply IH; eauto 6.
Qed.
Definition up_to (n : nat) (s : text) (p : nat) (c : caps) : option unit := if length s =? n then Some tt else None.
Theorem C94_ways : forall r u v s', wide (u ++ v ++ s') ->
  (rmatch r (map fst u) (map fst v) (map fst s') <-> exists cs c, way (FOne r) (v ++ s') (gwidth u) cs s' (gwidth u + gwidth v) c).
Proof.
  intros r u v s' Hw; apply wide_app in Hw; destruct Hw as [Hu Hw].
  assert (at_start (runes_of u) (gwidth u)) as Hat by (apply (at_start_app [] 0 u); [split; reflexivity|exact Hu]).
  destruct (enum_simplify r) as (f & He); destruct (means_simplify r) as [M1 M2].
  assert (mt (simplify r) (v ++ s') (gwidth u) [] (up_to (length s')) <> None <->
          exists cs c, way (FOne r) (v ++ s') (gwidth u) cs s' (gwidth u + gwidth v) c) as Hway.
  { rewrite (e_mt _ _ _ He) by exact Hw; rewrite firstk_some; split.
    - intros (cs & s2 & p2 & c & Hin & Hk); unfold up_to in Hk; destruct (length s2 =? length s') eqn:El; [apply Nat.eqb_eq in El|congruence].
      destruct (e_rest _ _ _ He _ _ _ _ _ _ Hw Hin) as (x & Ex & ->); apply (e_in _ _ _ He) in Hin; [|exact Hw].
      assert (v = x /\ s' = s2) as [<- <-].
      { clear - El Ex; revert x Ex; induction v as [|y v IH]; intros [|z x] Ex; cbn [app] in Ex; [auto| | |].
        - apply (f_equal (@length _)) in Ex; cbn [length] in Ex; rewrite app_length in Ex; lia.
        - apply (f_equal (@length _)) in Ex; cbn [length] in Ex; rewrite app_length in Ex; lia.
        - injection Ex as -> Ex; destruct (IH _ Ex) as [-> ->]; auto. }
      exists cs, c; exact Hin.
    - intros (cs & c & H); exists cs, s', (gwidth u + gwidth v), c; split; [apply (e_in _ _ _ He); assumption|].
      unfold up_to; rewrite Nat.eqb_refl; discriminate. }
  rewrite <- Hway; split.
  - intros H; destruct (M2 v s' _ _ Hw Hat H []) as (c & Hr); eapply mt_complete; [exact Hr|]; unfold up_to; rewrite Nat.eqb_refl; discriminate.
  - intros H; destruct (mt (simplify r) (v ++ s') (gwidth u) [] (up_to (length s'))) as [x|] eqn:E; [|congruence].
    apply mt_sound in E; destruct E as (s2 & p2 & c & Hr & Hk); unfold up_to in Hk.
    destruct (length s2 =? length s') eqn:El; [apply Nat.eqb_eq in El|discriminate].
    destruct (runs_consumes _ _ _ _ _ _ _ Hr) as (x' & Ex & _).
    assert (v = x' /\ s' = s2) as [<- <-].
    { clear - El Ex; revert x' Ex; induction v as [|y v IH]; intros [|z x'] Ex; cbn [app] in Ex; [auto| | |].
      - apply (f_equal (@length _)) in Ex; cbn [length] in Ex; rewrite app_length in Ex; lia.
      - apply (f_equal (@length _)) in Ex; cbn [length] in Ex; rewrite app_length in Ex; lia.
      - injection Ex as -> Ex; destruct (IH _ Ex) as [-> ->]; auto. }
    eapply M1; [exact Hw|exact Hat|exact Hr].
Qed.
Print Assumptions C94_ways.

(** What a pattern finds: each match is taken from the preferred way in the rest of the word
    after some byte. It begins where the group before the body ends, ends where the group after
    it begins, and captures what the way captures. *)
Definition taken (p : pattern) (word : bytes) (m : list Z) : Prop :=
  exists off u v cs s' p' c, off < length word /\ preferred (tree (p_re p)) (glyphs (skipn off word)) u v cs s' p' c /\
    (exists rest, m = Z.of_nat (off + match cap_lookup c 2 with Some (_, y) => y | None => gwidth u end)
                   :: Z.of_nat (off + match cap_lookup c (numcap (p_re p) - 1) with Some (x, _) => x | None => p' end) :: rest) /\
    forall k, 3 + k <= numcap (p_re p) - 2 ->
      captured word m (Z.of_nat k + 1) =
      Ok (match cap_lookup c (3 + k) with Some (x, y) => sub (skipn off word) x y | None => [] end).
Lemma captured_at p word off start stop core a b c k : compiled p ->
  search (prog (p_re p)) (glyphs (skipn (Z.to_nat off) word)) 0 = Some (a, b, c) -> (0 <= off < len word)%Z ->
  slice (raw p word off) 6 (len (raw p word off) - 4) = Ok core -> 3 + k <= numcap (p_re p) - 2 ->
  captured word (start :: stop :: core) (Z.of_nat k + 1) =
  Ok (match cap_lookup c (3 + k) with Some (x, y) => sub (skipn (Z.to_nat off) word) x y | None => [] end).
Proof.
  intros Hc Es Ho Hcore Hk; pose proof (raw_len p word off a b c Es) as Hl.
  unfold captured; rewrite !index_cons2 by lia.
  rewrite (index_skip (raw p word off) 0%Z _ core 6 (len (raw p word off) - 4) Hcore) by lia.
  rewrite (index_skip (raw p word off) 0%Z _ core 6 (len (raw p word off) - 4) Hcore) by lia.
  destruct (raw_index p word off a b c Es (3 + k) ltac:(lia)) as [H1 H2].
  replace (6 + ((Z.of_nat k + 1) * 2 - 2))%Z with (2 * Z.of_nat (3 + k))%Z by lia.
  replace (6 + ((Z.of_nat k + 1) * 2 + 1 - 2))%Z with (2 * Z.of_nat (3 + k) + 1)%Z by lia.
  rewrite H1, H2; cbn [bind]; f_equal.
  change (group_at (a, b) c (3 + k)) with (cap_at c (3 + k)); unfold cap_at.
  destruct (cap_lookup c (3 + k)) as [[x y]|] eqn:El; cbn [fst snd].
  - rewrite Hc in Es; destruct (group_text _ _ _ _ _ _ _ _ Es El) as (r' & u & v & w & _ & Eg & -> & -> & _).
    rewrite !off_by_nat; eapply substr_group; [lia|exact Eg|unfold len in Ho; lia].
  - reflexivity.
Qed.
Theorem C94_find : forall e macros vars p word ms,
  new_pattern e macros vars = Ok p -> find p word (-1) = Ok ms -> Forall (taken p word) ms.
Proof.
  intros e macros vars p word ms Hp Hf; apply new_pattern_compiled in Hp; rename Hp into Hc.
  assert (Forall (match_of p word) ms) as Hm by (eapply scan_matches, find_scan; [|exact Hf]; reflexivity).
  eapply Forall_impl; [|exact Hm]; clear ms Hf Hm; intros m (off & start & stop & core & Ho & Hss & Hlen & Hcore & Hneg & Em).
  destruct (search (prog (p_re p)) (glyphs (skipn (Z.to_nat off) word)) 0) as [[[a b] c]|] eqn:Es.
  2:{ rewrite (raw_miss _ _ _ Es) in Hlen; unfold len in Hlen; cbn in Hlen; lia. }
  pose proof (search_first (tree (p_re p)) (glyphs (skipn (Z.to_nat off) word)) 0 (glyphs_wide _)) as H.
  rewrite <- Hc, Es in H; destruct H as (u & v & cs & s' & Eg & -> & H1 & H2 & H3).
  exists (Z.to_nat off), u, v, cs, s', b, c; split; [unfold len in Ho; lia|]; split; [split; assumption|].
  pose proof (raw_len p word off _ b c Es) as Hl.
  split.
  - exists core; rewrite Em; unfold pick_start_stop in Hss.
    destruct (raw_index p word off _ b c Es 2 ltac:(lia)) as [_ Hg2].
    destruct (raw_index p word off _ b c Es (numcap (p_re p) - 1) ltac:(lia)) as [Hg3 _].
    destruct (raw_index p word off _ b c Es 0 ltac:(lia)) as [Hg0 Hg1].
    change (2 * Z.of_nat 2 + 1)%Z with 5%Z in Hg2; change (2 * Z.of_nat 0)%Z with 0%Z in Hg0; change (2 * Z.of_nat 0 + 1)%Z with 1%Z in Hg1.
    replace (2 * Z.of_nat (numcap (p_re p) - 1))%Z with (len (raw p word off) - 4)%Z in Hg3 by lia.
    rewrite Hg2, Hg3 in Hss; cbn [bind] in Hss.
    assert (forall i, (numcap (p_re p) - 1 = i)%nat -> (1 <= i)%nat -> group_at (0 + gwidth u, b) c i = cap_at c i) as Hga.
    { intros [|i] _ Hi; [lia|reflexivity]. }
    rewrite (Hga _ eq_refl) in Hss by lia; clear Hga; change (group_at (0 + gwidth u, b) c 2) with (cap_at c 2) in Hss; unfold cap_at in Hss.
    cbn [group_at fst snd] in Hg0, Hg1; rewrite off_by_nat in Hg0, Hg1; cbn [Nat.add] in *.
    assert (start = Z.of_nat (Z.to_nat off + match cap_lookup c 2 with Some (_, y) => y | None => gwidth u end) /\
            stop = Z.of_nat (Z.to_nat off + match cap_lookup c (numcap (p_re p) - 1) with Some (x, _) => x | None => b end)) as [-> ->]; [|reflexivity].
    destruct (cap_lookup c 2) as [[x y]|], (cap_lookup c (numcap (p_re p) - 1)) as [[x' y']|]; cbn [fst snd] in Hss;
      rewrite ?off_by_nat in Hss; unfold off_by in Hss; cbn [Z.eqb] in Hss;
      repeat (match type of Hss with context [(?q =? -1)%Z] => replace (q =? -1)%Z with false in Hss by lia end);
      cbn [bind] in Hss; rewrite ?Hg0, ?Hg1 in Hss; cbn [bind] in Hss; injection Hss as <- <-; lia.
  - intros k Hk; rewrite Em; eapply captured_at; eassumption.
Qed.
Print Assumptions C94_find.

(** In particular a greedy repetition of a class takes all characters of the class that follow,
    and a lazy one takes a single character. *)
Lemma rounds_run ranges s p cs s' p' c : wide s -> rounds true (whole (RClass ranges)) s p cs s' p' c ->
  (exists w, s = w ++ s' /\ Forall (fun g => in_set ranges (fst g) = true) w) /\
  forall ch w s2, s' = (ch, w) :: s2 -> in_set ranges ch = true ->
    exists cs2 p2 c2, rounds true (whole (RClass ranges)) s p cs2 s2 p2 c2 /\ before cs2 cs.
Proof.
  intros Hw H; induction H as [s p|s p cs s1 p1 c cs' s2 p2 c' H1 Hlt H2 IH].
  - split; [exists []; auto|]; intros ch w s2 -> Hc; exists [0; 1], (p + w), []; split; [|apply before_first; cbn; lia].
    apply (R_more true (whole (RClass ranges)) ((ch, w) :: s2) p [] s2 (p + w) [] [1] s2 (p + w) []); [constructor; exact Hc| |constructor].
    inversion Hw as [|? ? Hg _]; cbn [snd] in Hg; lia.
  - inversion H1 as [| |ra ch0 w0 s0 p0 Hin| | | | | | | | | | | | | | | | | | | | | |]; subst; inversion Hw as [|? ? _ Hw']; subst; destruct (IH Hw') as [(w & -> & Hf) IH2]; split.
    + exists ((ch0, w0) :: w); split; [reflexivity|]; constructor; [exact Hin|exact Hf].
    + intros ch w1 s3 -> Hc; destruct (IH2 _ _ _ eq_refl Hc) as (cs2 & p3 & c2 & H3 & H4).
      exists (again true :: [] ++ cs2), p3, (c2 ++ []); split; [econstructor; eassumption|]; apply before_tag; exact H4.
Qed.
Theorem C94_greedy : forall ranges s u v cs s' p' c, wide s -> preferred (RPlus true (RClass ranges)) s u v cs s' p' c ->
  exists w, v = w ++ s' /\ w <> [] /\ Forall (fun g => in_set ranges (fst g) = true) w /\
    forall ch n s2, s' = (ch, n) :: s2 -> in_set ranges ch = false.
Proof.
  intros ranges s u v cs s' p' c Hw [Es Hway _ Hfirst]; rewrite Es in Hw; apply wide_app in Hw; destruct Hw as [_ Hw].
  inversion Hway as [| | | | | | | | | | | | | |g r s0 p0 cs1 s1 p1 c1 cs2 s2 p2 c2 H1 H2| | | | | | | | | |]; subst.
  apply way_rounds in H2.
  inversion H1 as [| |ra ch0 w0 s0 p0 Hin| | | | | | | | | | | | | | | | | | | | | |]; subst; inversion Hw as [|? ? _ Hw']; subst.
  destruct (rounds_run _ _ _ _ _ _ _ Hw' H2) as [(w & -> & Hf) Hmore].
  exists ((ch0, w0) :: w); split; [reflexivity|]; split; [discriminate|]; split; [constructor; assumption|].
  intros ch n s2 -> ; destruct (in_set ranges ch) eqn:Ec; [exfalso|reflexivity].
  destruct (Hmore _ _ _ eq_refl Ec) as (cs3 & p3 & c3 & H3 & H4).
  destruct (Hfirst ([] ++ cs3) s2 p3 (c3 ++ [])) as [E|H].
  - econstructor; [exact H1|apply way_rounds; exact H3].
  - injection E as E _ _ _; rewrite E in H4; exact (before_irrefl _ H4).
  - exact (before_asym _ _ H H4).
Qed.
Print Assumptions C94_greedy.
Theorem C94_lazy : forall ranges s u v cs s' p' c, preferred (RPlus false (RClass ranges)) s u v cs s' p' c ->
  exists ch n, v = (ch, n) :: s' /\ in_set ranges ch = true.
Proof.
  intros ranges s u v cs s' p' c [Es Hway _ Hfirst].
  inversion Hway as [| | | | | | | | | | | | | |g r s0 p0 cs1 s1 p1 c1 cs2 s2 p2 c2 H1 H2| | | | | | | | | |]; subst.
  inversion H1 as [| |ra ch0 w0 s0 p0 Hin| | | | | | | | | | | | | | | | | | | | | |]; subst.
  exists ch0, w0; split; [|exact Hin]; f_equal.
  destruct (Hfirst ([] ++ [0]) s1 (gwidth u + w0) ([] ++ [])) as [E|H].
  - econstructor; [exact H1|apply W_rounds_end].
  - injection E as _ <- _ _; reflexivity.
  - destruct H as (a & n & m & x & y & E1 & E2 & Hlt); cbn [app] in E2; destruct a as [|z [|]]; try discriminate; injection E2 as <- _; lia.
Qed.
Print Assumptions C94_lazy.

(** The first alternative that fits is taken even if a later one would fit more; a greedy
    repetition takes as much, a lazy one as little as the rest allows. *)
Definition ex_re (e : string) : regexp := match compile_re (lit e) with Ok r => r | _ => {| source := []; tree := REmpty; prog := XEps; numcap := 0 |} end.
Definition ab : text := glyphs (lit "ab").
Example C94_example :
  prog (ex_re "(a|ab)(b?)") = simplify (tree (ex_re "(a|ab)(b?)")) /\
  find_submatch_index (ex_re "(a|ab)") (lit "xab") = [1; 2; 1; 2]%Z /\
  find_submatch_index (ex_re "(ab|a)") (lit "xab") = [1; 3; 1; 3]%Z /\
  find_submatch_index (ex_re "(a+)(a*)") (lit "baaa") = [1; 4; 1; 4; 4; 4]%Z /\
  find_submatch_index (ex_re "(a+?)(a*)") (lit "baaa") = [1; 4; 1; 2; 2; 4]%Z /\
  find_submatch_index (ex_re "a|ab$") (lit "xb") = [] /\
  (match tree (ex_re "[ab]+") with RPlus true (RClass _) => True | _ => False end) /\
  (match tree (ex_re "[ab]+?") with RPlus false (RClass _) => True | _ => False end) /\
  find_submatch_index (ex_re "[ab]+") (lit "xabac") = [1; 4]%Z /\
  find_submatch_index (ex_re "[ab]+?") (lit "xabac") = [1; 2]%Z /\
  preferred (RAlt [RLit [0x61%N]; RLit [0x61%N; 0x62%N]]) ab [] ab [0] [(0x62%N, 1)] 1 [] /\
  way (FOne (RAlt [RLit [0x61%N]; RLit [0x61%N; 0x62%N]])) ab 0 [1] [] 2 [] /\
  new_pattern (lit "{x}(a|ab)") [] [] = Ok (pat "{x}(a|ab)") /\ find (pat "{x}(a|ab)") (lit "xab") (-1) = Ok [[1; 2; 1; 2]%Z].
Proof.
  split; [vm_compute; reflexivity|]; split; [vm_compute; reflexivity|]; split; [vm_compute; reflexivity|].
  split; [vm_compute; reflexivity|]; split; [vm_compute; reflexivity|]; split; [vm_compute; reflexivity|].
  split; [vm_compute; exact I|]; split; [vm_compute; exact I|]; split; [vm_compute; reflexivity|]; split; [vm_compute; reflexivity|].
  change ab with ([(0x61%N, 1); (0x62%N, 1)]); split; [|split; [|split; vm_compute; reflexivity]].
  - split; [reflexivity| | |].
    + eapply (W_alt _ 0); [reflexivity|]; exact (W_lit [(0x61%N, 1)] [(0x62%N, 1)] 0).
    + intros u1 v1 cs1 s1 p1 c1 _ H; cbn in H; lia.
    + intros cs2 s2 p2 c2 H; inversion H as [| | | | | | | | |l n r s p cs s' p' c En Hn| | | | | | | | | | | | | | |]; subst.
      destruct n as [|[|n]]; cbn in En; try (injection En as <-); [left|right; apply before_first; lia|destruct n; discriminate].
      inversion Hn as [|u s p Eu Es| | | | | | | | | | | | | | | | | | | | | | |]; subst.
      destruct u as [|[x w] [|y u]]; try discriminate; injection Eu as ->; injection Es as -> ->; reflexivity.
  - eapply (W_alt _ 1); [reflexivity|]; exact (W_lit [(0x61%N, 1); (0x62%N, 1)] [] 0).
Qed.
