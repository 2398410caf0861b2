(** The text of the manifest: C74. *)
From Coq Require Import String Permutation Sorted Lia.
From Verif Require Import GoBase Utf8 Utf8Facts Hre Spec Procedure Api ApiFacts Tools Json
  SpecOrder PropBundled PropTools.
Open Scope N_scope.

(** ** C74 The manifest is JSON

    RFC 8259, as far as there are no numbers and no literal names: what a text of characters
    says. Escapes of surrogates without a partner say nothing. *)
Inductive jval := JText (t : list rune) | JArray (l : list jval) | JObj (l : list (list rune * jval)).
Definition space (c : rune) : Prop := In c [0x20; 0x9; 0xA; 0xD].
Definition spaces (w : list rune) : Prop := Forall space w.
(** HEXDIG *)
Definition hexdig (c : rune) (n : N) : Prop :=
  (n < 10 /\ c = 0x30 + n) \/ (10 <= n < 16 /\ (c = 0x57 + n \/ c = 0x37 + n)).
Inductive four_hex : list rune -> N -> Prop :=
| four_digits a b c d na nb nc nd : hexdig a na -> hexdig b nb -> hexdig c nc -> hexdig d nd ->
    four_hex [a; b; c; d] (na * 4096 + nb * 256 + nc * 16 + nd).
Definition escapes : list (rune * rune) :=
  [(0x22, 0x22); (0x5C, 0x5C); (0x2F, 0x2F); (0x62, 0x8); (0x66, 0xC); (0x6E, 0xA); (0x72, 0xD); (0x74, 0x9)].
Inductive chars : list rune -> list rune -> Prop :=
| chars_nil : chars [] []
| chars_plain c t rs : 0x20 <= c -> c <> 0x22 -> c <> 0x5C -> chars t rs -> chars (c :: t) (c :: rs)
| chars_escape e c t rs : In (e, c) escapes -> chars t rs -> chars (0x5C :: e :: t) (c :: rs)
| chars_unit h n t rs : four_hex h n -> is_scalar n = true -> chars t rs -> chars (0x5C :: 0x75 :: h ++ t) (n :: rs)
| chars_pair h l m n t rs : four_hex h (0xD800 + m) -> four_hex l (0xDC00 + n) -> m < 0x400 -> n < 0x400 -> chars t rs ->
    chars (0x5C :: 0x75 :: h ++ 0x5C :: 0x75 :: l ++ t) (0x10000 + m * 0x400 + n :: rs).
Inductive says : list rune -> jval -> Prop :=
| says_text t rs : chars t rs -> says (0x22 :: t ++ [0x22]) (JText rs)
| says_no_array w : spaces w -> says (0x5B :: w ++ [0x5D]) (JArray [])
| says_array t l : elements t l -> says (0x5B :: t ++ [0x5D]) (JArray l)
| says_no_object w : spaces w -> says (0x7B :: w ++ [0x7D]) (JObj [])
| says_object t l : members t l -> says (0x7B :: t ++ [0x7D]) (JObj l)
with elements : list rune -> list jval -> Prop :=
| element_last w1 t v w2 : spaces w1 -> says t v -> spaces w2 -> elements (w1 ++ t ++ w2) [v]
| element_more w1 t v w2 r l : spaces w1 -> says t v -> spaces w2 -> elements r l -> elements (w1 ++ t ++ w2 ++ 0x2C :: r) (v :: l)
with members : list rune -> list (list rune * jval) -> Prop :=
| member_last w1 k rs w2 w3 t v w4 : spaces w1 -> chars k rs -> spaces w2 -> spaces w3 -> says t v -> spaces w4 ->
    members (w1 ++ 0x22 :: k ++ 0x22 :: w2 ++ 0x3A :: w3 ++ t ++ w4) [(rs, v)]
| member_more w1 k rs w2 w3 t v w4 r l : spaces w1 -> chars k rs -> spaces w2 -> spaces w3 -> says t v -> spaces w4 -> members r l ->
    members (w1 ++ 0x22 :: k ++ 0x22 :: w2 ++ 0x3A :: w3 ++ t ++ w4 ++ 0x2C :: r) ((rs, v) :: l).
Definition json_text (t : list rune) (v : jval) : Prop :=
  exists w1 t0 w2, t = w1 ++ t0 ++ w2 /\ spaces w1 /\ spaces w2 /\ says t0 v.

(** *** A text says one thing *)
Lemma hexdig_unique c n n' : hexdig c n -> hexdig c n' -> n = n'. Proof. unfold hexdig; lia. Qed.
Lemma four_hex_unique h n h' n' x x' : four_hex h n -> four_hex h' n' -> h ++ x = h' ++ x' -> h = h' /\ n = n' /\ x = x'.
Proof.
  intros [a b c d na nb nc nd Ha Hb Hc Hd] [a' b' c' d' na' nb' nc' nd' Ha' Hb' Hc' Hd'] E; cbn [app] in E; injection E as -> -> -> -> ->.
  rewrite (hexdig_unique _ _ _ Ha Ha'), (hexdig_unique _ _ _ Hb Hb'), (hexdig_unique _ _ _ Hc Hc'), (hexdig_unique _ _ _ Hd Hd'); auto.
Qed.
Lemma escapes_unique e c c' : In (e, c) escapes -> In (e, c') escapes -> c = c'.
Proof.
  unfold escapes; intros H H'; cbn [In] in H, H'.
  repeat (destruct H as [H|H]; [injection H as <- <-; repeat (destruct H' as [H'|H']; [try discriminate H'; injection H' as <-; reflexivity|]); contradiction|]).
  contradiction.
Qed.
Lemma escapes_u c : ~ In (0x75, c) escapes.
Proof. unfold escapes; cbn [In]; intros H; repeat (destruct H as [H|H]; [discriminate H|]); exact H. Qed.
Lemma chars_unique t rs : chars t rs -> forall t' rs' x x', chars t' rs' -> t ++ 0x22 :: x = t' ++ 0x22 :: x' -> t = t' /\ rs = rs' /\ x = x'.
Proof.
  induction 1 as [|c t rs H1 H2 H3 H IH|e c t rs He H IH|h n t rs Hh Hn H IH|h l m n t rs Hh Hl Hm Hn H IH]; intros t' rs' x x' H' E.
  - destruct H' as [|c' t' rs' H1' H2' H3' H'|e' c' t' rs' He' H'|h' n' t' rs' Hh' Hn' H'|h' l' m' n' t' rs' Hh' Hl' Hm' Hn' H'];
      cbn [app] in E; try discriminate E; injection E as E; [auto|congruence].
  - destruct H' as [|c' t' rs' H1' H2' H3' H'|e' c' t' rs' He' H'|h' n' t' rs' Hh' Hn' H'|h' l' m' n' t' rs' Hh' Hl' Hm' Hn' H'];
      cbn [app] in E; injection E as E E1; try congruence.
    subst c'; destruct (IH _ _ _ _ H' E1) as (-> & -> & ->); auto.
  - destruct H' as [|c' t' rs' H1' H2' H3' H'|e' c' t' rs' He' H'|h' n' t' rs' Hh' Hn' H'|h' l' m' n' t' rs' Hh' Hl' Hm' Hn' H'];
      cbn [app] in E; try discriminate E; injection E as E; try congruence.
    + subst e'; rewrite (escapes_unique _ _ _ He He'); match goal with E1 : t ++ _ = _ |- _ => destruct (IH _ _ _ _ H' E1) as (-> & -> & ->) end; auto.
    + subst e; contradiction (escapes_u _ He).
    + subst e; contradiction (escapes_u _ He).
  - destruct H' as [|c' t' rs' H1' H2' H3' H'|e' c' t' rs' He' H'|h' n' t' rs' Hh' Hn' H'|h' l' m' n' t' rs' Hh' Hl' Hm' Hn' H'];
      cbn [app] in E; try discriminate E; injection E as E; try congruence.
    + subst e'; contradiction (escapes_u _ He').
    + rewrite <- !app_assoc in E; destruct (four_hex_unique _ _ _ _ _ _ Hh Hh' E) as (-> & -> & E1).
      destruct (IH _ _ _ _ H' E1) as (-> & -> & ->); auto.
    + rewrite <- !app_assoc in E; destruct (four_hex_unique _ _ _ _ _ _ Hh Hh' E) as (-> & -> & E1); exfalso; clear - Hn Hm'; unfold is_scalar in Hn; lia.
  - destruct H' as [|c' t' rs' H1' H2' H3' H'|e' c' t' rs' He' H'|h' n' t' rs' Hh' Hn' H'|h' l' m' n' t' rs' Hh' Hl' Hm' Hn' H'];
      cbn [app] in E; try discriminate E; injection E as E; try congruence.
    + subst e'; contradiction (escapes_u _ He').
    + rewrite <- !app_assoc in E; destruct (four_hex_unique _ _ _ _ _ _ Hh Hh' E) as (-> & <- & E1); exfalso; clear - Hn' Hm; unfold is_scalar in Hn'; lia.
    + rewrite <- !app_assoc in E; destruct (four_hex_unique _ _ _ _ _ _ Hh Hh' E) as (-> & Em & E1).
      cbn [app] in E1; injection E1 as E1; rewrite <- !app_assoc in E1; destruct (four_hex_unique _ _ _ _ _ _ Hl Hl' E1) as (-> & En & E2).
      destruct (IH _ _ _ _ H' E2) as (-> & -> & ->); replace m' with m by lia; replace n' with n by lia; auto.
Qed.
Lemma spaces_unique w w' c c' x x' : spaces w -> spaces w' -> ~ space c -> ~ space c' -> w ++ c :: x = w' ++ c' :: x' -> w = w' /\ c = c' /\ x = x'.
Proof.
  intros H; revert w'; induction H as [|a w Ha H IH]; intros [|a' w'] H' Hc Hc' E; cbn [app] in E; injection E as E1 E2.
  - auto.
  - subst c; inversion H'; contradiction.
  - subst c'; contradiction.
  - subst a'; inversion H' as [|? ? _ H'']; subst; destruct (IH w' H'' Hc Hc' E2) as (-> & -> & ->); auto.
Qed.
Lemma says_head t v : says t v -> exists c t0, t = c :: t0 /\ In c [0x22; 0x5B; 0x7B].
Proof. intros []; do 2 eexists; (split; [reflexivity|]); cbn; tauto. Qed.
Lemma head_no_space c : In c [0x22; 0x5B; 0x7B; 0x5D; 0x7D; 0x2C; 0x3A] -> ~ space c.
Proof. unfold space; cbn [In]; intros H H'; lia. Qed.
Scheme says_min := Minimality for says Sort Prop with elements_min := Minimality for elements Sort Prop with members_min := Minimality for members Sort Prop.
Combined Scheme json_min from says_min, elements_min, members_min.
Definition value_unique (t : list rune) (v : jval) : Prop := forall t' v' x x', says t' v' -> t ++ x = t' ++ x' -> t = t' /\ v = v' /\ x = x'.
Definition elements_unique (t : list rune) (l : list jval) : Prop :=
  forall t' l' x x', elements t' l' -> t ++ 0x5D :: x = t' ++ 0x5D :: x' -> t = t' /\ l = l' /\ x = x'.
Definition members_unique (t : list rune) (l : list (list rune * jval)) : Prop :=
  forall t' l' x x', members t' l' -> t ++ 0x7D :: x = t' ++ 0x7D :: x' -> t = t' /\ l = l' /\ x = x'.

(** Spaces, a value, spaces and one more character *)
Lemma value_spaces w1 t v w2 c x w1' t' v' w2' c' x' :
  value_unique t v -> says t v -> says t' v' -> spaces w1 -> spaces w2 -> spaces w1' -> spaces w2' -> ~ space c -> ~ space c' ->
  w1 ++ t ++ w2 ++ c :: x = w1' ++ t' ++ w2' ++ c' :: x' -> w1 = w1' /\ t = t' /\ v = v' /\ w2 = w2' /\ c = c' /\ x = x'.
Proof.
  intros Hu Ht Ht' H1 H2 H1' H2' Hc Hc' E.
  destruct (says_head _ _ Ht) as (a & t0 & -> & Ha), (says_head _ _ Ht') as (a' & t0' & -> & Ha').
  assert (~ space a /\ ~ space a') as [Hna Hna'].
  { split; apply head_no_space; cbn [In] in *; tauto. }
  destruct (spaces_unique _ _ _ _ _ _ H1 H1' Hna Hna' E) as (-> & -> & E1).
  destruct (Hu _ _ (w2 ++ c :: x) (w2' ++ c' :: x') Ht') as (Et & -> & E2); [exact (f_equal (cons a') E1)|].
  injection Et as ->; destruct (spaces_unique _ _ _ _ _ _ H2 H2' Hc Hc' E2) as (-> & -> & ->); auto 10.
Qed.
(** Spaces, a key, spaces, a colon, and what follows *)
Lemma key_spaces w1 k rs w2 x w1' k' rs' w2' x' :
  chars k rs -> chars k' rs' -> spaces w1 -> spaces w2 -> spaces w1' -> spaces w2' ->
  w1 ++ 0x22 :: k ++ 0x22 :: w2 ++ 0x3A :: x = w1' ++ 0x22 :: k' ++ 0x22 :: w2' ++ 0x3A :: x' ->
  w1 = w1' /\ k = k' /\ rs = rs' /\ w2 = w2' /\ x = x'.
Proof.
  intros Hk Hk' H1 H2 H1' H2' E.
  destruct (spaces_unique _ _ _ _ _ _ H1 H1' (head_no_space 0x22 ltac:(cbn; tauto)) (head_no_space 0x22 ltac:(cbn; tauto)) E) as (-> & _ & E1).
  destruct (chars_unique _ _ Hk _ _ _ _ Hk' E1) as (-> & -> & E2).
  destruct (spaces_unique _ _ _ _ _ _ H2 H2' (head_no_space 0x3A ltac:(cbn; tauto)) (head_no_space 0x3A ltac:(cbn; tauto)) E2) as (-> & _ & ->); auto 10.
Qed.
Lemma elements_head t l x : elements t l -> exists w c y, t ++ x = w ++ c :: y /\ spaces w /\ In c [0x22; 0x5B; 0x7B].
Proof.
  intros [w1 t0 v w2 H1 Ht H2|w1 t0 v w2 r l0 H1 Ht H2 Hr]; destruct (says_head _ _ Ht) as (c & t1 & -> & Hc);
    exists w1, c; rewrite <- !app_assoc; cbn [app]; eexists; (split; [reflexivity|auto]).
Qed.
Lemma members_head t l x : members t l -> exists w y, t ++ x = w ++ 0x22 :: y /\ spaces w.
Proof. intros []; exists w1; rewrite <- !app_assoc; cbn [app]; eexists; (split; [reflexivity|assumption]). Qed.

Lemma says_all_unique :
  (forall t v, says t v -> says t v /\ value_unique t v) /\ (forall t l, elements t l -> elements t l /\ elements_unique t l) /\
  (forall t l, members t l -> members t l /\ members_unique t l).
Proof.
  assert (forall c, In c [0x22; 0x5B; 0x7B; 0x5D; 0x7D; 0x2C; 0x3A] -> ~ space c) as Hns by exact head_no_space.
  apply json_min.
  - intros t rs H; split; [constructor; exact H|]; intros t' v' x x' H' E; rewrite <- ?app_assoc in E.
    inversion H'; subst; cbn [app] in E; try discriminate E; injection E as E; rewrite <- !app_assoc in E; cbn [app] in E.
    match goal with Hc : chars _ _ |- _ => destruct (chars_unique _ _ H _ _ _ _ Hc E) as (-> & -> & ->) end; auto.
  - intros w H; split; [constructor; exact H|]; intros t' v' x x' H' E; inversion H'; subst; cbn [app] in E; try discriminate E; injection E as E;
      rewrite <- !app_assoc in E; cbn [app] in E.
    + match goal with Hw : spaces ?w0 |- _ => destruct (spaces_unique _ _ _ _ _ _ H Hw (Hns 0x5D ltac:(cbn; tauto)) (Hns 0x5D ltac:(cbn; tauto)) E) as (-> & _ & ->) end; auto.
    + match goal with He : elements ?t0 _ |- _ => destruct (elements_head _ _ (0x5D :: x') He) as (w' & c & y & E' & Hw & Hc) end.
      pose proof (eq_trans E E') as E2; destruct (spaces_unique _ _ _ _ _ _ H Hw (Hns 0x5D ltac:(cbn; tauto)) (Hns c ltac:(cbn [In] in *; tauto)) E2) as (_ & <- & _).
      exfalso; cbn [In] in Hc; lia.
  - intros t l _ [H IH]; split; [constructor; exact H|]; intros t' v' x x' H' E; inversion H'; subst; cbn [app] in E; try discriminate E; injection E as E;
      rewrite <- !app_assoc in E; cbn [app] in E.
    + destruct (elements_head _ _ (0x5D :: x) H) as (w' & c & y & E' & Hw & Hc); pose proof (eq_trans (eq_sym E') E) as E2.
      match goal with Hw0 : spaces w |- _ => destruct (spaces_unique _ _ _ _ _ _ Hw Hw0 (Hns c ltac:(cbn [In] in *; tauto)) (Hns 0x5D ltac:(cbn; tauto)) E2) as (_ & -> & _) end.
      exfalso; cbn [In] in Hc; lia.
    + match goal with He : elements _ l0 |- _ => destruct (IH _ _ _ _ He E) as (-> & -> & ->) end; auto.
  - intros w H; split; [constructor; exact H|]; intros t' v' x x' H' E; inversion H'; subst; cbn [app] in E; try discriminate E; injection E as E;
      rewrite <- !app_assoc in E; cbn [app] in E.
    + match goal with Hw : spaces ?w0 |- _ => destruct (spaces_unique _ _ _ _ _ _ H Hw (Hns 0x7D ltac:(cbn; tauto)) (Hns 0x7D ltac:(cbn; tauto)) E) as (-> & _ & ->) end; auto.
    + match goal with He : members ?t0 _ |- _ => destruct (members_head _ _ (0x7D :: x') He) as (w' & y & E' & Hw) end.
      pose proof (eq_trans E E') as E2; destruct (spaces_unique _ _ _ _ _ _ H Hw (Hns 0x7D ltac:(cbn; tauto)) (Hns 0x22 ltac:(cbn; tauto)) E2) as (_ & E0 & _); discriminate E0.
  - intros t l _ [H IH]; split; [constructor; exact H|]; intros t' v' x x' H' E; inversion H'; subst; cbn [app] in E; try discriminate E; injection E as E;
      rewrite <- !app_assoc in E; cbn [app] in E.
    + destruct (members_head _ _ (0x7D :: x) H) as (w' & y & E' & Hw); pose proof (eq_trans (eq_sym E') E) as E2.
      match goal with Hw0 : spaces w |- _ => destruct (spaces_unique _ _ _ _ _ _ Hw Hw0 (Hns 0x22 ltac:(cbn; tauto)) (Hns 0x7D ltac:(cbn; tauto)) E2) as (_ & E0 & _) end; discriminate E0.
    + match goal with He : members _ l0 |- _ => destruct (IH _ _ _ _ He E) as (-> & -> & ->) end; auto.
  - intros w1 t v w2 H1 _ [Ht IH] H2; split; [constructor; assumption|]; intros t' l' x x' H' E; inversion H' as [w1' t0' v' w2' H1' Ht' H2'|w1' t0' v' w2' r' l0' H1' Ht' H2' Hr']; subst;
      rewrite <- !app_assoc in E; cbn [app] in E.
    + destruct (value_spaces _ _ _ _ _ _ _ _ _ _ _ _ IH Ht Ht' H1 H2 H1' H2' (Hns 0x5D ltac:(cbn; tauto)) (Hns 0x5D ltac:(cbn; tauto)) E) as (-> & -> & -> & -> & _ & ->); auto.
    + destruct (value_spaces _ _ _ _ _ _ _ _ _ _ _ _ IH Ht Ht' H1 H2 H1' H2' (Hns 0x5D ltac:(cbn; tauto)) (Hns 0x2C ltac:(cbn; tauto)) E) as (_ & _ & _ & _ & E0 & _); discriminate E0.
  - intros w1 t v w2 r l H1 _ [Ht IH] H2 _ [Hr IHr]; split; [constructor; assumption|]; intros t' l' x x' H' E; inversion H' as [w1' t0' v' w2' H1' Ht' H2'|w1' t0' v' w2' r' l0' H1' Ht' H2' Hr']; subst;
      rewrite <- !app_assoc in E; cbn [app] in E.
    + destruct (value_spaces _ _ _ _ _ _ _ _ _ _ _ _ IH Ht Ht' H1 H2 H1' H2' (Hns 0x2C ltac:(cbn; tauto)) (Hns 0x5D ltac:(cbn; tauto)) E) as (_ & _ & _ & _ & E0 & _); discriminate E0.
    + destruct (value_spaces _ _ _ _ _ _ _ _ _ _ _ _ IH Ht Ht' H1 H2 H1' H2' (Hns 0x2C ltac:(cbn; tauto)) (Hns 0x2C ltac:(cbn; tauto)) E) as (-> & -> & -> & -> & _ & E1).
      destruct (IHr _ _ _ _ Hr' E1) as (-> & -> & ->); auto.
  - intros w1 k rs w2 w3 t v w4 H1 Hk H2 H3 _ [Ht IH] H4; split; [constructor; assumption|]; intros t' l' x x' H' E;
      inversion H' as [w1' k' rs' w2' w3' t0' v' w4' H1' Hk' H2' H3' Ht' H4'|w1' k' rs' w2' w3' t0' v' w4' r' l0' H1' Hk' H2' H3' Ht' H4' Hr']; subst;
      repeat (rewrite <- !app_assoc in E; cbn [app] in E);
      destruct (key_spaces _ _ _ _ _ _ _ _ _ _ Hk Hk' H1 H2 H1' H2' E) as (-> & -> & -> & -> & E1).
    + destruct (value_spaces _ _ _ _ _ _ _ _ _ _ _ _ IH Ht Ht' H3 H4 H3' H4' (Hns 0x7D ltac:(cbn; tauto)) (Hns 0x7D ltac:(cbn; tauto)) E1) as (-> & -> & -> & -> & _ & ->); auto.
    + destruct (value_spaces _ _ _ _ _ _ _ _ _ _ _ _ IH Ht Ht' H3 H4 H3' H4' (Hns 0x7D ltac:(cbn; tauto)) (Hns 0x2C ltac:(cbn; tauto)) E1) as (_ & _ & _ & _ & E0 & _); discriminate E0.
  - intros w1 k rs w2 w3 t v w4 r l H1 Hk H2 H3 _ [Ht IH] H4 _ [Hr IHr]; split; [constructor; assumption|]; intros t' l' x x' H' E;
      inversion H' as [w1' k' rs' w2' w3' t0' v' w4' H1' Hk' H2' H3' Ht' H4'|w1' k' rs' w2' w3' t0' v' w4' r' l0' H1' Hk' H2' H3' Ht' H4' Hr']; subst;
      repeat (rewrite <- !app_assoc in E; cbn [app] in E);
      destruct (key_spaces _ _ _ _ _ _ _ _ _ _ Hk Hk' H1 H2 H1' H2' E) as (-> & -> & -> & -> & E1).
    + destruct (value_spaces _ _ _ _ _ _ _ _ _ _ _ _ IH Ht Ht' H3 H4 H3' H4' (Hns 0x2C ltac:(cbn; tauto)) (Hns 0x7D ltac:(cbn; tauto)) E1) as (_ & _ & _ & _ & E0 & _); discriminate E0.
    + destruct (value_spaces _ _ _ _ _ _ _ _ _ _ _ _ IH Ht Ht' H3 H4 H3' H4' (Hns 0x2C ltac:(cbn; tauto)) (Hns 0x2C ltac:(cbn; tauto)) E1) as (-> & -> & -> & -> & _ & E2).
      destruct (IHr _ _ _ _ Hr' E2) as (-> & -> & ->); auto.
Qed.
Theorem C74_unique : forall t v v', json_text t v -> json_text t v' -> v = v'.
Proof.
  intros t v v' (w1 & t0 & w2 & -> & H1 & H2 & Ht) (w1' & t0' & w2' & E & H1' & H2' & Ht').
  destruct (says_head _ _ Ht) as (c & t1 & -> & Hc), (says_head _ _ Ht') as (c' & t1' & -> & Hc').
  destruct (spaces_unique _ _ _ _ _ _ H1 H1' (head_no_space c ltac:(cbn [In] in *; tauto)) (head_no_space c' ltac:(cbn [In] in *; tauto)) E) as (-> & -> & E1).
  destruct (proj1 says_all_unique _ _ Ht) as [_ Hu]; destruct (Hu _ _ w2 w2' Ht') as (_ & -> & _); [exact (f_equal (cons c') E1)|reflexivity].
Qed.

(** *** What encoding/json writes *)
Definition writes (b : bytes) (v : jval) : Prop := exists t, scalars t /\ b = encode t /\ says t v.

(** The characters of [json_char] *)
Definition char_text (g : rune * nat) : list rune :=
  let '(c, size) := g in
  if c <? 0x80 then json_char g
  else if (c =? rune_error) && Nat.eqb size 1 then json_char g
  else if (c =? 0x2028) || (c =? 0x2029) then json_char g
  else [c].
Lemma ascii_text (b : bytes) : Forall (fun c => c < 0x80) b -> scalars b /\ encode b = b.
Proof.
  intros H; induction H as [|c b Hc H [IH1 IH2]]; [split; constructor|]; split.
  - constructor; [unfold is_scalar; cbn in *; lia|exact IH1].
  - unfold encode in *; cbn [flat_map]; rewrite IH2; unfold encode_rune; destruct (c <=? 0x7F) eqn:E; [reflexivity|lia].
Qed.
Lemma hex_digit_ascii n : n < 16 -> hex_digit n < 0x80.
Proof. unfold hex_digit; destruct (n <? 10) eqn:E; lia. Qed.
Lemma hex_digit_hexdig n : n < 16 -> hexdig (hex_digit n) n.
Proof. unfold hex_digit, hexdig; destruct (n <? 10) eqn:E; lia. Qed.
Lemma json_char_ascii c size : c < 0x80 \/ (c = rune_error /\ size = 1%nat) \/ c = 0x2028 \/ c = 0x2029 -> Forall (fun c => c < 0x80) (json_char (c, size)).
Proof.
  intros H; unfold json_char; destruct (c <? 0x80) eqn:E.
  - destruct (html_safe c); [repeat constructor; lia|]; constructor; [lia|].
    destruct ((c =? 0x5C) || (c =? 0x22)); [repeat constructor; lia|].
    destruct (c =? 0xA); [repeat constructor; cbn; lia|]; destruct (c =? 0xD); [repeat constructor; cbn; lia|].
    destruct (c =? 0x9); [repeat constructor; cbn; lia|].
    assert (c / 16 < 16 /\ c mod 16 < 16) as [H1 H2] by (split; [apply N.div_lt_upper_bound; lia|apply N.mod_lt; lia]).
    change (lit "u00") with [0x75; 0x30; 0x30]; cbn [app]; repeat constructor; try (apply hex_digit_ascii; assumption); vm_compute; reflexivity.
  - destruct ((c =? rune_error) && Nat.eqb size 1) eqn:E1; [repeat constructor; vm_compute; reflexivity|].
    assert (((c =? 0x2028) || (c =? 0x2029)) = true) as E2.
    { destruct H as [H|[[-> ->]|[->| ->]]]; try reflexivity; [lia|discriminate E1]. }
    rewrite E2; constructor; [lia|]; repeat constructor; try (vm_compute; reflexivity).
    apply hex_digit_ascii, N.mod_lt; lia.
Qed.
Lemma char_text_bytes g : is_scalar (fst g) = true -> scalars (char_text g) /\ encode (char_text g) = json_char g.
Proof.
  destruct g as [c size]; cbn [fst]; intros Hs; unfold char_text.
  destruct (c <? 0x80) eqn:E; [apply ascii_text, json_char_ascii; left; lia|].
  destruct ((c =? rune_error) && Nat.eqb size 1) eqn:E1.
  { apply ascii_text, json_char_ascii; right; left; apply andb_true_iff in E1; destruct E1 as [E1 E2]; apply N.eqb_eq in E1; apply Nat.eqb_eq in E2; auto. }
  destruct ((c =? 0x2028) || (c =? 0x2029)) eqn:E2; [apply ascii_text, json_char_ascii; lia|].
  split; [repeat constructor; exact Hs|]; unfold json_char; rewrite E, E1, E2; unfold encode; cbn [flat_map]; apply app_nil_r.
Qed.
Lemma char_text_chars g t rs : chars t rs -> chars (char_text g ++ t) (fst g :: rs).
Proof.
  destruct g as [c size]; cbn [fst]; intros H; unfold char_text, json_char.
  destruct (c <? 0x80) eqn:E.
  - destruct (html_safe c) eqn:Eh.
    { unfold html_safe in Eh; apply andb_true_iff in Eh; destruct Eh as [E0 Eh]; cbn [existsb] in Eh; cbn [app]; constructor; [lia..|exact H]. }
    assert (forall h, four_hex h c -> chars ((0x5C :: 0x75 :: h) ++ t) (c :: rs)) as Hu.
    { intros h Hh; cbn [app]; apply chars_unit; [exact Hh| |exact H]; unfold is_scalar; cbn in *; lia. }
    destruct ((c =? 0x5C) || (c =? 0x22)) eqn:E1.
    { cbn [app]; apply chars_escape; [|exact H]; apply orb_true_iff in E1; destruct E1 as [E1|E1]; apply N.eqb_eq in E1; subst c; cbn; tauto. }
    destruct (c =? 0xA) eqn:E2; [apply N.eqb_eq in E2; subst c; apply (chars_escape 0x6E); [cbn; tauto|exact H]|].
    destruct (c =? 0xD) eqn:E3; [apply N.eqb_eq in E3; subst c; apply (chars_escape 0x72); [cbn; tauto|exact H]|].
    destruct (c =? 0x9) eqn:E4; [apply N.eqb_eq in E4; subst c; apply (chars_escape 0x74); [cbn; tauto|exact H]|].
    apply (Hu [0x30; 0x30; hex_digit (c / 16); hex_digit (c mod 16)]).
    assert (c / 16 < 16 /\ c mod 16 < 16) as [H1 H2] by (split; [apply N.div_lt_upper_bound; lia|apply N.mod_lt; lia]).
    pose proof (four_digits 0x30 0x30 _ _ 0 0 _ _ (or_introl (conj eq_refl eq_refl)) (or_introl (conj eq_refl eq_refl))
                  (hex_digit_hexdig _ H1) (hex_digit_hexdig _ H2)) as Hf.
    rewrite (N.div_mod c 16) at 3 by lia; replace (16 * (c / 16) + c mod 16) with (0 * 4096 + 0 * 256 + c / 16 * 16 + c mod 16) by lia; exact Hf.
  - destruct ((c =? rune_error) && Nat.eqb size 1) eqn:E1.
    { apply andb_true_iff in E1; destruct E1 as [E1 _]; apply N.eqb_eq in E1; subst c.
      apply (chars_unit [0x66; 0x66; 0x66; 0x64] 0xFFFD); [|reflexivity|exact H].
      apply (four_digits 0x66 0x66 0x66 0x64 15 15 15 13); right; lia. }
    destruct ((c =? 0x2028) || (c =? 0x2029)) eqn:E2.
    { apply orb_true_iff in E2; destruct E2 as [E2|E2]; apply N.eqb_eq in E2; subst c.
      - apply (chars_unit [0x32; 0x30; 0x32; 0x38] 0x2028); [|reflexivity|exact H]; apply (four_digits 0x32 0x30 0x32 0x38 2 0 2 8); left; lia.
      - apply (chars_unit [0x32; 0x30; 0x32; 0x39] 0x2029); [|reflexivity|exact H]; apply (four_digits 0x32 0x30 0x32 0x39 2 0 2 9); left; lia. }
    cbn [app]; constructor; [lia..|exact H].
Qed.

(** Text in quotes *)
Lemma quoted (s : bytes) : exists t, scalars t /\ json_string s = encode (0x22 :: t ++ [0x22]) /\ chars t (runes s).
Proof.
  exists (flat_map char_text (glyphs s)); unfold json_string, runes.
  assert (Forall (fun g => is_scalar (fst g) = true) (glyphs s)) as Hg.
  { pose proof (runes_scalar s) as H; unfold runes, scalars in H; rewrite Forall_map in H; exact H. }
  induction Hg as [|g gs Hg H (IH1 & IH2 & IH3)]; [repeat split; constructor|].
  destruct (char_text_bytes g Hg) as [H1 H2]; cbn [flat_map map]; repeat split.
  - apply Forall_app; auto.
  - change (encode (0x22 :: ?x)) with (0x22 :: encode x) in *; injection IH2 as IH2; rewrite <- !app_assoc, encode_app, H2, <- IH2; reflexivity.
  - apply char_text_chars; exact IH3.
Qed.
Lemma string_writes s : writes (json_string s) (JText (runes s)).
Proof.
  destruct (quoted s) as (t & Ht & E & Hc); exists (0x22 :: t ++ [0x22]); repeat split; [|exact E|constructor; exact Hc].
  constructor; [reflexivity|apply Forall_app; split; [exact Ht|repeat constructor]].
Qed.
Lemma ascii_cons c t : c < 0x80 -> encode (c :: t) = c :: encode t.
Proof. intros H; unfold encode at 1; cbn [flat_map]; unfold encode_rune; destruct (c <=? 0x7F) eqn:E; [reflexivity|lia]. Qed.
Lemma scalars_cons c t : c < 0x80 -> scalars t -> scalars (c :: t).
Proof. intros H Ht; constructor; [unfold is_scalar; lia|exact Ht]. Qed.
Lemma array_writes {A} (f : A -> bytes) (val : A -> jval) l : (forall x, In x l -> writes (f x) (val x)) -> writes (json_array f l) (JArray (map val l)).
Proof.
  intros H; unfold json_array; destruct l as [|x l].
  - exists [0x5B; 0x5D]; repeat split; [repeat constructor|apply (says_no_array []); constructor].
  - assert (exists t, scalars t /\ join [0x2C] (map f (x :: l)) = encode t /\ elements t (map val (x :: l))) as (t & Ht & E & He).
    { revert x H; induction l as [|y l IH]; intros x H.
      - destruct (H x (or_introl eq_refl)) as (t & Ht & E & Hs); exists t; repeat split; [exact Ht|exact E|].
        rewrite <- (app_nil_r t); apply (element_last [] t _ []); [constructor|exact Hs|constructor].
      - destruct (H x (or_introl eq_refl)) as (t & Ht & E & Hs), (IH y) as (t' & Ht' & E' & He); [intros z Hz; apply H; right; exact Hz|].
        exists (t ++ 0x2C :: t'); repeat split.
        + apply Forall_app; split; [exact Ht|apply scalars_cons; [lia|exact Ht']].
        + rewrite encode_app, ascii_cons by lia; rewrite <- E, <- E'; reflexivity.
        + apply (element_more [] t _ [] t'); [constructor|exact Hs|constructor|exact He]. }
    exists (0x5B :: t ++ [0x5D]); repeat split.
    + apply scalars_cons; [lia|apply Forall_app; split; [exact Ht|repeat constructor]].
    + rewrite ascii_cons by lia; rewrite encode_app, <- E; reflexivity.
    + constructor; exact He.
Qed.
Lemma object_writes (fields : list (bytes * bytes)) vals : Forall2 (fun f v => writes (snd f) v) fields vals ->
  writes (json_object fields) (JObj (combine (map (fun f => runes (fst f)) fields) vals)).
Proof.
  intros H; unfold json_object; destruct H as [|[k b] v fields vals Hv H].
  - exists [0x7B; 0x7D]; repeat split; [repeat constructor|apply (says_no_object []); constructor].
  - set (one := fun f : bytes * bytes => json_string (fst f) ++ 0x3A :: snd f).
    assert (forall k b v, writes b v -> exists t, scalars t /\ one (k, b) = encode t /\
              members t [(runes k, v)] /\ forall r l, members r l -> members (t ++ 0x2C :: r) ((runes k, v) :: l)) as Hone.
    { clear; intros k b v (t & Ht & E & Hs); destruct (quoted k) as (q & Hq & Eq & Hc); exists (0x22 :: q ++ 0x22 :: 0x3A :: t); repeat split.
      - apply scalars_cons; [lia|]; apply Forall_app; split; [exact Hq|]; do 2 (apply scalars_cons; [lia|]); exact Ht.
      - unfold one; cbn [fst snd]; rewrite Eq, E, !ascii_cons by lia; rewrite !encode_app; rewrite !ascii_cons by lia.
        cbn [app]; rewrite <- app_assoc; reflexivity.
      - rewrite <- (app_nil_r t); apply (member_last [] q _ [] [] t v []); try constructor; assumption.
      - intros r l Hr; cbn [app]; rewrite <- app_assoc; cbn [app].
        apply (member_more [] q _ [] [] t v [] r l); try constructor; assumption. }
    assert (exists t, scalars t /\ join [0x2C] (map one ((k, b) :: fields)) = encode t /\
              members t (combine (map (fun f => runes (fst f)) ((k, b) :: fields)) (v :: vals))) as (t & Ht & E & He).
    { revert k b v Hv; induction H as [|[k' b'] v' fields vals Hv' H IH]; intros k b v Hv; destruct (Hone k b v Hv) as (t & Ht & E & H1 & H2).
      - exists t; auto.
      - destruct (IH k' b' v' Hv') as (t' & Ht' & E' & He); exists (t ++ 0x2C :: t'); repeat split.
        + apply Forall_app; split; [exact Ht|apply scalars_cons; [lia|exact Ht']].
        + rewrite encode_app, ascii_cons by lia; rewrite <- E, <- E'; reflexivity.
        + apply H2; exact He. }
    exists (0x7B :: t ++ [0x7D]); repeat split.
    + apply scalars_cons; [lia|apply Forall_app; split; [exact Ht|repeat constructor]].
    + rewrite ascii_cons by lia; rewrite encode_app, <- E; reflexivity.
    + constructor; exact He.
Qed.

(** *** The value of the manifest *)
Definition texts (l : list bytes) : jval := JArray (map (fun t => JText (runes t)) l).
Definition spec_value (j : json_spec) : jval :=
  JObj [(lit "lang", JObj [(lit "id", JText (runes (j_id j))); (lit "code2", JText (runes (j_code2 j)));
                           (lit "code3", JText (runes (j_code3 j))); (lit "english", JText (runes (j_english j)));
                           (lit "korean", JText (runes (j_korean j))); (lit "script", JText (runes (j_script j)));
                           (lit "translit", texts (j_translit j))]);
        (lit "config", JObj [(lit "authors", texts (j_authors j)); (lit "stage", JText (runes (j_stage j)))]);
        (lit "test", JArray (map (fun e => JObj [(lit "word", JText (runes (fst e))); (lit "result", JText (runes (snd e)))]) (j_test j)))].

Lemma texts_writes l : writes (json_array json_string l) (texts l).
Proof. apply (array_writes json_string (fun t => JText (runes t))); intros; apply string_writes. Qed.
Lemma object_is fields vals v : Forall2 (fun f v => writes (snd f) v) fields vals ->
  v = JObj (combine (map (fun f => runes (fst f)) fields) vals) -> writes (json_object fields) v.
Proof. intros H ->; apply object_writes; exact H. Qed.
Lemma example_writes e : writes (json_example e) (JObj [(lit "word", JText (runes (fst e))); (lit "result", JText (runes (snd e)))]).
Proof. eapply object_is; [do 2 (constructor; [apply string_writes|]); constructor|reflexivity]. Qed.
Lemma spec_writes j : writes (json_spec_text j) (spec_value j).
Proof.
  eapply object_is.
  - constructor; [|constructor; [|constructor; [|constructor]]]; cbn [snd].
    + eapply object_is; [do 6 (constructor; [apply string_writes|]); constructor; [apply texts_writes|constructor]|reflexivity].
    + eapply object_is; [constructor; [apply texts_writes|]; constructor; [apply string_writes|constructor]|reflexivity].
    + apply array_writes; intros; apply example_writes.
  - reflexivity.
Qed.

Lemma sorted_unique l l' : StronglySorted sle l -> StronglySorted sle l' -> Permutation l l' -> l = l'.
Proof.
  revert l'; induction l as [|x l IH]; intros l' Hs Hs' Hp; [apply Permutation_nil in Hp; auto|].
  destruct l' as [|y l']; [apply Permutation_sym, Permutation_nil in Hp; discriminate|].
  inversion Hs as [|? ? Hs1 Hx]; subst; inversion Hs' as [|? ? Hs1' Hy]; subst.
  assert (x = y) as ->.
  { rewrite Forall_forall in Hx, Hy.
    assert (In x (y :: l')) as [->|H1] by (eapply Permutation_in; [exact Hp|left; reflexivity]); [reflexivity|].
    assert (In y (x :: l)) as [->|H2] by (eapply Permutation_in; [apply Permutation_sym; exact Hp|left; reflexivity]); [reflexivity|].
    apply bytes_le_antisym; [apply Hx|apply Hy]; assumption. }
  f_equal; apply IH; [assumption..|]; apply Permutation_cons_inv with y; exact Hp.
Qed.
Lemma keyed_lookup {A} (m : list (bytes * A)) k v : NoDup (map fst m) -> In (k, v) m -> lookup m k = Some v.
Proof.
  induction m as [|[k' v'] m IH]; intros Hn Hin; [destruct Hin|]; cbn [map fst lookup] in *.
  inversion Hn as [|? ? Hk Hn']; subst; destruct Hin as [E|Hin].
  - injection E as -> ->; rewrite beqb_refl; reflexivity.
  - destruct (beqb k' k) eqn:E; [|apply IH; assumption].
    apply beqb_eq in E; subst k'; exfalso; apply Hk, in_map_iff; exists (k, v); auto.
Qed.

Theorem C74_text : forall version specs translits, NoDup (map fst specs) ->
  exists ms, Permutation ms specs /\ StronglySorted sle (map fst ms) /\
    utf8_text (manifest_text version (specs, translits)) /\
    json_text (runes (manifest_text version (specs, translits)))
      (JObj [(lit "version", JText (runes version));
             (lit "specs", JObj (map (fun e => (runes (fst e), spec_value (snd e))) ms));
             (lit "translits", texts translits)]).
Proof.
  intros version specs translits Hn.
  assert (exists ms, Permutation ms specs /\ map fst ms = sort_strings (map fst specs) /\
    flat_map (fun k => match lookup specs k with Some v => [(k, json_spec_text v)] | None => [] end) (sort_strings (map fst specs)) =
    map (fun e => (fst e, json_spec_text (snd e))) ms) as (ms & Hp & Hm & Ef).
  { assert (exists ms, map fst ms = sort_strings (map fst specs) /\ Permutation ms specs) as (ms & Hm & Hp).
    { destruct (Permutation_map_inv fst specs (Permutation_sym (sort_perm (map fst specs)))) as (ms & Hm & Hp).
      exists ms; split; [auto|apply Permutation_sym; exact Hp]. }
    exists ms; repeat split; [exact Hp|exact Hm|]; rewrite <- Hm; clear Hm.
    assert (forall e, In e ms -> In e specs) as Hin by (intros e He; eapply Permutation_in; eassumption); clear Hp.
    induction ms as [|[k j] ms IH]; [reflexivity|]; cbn [map flat_map fst snd].
    rewrite (keyed_lookup specs k j Hn (Hin _ (or_introl eq_refl))); cbn [app]; f_equal; apply IH; intros e He; apply Hin; right; exact He. }
  exists ms; split; [exact Hp|]; split; [rewrite Hm; apply sort_sorted|].
  assert (writes (json_map json_spec_text specs) (JObj (map (fun e => (runes (fst e), spec_value (snd e))) ms))) as Hw.
  { unfold json_map; rewrite Ef.
    replace (map (fun e => (runes (fst e), spec_value (snd e))) ms)
      with (combine (map (fun f => runes (fst f)) (map (fun e => (fst e, json_spec_text (snd e))) ms)) (map (fun e => spec_value (snd e)) ms))
      by (clear; induction ms as [|e ms IH]; [reflexivity|]; cbn [map combine fst]; rewrite IH; reflexivity).
    apply object_writes; clear; induction ms as [|e ms IH]; constructor; [apply spec_writes|exact IH]. }
  assert (writes (json_object [(lit "version", json_string version); (lit "specs", json_map json_spec_text specs);
                               (lit "translits", json_array json_string translits)])
            (JObj [(lit "version", JText (runes version));
                   (lit "specs", JObj (map (fun e => (runes (fst e), spec_value (snd e))) ms));
                   (lit "translits", texts translits)])) as (t & Ht & E & Hs).
  { eapply object_is; [constructor; [apply string_writes|]; constructor; [exact Hw|]; constructor; [apply texts_writes|constructor]|reflexivity]. }
  assert (manifest_text version (specs, translits) = encode (t ++ [0xA])) as Em.
  { unfold manifest_text; cbn [fst snd]; rewrite E, encode_app; reflexivity. }
  assert (scalars (t ++ [0xA])) as Ha by (apply Forall_app; split; [exact Ht|repeat constructor]).
  rewrite Em; split; [apply encode_utf8_text|]; rewrite (runes_encode _ Ha).
  exists [], t, [0xA]; repeat split; [constructor|repeat constructor; cbn; tauto|exact Hs].
Qed.
Print Assumptions C74_text.

(** Whatever the texts are, no character of the manifest is special in HTML. *)
Definition quiet (b : bytes) : Prop := ~ In 0x26 b /\ ~ In 0x3C b /\ ~ In 0x3E b.
Lemma quiet_nil : quiet [].
Proof. repeat split; intros []. Qed.
Lemma quiet_app a b : quiet a -> quiet b -> quiet (a ++ b).
Proof. intros (H1 & H2 & H3) (G1 & G2 & G3); repeat split; intros H; apply in_app_or in H; tauto. Qed.
Lemma quiet_cons c b : c <> 0x26 -> c <> 0x3C -> c <> 0x3E -> quiet b -> quiet (c :: b).
Proof. intros H1 H2 H3 (G1 & G2 & G3); repeat split; intros [H|H]; congruence || tauto. Qed.
Lemma quiet_join l : Forall quiet l -> quiet (join [0x2C] l).
Proof.
  induction 1 as [|x l Hx H IH]; [apply quiet_nil|]; destruct l as [|y l]; cbn [join] in *; [exact Hx|].
  apply quiet_app; [exact Hx|]; apply quiet_cons; [lia..|exact IH].
Qed.
Lemma quiet_char g : quiet (json_char g).
Proof.
  destruct g as [c size]; unfold json_char.
  assert (forall n, n < 16 -> quiet [hex_digit n]) as Hd
    by (intros n Hn; unfold hex_digit; destruct (n <? 10) eqn:E; apply quiet_cons; try apply quiet_nil; lia).
  destruct (c <? 0x80) eqn:E.
  - destruct (html_safe c) eqn:Eh.
    { unfold html_safe in Eh; cbn [existsb] in Eh; apply quiet_cons; try apply quiet_nil; lia. }
    apply quiet_cons; [lia..|]; destruct ((c =? 0x5C) || (c =? 0x22)) eqn:E1; [apply quiet_cons; try apply quiet_nil; lia|].
    destruct (c =? 0xA); [repeat apply quiet_cons; try apply quiet_nil; cbn; lia|].
    destruct (c =? 0xD); [repeat apply quiet_cons; try apply quiet_nil; cbn; lia|].
    destruct (c =? 0x9); [repeat apply quiet_cons; try apply quiet_nil; cbn; lia|].
    apply quiet_app; [repeat apply quiet_cons; try apply quiet_nil; cbn; lia|].
    apply (quiet_app [_] [_]); apply Hd; [apply N.div_lt_upper_bound; lia|apply N.mod_lt; lia].
  - destruct ((c =? rune_error) && Nat.eqb size 1); [repeat apply quiet_cons; try apply quiet_nil; cbn; lia|].
    destruct ((c =? 0x2028) || (c =? 0x2029)).
    { apply quiet_cons; [lia..|]; apply quiet_app; [repeat apply quiet_cons; try apply quiet_nil; cbn; lia|apply Hd, N.mod_lt; lia]. }
    unfold encode_rune; destruct (c <=? 0x7F) eqn:E1; [lia|]; destruct (c <=? 0x7FF); [repeat apply quiet_cons; try apply quiet_nil; lia|].
    destruct (negb (is_scalar c)); [repeat apply quiet_cons; try apply quiet_nil; lia|].
    destruct (c <=? 0xFFFF); repeat apply quiet_cons; try apply quiet_nil; lia.
Qed.
Lemma quiet_string s : quiet (json_string s).
Proof.
  unfold json_string; apply quiet_cons; [lia..|]; apply quiet_app; [|apply quiet_cons; try apply quiet_nil; lia].
  induction (glyphs s) as [|g gs IH]; [apply quiet_nil|]; cbn [flat_map]; apply quiet_app; [apply quiet_char|exact IH].
Qed.
Lemma quiet_array {A} (f : A -> bytes) l : (forall x, quiet (f x)) -> quiet (json_array f l).
Proof.
  intros H; unfold json_array; apply quiet_cons; [lia..|]; apply quiet_app; [|apply quiet_cons; try apply quiet_nil; lia].
  apply quiet_join; induction l; constructor; auto.
Qed.
Lemma quiet_object fields : Forall (fun f => quiet (snd f)) fields -> quiet (json_object fields).
Proof.
  intros H; unfold json_object; apply quiet_cons; [lia..|]; apply quiet_app; [|apply quiet_cons; try apply quiet_nil; lia].
  apply quiet_join; induction H; constructor; [|assumption]; apply quiet_app; [apply quiet_string|]; apply quiet_cons; [lia..|assumption].
Qed.
Theorem C74_html : forall version specs translits c, In c (manifest_text version (specs, translits)) -> c <> 0x26 /\ c <> 0x3C /\ c <> 0x3E.
Proof.
  intros version specs translits c Hc; assert (quiet (manifest_text version (specs, translits))) as (H1 & H2 & H3); [|repeat split; intros ->; auto].
  unfold manifest_text; cbn [fst snd]; apply quiet_app; [|apply quiet_cons; try apply quiet_nil; lia].
  apply quiet_object; repeat apply Forall_cons; try apply Forall_nil; cbn [snd]; try apply quiet_string; try (apply quiet_array; apply quiet_string).
  unfold json_map; apply quiet_object; apply Forall_flat_map, Forall_forall; intros k _; destruct (lookup specs k) as [j|]; constructor; [|constructor].
  cbn [snd]; unfold json_spec_text; apply quiet_object; repeat apply Forall_cons; try apply Forall_nil; cbn [snd].
  - apply quiet_object; repeat apply Forall_cons; try apply Forall_nil; cbn [snd]; try apply quiet_string; apply quiet_array, quiet_string.
  - apply quiet_object; repeat apply Forall_cons; try apply Forall_nil; cbn [snd]; try apply quiet_string; apply quiet_array, quiet_string.
  - apply quiet_array; intros e; apply quiet_object; repeat apply Forall_cons; try apply Forall_nil; apply quiet_string.
Qed.
Print Assumptions C74_html.

(** The texts of a description *)
Definition spec_texts (j : json_spec) : list bytes :=
  [j_id j; j_code2 j; j_code3 j; j_english j; j_korean j; j_script j; j_stage j] ++
  j_translit j ++ j_authors j ++ map fst (j_test j) ++ map snd (j_test j).
Lemma described_texts src s0 j file : In (file, src) bundled_files -> parse_spec choices0 src = Ok s0 -> described s0 j -> Forall utf8_text (spec_texts j).
Proof.
  intros Hin E0 (D1 & D2 & D3 & D4 & D5 & D6 & D7 & D8 & D9).
  pose proof bundled_fits as Hf; rewrite forallb_forall in Hf; specialize (Hf _ Hin).
  unfold file_fits in Hf; cbn [fst snd] in Hf; rewrite E0 in Hf; apply andb_true_iff in Hf; destruct Hf as [_ Hf].
  apply andb_true_iff in Hf; destruct Hf as [_ Hf]; apply andb_true_iff in Hf; destruct Hf as [_ Hf].
  apply andb_true_iff in Hf; destruct Hf as [Hf _]; unfold spec_described in Hf; apply andb_true_iff in Hf; destruct Hf as [Hf _]; rewrite forallb_forall in Hf.
  apply Forall_forall; intros x Hx; apply valid_utf8_text, Hf; unfold spec_texts in Hx.
  rewrite <- D2; cbn [fst snd]; rewrite <- D1, <- D3, <- D4, <- D5, <- D6, <- D7, <- D8, <- D9; exact Hx.
Qed.

Theorem C74_manifest : forall c order version,
  (forall lang, choices_ok (c lang)) -> (forall l, Permutation l (order l)) ->
  exists specs translits ms, manifest bundled_files c order = Ok (specs, translits) /\
    let text := manifest_text version (specs, translits) in
    utf8_text text /\
    json_text (runes text)
      (JObj [(lit "version", JText (runes version));
             (lit "specs", JObj (map (fun e => (runes (fst e), spec_value (snd e))) ms));
             (lit "translits", texts translits)]) /\
    map fst ms = list_langs bundled_files /\
    (forall lang j, In (lang, j) ms -> utf8_text lang /\ Forall utf8_text (spec_texts j) /\
       exists src s0, lookup bundled_files (specs_dir ++ lang ++ ext) = Some src /\ parse_spec choices0 src = Ok s0 /\ described s0 j) /\
    Forall utf8_text translits.
Proof.
  intros c order version Hc Ho; destruct (C61_manifest c order Hc Ho) as (specs & translits & E & Hp & Hn & Hs & Hn' & Ht).
  destruct (C74_text version specs translits Hn) as (ms & Hpm & Hsorted & Hu & Hj).
  exists specs, translits, ms; split; [exact E|]; cbv zeta; split; [exact Hu|]; split; [exact Hj|].
  assert (map fst ms = list_langs bundled_files) as Hl.
  { apply sorted_unique; [exact Hsorted|apply sort_sorted|]; eapply perm_trans; [apply Permutation_map; exact Hpm|exact Hp]. }
  split; [exact Hl|].
  assert (forall lang j, In (lang, j) ms -> utf8_text lang /\ Forall utf8_text (spec_texts j) /\
       exists src s0, lookup bundled_files (specs_dir ++ lang ++ ext) = Some src /\ parse_spec choices0 src = Ok s0 /\ described s0 j) as Hms.
  { intros lang j Hin; destruct (Hs lang j (Permutation_in _ Hpm Hin)) as (Hid & src & s0 & Es & E0 & Hd).
    pose proof (described_texts src s0 j _ (PropBundled.lookup_in _ _ _ Es) E0 Hd) as Hf.
    split; [|split; [exact Hf|exists src, s0; auto]]; inversion Hf; subst; assumption. }
  split; [exact Hms|]; apply Forall_forall; intros t Hin; apply Ht in Hin; destruct Hin as (lang & src & s0 & Es & E0 & Hin).
  pose proof (described_texts src s0 (json_of s0) _ (PropBundled.lookup_in _ _ _ Es) E0) as Hf.
  assert (described s0 (json_of s0)) as Hd by (unfold described, json_of; cbn; rewrite <- surjective_pairing; auto 20).
  specialize (Hf Hd); rewrite Forall_forall in Hf; apply Hf; unfold spec_texts; apply in_or_app; right; apply in_or_app; left; exact Hin.
Qed.
Print Assumptions C74_unique.
Print Assumptions C74_manifest.

(** Quotes, a backslash, a line break, a bell, an angle bracket, a line separator and a byte
    that is no text; a manifest of two languages. *)
Example C74_example :
  json_string (lit "a""b\<" ++ [10; 7] ++ encode [0x2028] ++ [0xFF] ++ lit "엑") =
    lit """a\""b\\\u003c\n\u0007\u2028\ufffd엑""" /\
  map_res (manifest_text (lit "v1"))
    (manifest [(lit "specs/b.hsl", ex_hsl2 (lit "b") (lit "t")); (lit "specs/a.hsl", ex_hsl2 (lit "a") (lit "t"))] (fun _ => choices0) (fun l => l)) =
  Ok (lit "{""version"":""v1"",""specs"":{" ++
      lit """a"":{""lang"":{""id"":""a"",""code2"":""xx"",""code3"":""xxx"",""english"":""X"",""korean"":""엑스"",""script"":""Latn"",""translit"":[""t""]},""config"":{""authors"":[],""stage"":""draft""},""test"":[{""word"":""x"",""result"":""엑""}]}," ++
      lit """b"":{""lang"":{""id"":""b"",""code2"":""xx"",""code3"":""xxx"",""english"":""X"",""korean"":""엑스"",""script"":""Latn"",""translit"":[""t""]},""config"":{""authors"":[],""stage"":""draft""},""test"":[{""word"":""x"",""result"":""엑""}]}" ++
      lit "},""translits"":[""t""]}" ++ [10]).
Proof. split; vm_compute; reflexivity. Qed.
