(** The size of the result: C76. *)
From Coq Require Import Lia.
From Verif Require Import GoBase WebResult.

(** ** C76 The result is as large as fits *)

Definition measure (st : sizing) : nat :=
  3 * (sz_hi st - sz_lo st) + (if Nat.eqb (sz_mid st) (sz_hi st) then 1 else 0) +
  (if Nat.eqb (sz_mid st) (sz_lo st) && Nat.ltb 1 (sz_hi st - sz_lo st) then 1 else 0).
Definition between (st : sizing) : Prop := sz_lo st <= sz_mid st <= sz_hi st.
Lemma half_bounds x : 2 * (x / 2) <= x < 2 * (x / 2) + 2.
Proof. pose proof (Nat.div_mod x 2 ltac:(lia)); pose proof (Nat.mod_upper_bound x 2 ltac:(lia)); lia. Qed.
Lemma update_cases fits lo hi mid : let st := {| sz_lo := lo; sz_hi := hi; sz_mid := mid |} in
  (fits mid = false /\ exists m, sz_update fits st = {| sz_lo := lo; sz_hi := mid; sz_mid := m |} /\ (lo <= mid -> lo <= m /\ 2 * m <= mid + lo /\ mid + lo < 2 * m + 2)) \/
  (fits mid = true /\ (hi - lo <= 1 \/ mid = hi) /\ sz_update fits st = st) \/
  (fits mid = true /\ 1 < hi - lo /\ mid <> hi /\ exists m, sz_update fits st = {| sz_lo := mid; sz_hi := hi; sz_mid := m |} /\
     (mid <= hi -> hi + mid <= 2 * m /\ 2 * m <= hi + mid + 1)).
Proof.
  intros st; unfold sz_update, st; destruct (fits mid) eqn:E; cbn [negb]; [right|left].
  - destruct (Nat.leb_spec (hi - lo) 1); [left; auto|]; destruct (Nat.eqb_spec mid hi); [left; auto|right].
    repeat (split; [auto; lia|]); eexists; split; [reflexivity|]; intros Hm; pose proof (half_bounds (hi - mid + 1)); lia.
  - split; [reflexivity|]; eexists; split; [reflexivity|]; intros Hm; pose proof (half_bounds (mid - lo)); lia.
Qed.

Lemma measure_less fits st : between st -> sz_mid (sz_update fits st) <> sz_mid st ->
  between (sz_update fits st) /\ measure (sz_update fits st) < measure st.
Proof.
  destruct st as [lo hi mid]; unfold between, measure; cbn [sz_lo sz_hi sz_mid]; intros Hb.
  destruct (update_cases fits lo hi mid) as [(_ & m & -> & Hm)|[(_ & _ & ->)|(_ & H1 & H2 & m & -> & Hm)]]; cbn [sz_lo sz_hi sz_mid]; intros Hc; [|lia|].
  - specialize (Hm ltac:(lia)); split; [lia|].
    destruct (Nat.eqb_spec m mid), (Nat.eqb_spec m lo), (Nat.ltb_spec 1 (mid - lo)), (Nat.eqb_spec mid hi), (Nat.eqb_spec mid lo), (Nat.ltb_spec 1 (hi - lo)); cbn [andb]; lia.
  - specialize (Hm ltac:(lia)); split; [lia|].
    destruct (Nat.eqb_spec m hi), (Nat.eqb_spec m mid), (Nat.ltb_spec 1 (hi - mid)), (Nat.eqb_spec mid hi), (Nat.eqb_spec mid lo), (Nat.ltb_spec 1 (hi - lo)); cbn [andb]; lia.
Qed.

(** What is known while it searches: what is below fits, what is above does not. *)
Definition known (n : nat) (fits : nat -> bool) (st : sizing) : Prop :=
  sz_hi st < n /\ (sz_lo st = 0 \/ fits (sz_lo st) = true) /\ (sz_hi st = n - 1 \/ fits (sz_hi st) = false) /\
  (sz_hi st - sz_lo st <= 1 -> fits (sz_hi st) = false \/ sz_mid st = sz_hi st).
Definition monotone (fits : nat -> bool) : Prop := forall i j, i <= j -> fits j = true -> fits i = true.
Definition best (n : nat) (fits : nat -> bool) (i : nat) : Prop :=
  i < n /\ (fits i = true \/ i = 0) /\ forall j, j < n -> fits j = true -> j <= i.

Lemma known_update n fits st : between st -> known n fits st -> known n fits (sz_update fits st).
Proof.
  destruct st as [lo hi mid]; unfold between, known; cbn [sz_lo sz_hi sz_mid]; intros Hb (H1 & H2 & H3 & H4).
  destruct (update_cases fits lo hi mid) as [(E & m & -> & Hm)|[(_ & _ & ->)|(E & E1 & E2 & m & -> & Hm)]]; cbn [sz_lo sz_hi sz_mid]; [|auto|].
  - repeat (split; [auto; lia|]); auto.
  - repeat (split; [auto; lia|]); intros H; specialize (Hm ltac:(lia)); right; lia.
Qed.
Lemma stop_best n fits st : monotone fits -> between st -> known n fits st -> sz_mid (sz_update fits st) = sz_mid st ->
  best n fits (sz_mid st) /\ sz_update fits (sz_update fits st) = sz_update fits st.
Proof.
  intros Hmono; destruct st as [lo hi mid]; unfold between, known, best; cbn [sz_lo sz_hi sz_mid]; intros Hb (H1 & H2 & H3 & H4).
  destruct (update_cases fits lo hi mid) as [(E & m & -> & Hm)|[(E & Hs & ->)|(E & E1 & E2 & m & -> & Hm)]]; cbn [sz_lo sz_hi sz_mid]; intros Hc.
  - specialize (Hm ltac:(lia)); subst m; assert (mid = lo) as -> by lia.
    assert (lo = 0) as -> by (destruct H2 as [H2|H2]; [exact H2|congruence]).
    split; [|unfold sz_update; rewrite E; reflexivity]; split; [lia|]; split; [auto|].
    intros j Hj Hf; rewrite (Hmono 0 j ltac:(lia) Hf) in E; discriminate.
  - split; [|unfold sz_update; rewrite E; destruct (Nat.leb_spec (hi - lo) 1); [reflexivity|]; destruct (Nat.eqb_spec mid hi); [reflexivity|lia]].
    split; [lia|]; split; [auto|]; intros j Hj Hf; destruct (Nat.le_gt_cases j mid) as [|Hlt]; [assumption|exfalso].
    assert (mid <> hi -> fits hi = false) as Hhi.
    { intros Hne; destruct Hs as [Hs|]; [|contradiction]; destruct (H4 Hs) as [|]; [assumption|contradiction]. }
    destruct (Nat.eq_dec mid hi) as [->|Hne].
    + destruct H3 as [->|H3]; [lia|congruence].
    + rewrite (Hmono hi j) in Hhi; [discriminate (Hhi Hne)|lia|exact Hf].
  - specialize (Hm ltac:(lia)); lia.
Qed.

Theorem C76_best : forall n fits st, 3 <= n -> monotone fits -> sz_mid st < n ->
  exists k st', sized fits (sz_reset n st) k st' /\ k <= 3 * n /\ best n fits (sz_mid st') /\
    (forall k2 st2, sized fits st' k2 st2 -> st2 = st') /\
    (forall k2 st2, sized fits (sz_reset n st) k2 st2 -> k2 = k /\ st2 = st').
Proof.
  intros n fits st Hn Hmono Hst; set (st0 := sz_reset n st).
  assert (between st0 /\ known n fits st0 /\ measure st0 < 3 * n) as (Hb & Hk & Hm).
  { unfold between, known, measure, st0; cbn [sz_reset sz_lo sz_hi sz_mid]; repeat split; try (left; lia); try lia.
    destruct (Nat.eqb_spec (sz_mid st) (n - 1)), (Nat.eqb_spec (sz_mid st) 0), (Nat.ltb_spec 1 (n - 1 - 0)); cbn [andb]; lia. }
  clearbody st0; clear Hst st.
  assert (exists k st', sized fits st0 k st' /\ k <= S (measure st0) /\ best n fits (sz_mid st') /\ sz_update fits st' = st') as (k & st' & H1 & H2 & H3 & H4).
  { clear Hm; remember (measure st0) as m eqn:Em; assert (measure st0 <= m) as Hm by lia; clear Em; revert st0 Hb Hk Hm; induction m as [|m IH]; intros st0 Hb Hk Hm;
      (destruct (Nat.eq_dec (sz_mid (sz_update fits st0)) (sz_mid st0)) as [E|E];
       [destruct (stop_best n fits st0 Hmono Hb Hk E) as [B1 B2]; exists 1, (sz_update fits st0); split; [apply sized_stop; exact E|split; [lia|split; [rewrite E; exact B1|exact B2]]]|
        destruct (measure_less fits st0 Hb E) as [Hb' Hl]]).
    - lia.
    - destruct (IH (sz_update fits st0) Hb' (known_update n fits st0 Hb Hk)) as (k & st' & G1 & G2 & G3 & G4); [lia|].
      exists (S k), st'; split; [apply sized_again; assumption|split; [lia|split; [exact G3|exact G4]]]. }
  exists k, st'; split; [exact H1|split; [lia|split; [exact H3|split; [|intros k2 st2 H; split]]]].
  - intros k2 st2 Hs; inversion Hs as [? E|? ? ? E]; subst; [exact H4|rewrite H4 in E; contradiction E; reflexivity].
  - clear - H1 H; revert k2 st2 H; induction H1 as [st E|st k st' E H1 IH]; intros k2 st2 H; inversion H; subst; try congruence.
    f_equal; eapply IH; eassumption.
  - clear - H1 H; revert k2 st2 H; induction H1 as [st E|st k st' E H1 IH]; intros k2 st2 H; inversion H; subst; try congruence.
    eapply IH; eassumption.
Qed.
Print Assumptions C76_best.

(** With two sizes it would not do: from the smaller one it never tries the other. *)
Theorem C76_two_sizes : exists fits st, monotone fits /\ sz_mid st < 2 /\ forall k st', sized fits (sz_reset 2 st) k st' -> ~ best 2 fits (sz_mid st').
Proof.
  exists (fun _ => true), {| sz_lo := 0; sz_hi := 1; sz_mid := 0 |}; split; [intros i j; auto|]; split; [cbn; lia|].
  intros k st' H (_ & _ & Hb); specialize (Hb 1 ltac:(lia) eq_refl); inversion H as [? E|? ? ? E]; subst; cbn in *; [lia|contradiction E; reflexivity].
Qed.
Print Assumptions C76_two_sizes.

(** A long result after a short one, and a window that has grown *)
Example C76_example :
  let fits := fun i => Nat.leb i 1 in
  sized fits (sz_reset 5 {| sz_lo := 0; sz_hi := 4; sz_mid := 4 |}) 5 {| sz_lo := 1; sz_hi := 2; sz_mid := 1 |} /\
  sized (fun i => Nat.leb i 3) (sz_reset 5 {| sz_lo := 1; sz_hi := 2; sz_mid := 1 |}) 4 {| sz_lo := 3; sz_hi := 4; sz_mid := 3 |}.
Proof.
  split.
  - do 4 (apply sized_again; [cbn; discriminate|]); apply sized_stop; reflexivity.
  - do 3 (apply sized_again; [cbn; discriminate|]); apply sized_stop; reflexivity.
Qed.
