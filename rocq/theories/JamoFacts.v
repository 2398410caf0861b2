(** Facts about internal/jamo, from laws of go_hangul. *)
From Verif Require Import GoBase Utf8 Utf8Facts Jamo.
Open Scope N_scope.

(** ** Specification *)

(** The syllable with the given lead, medial and tail numbers (Unicode, chapter 3.12). *)
Definition syllable (li mi ti : N) : rune := 0xAC00 + (li * 21 + mi) * 28 + ti.
Definition is_syllable (r : rune) : bool := (0xAC00 <=? r) && (r <=? 0xD7A3).
Definition lead (li : N) : rune := nth (N.to_nat li) compat_leads 0.
Definition medial (mi : N) : rune := 0x314F + mi.
(** The tails; number 0 is no tail. *)
Definition tail (ti : N) : rune := nth (N.to_nat ti) compat_tails 0.

(** A syllable written as Jamo: lead, medial and hyphen-prefixed tail. *)
Definition decompose (r : rune) : list rune :=
  let i := r - 0xAC00 in
  let ti := i mod 28 in
  lead (i / 588) :: medial ((i mod 588) / 28) :: (if ti =? 0 then [] else [0x2D; tail ti]).

(** What go_hangul is assumed to do. *)
Record hangul_laws (H : hangul_lib) : Prop := {
  (** compatibility leads and tails are consonants, medials are vowels *)
  law_lead : forall r, In r compat_leads ->
    hl_is_hangul H r = true /\ hl_is_jaeum H r = true /\ hl_is_moeum H r = false;
  law_tail : forall r, In r compat_tails -> r <> 0 ->
    hl_is_hangul H r = true /\ hl_is_jaeum H r = true /\ hl_is_moeum H r = false;
  law_medial : forall mi, mi < 21 ->
    hl_is_hangul H (medial mi) = true /\ hl_is_jaeum H (medial mi) = false
    /\ hl_is_moeum H (medial mi) = true;
  (** the Hangul that is neither consonant nor vowel are the syllables *)
  law_syllable : forall r,
    hl_is_hangul H r && negb (hl_is_jaeum H r) && negb (hl_is_moeum H r) = is_syllable r;
  (** Join composes *)
  law_join : forall li mi ti, li < 19 -> mi < 21 -> ti < 28 ->
    hl_join H (lead li) (medial mi) (tail ti) = syllable li mi ti;
  (** Join undoes Split *)
  law_split : forall r, is_syllable r = true ->
    let '(l, m, t) := hl_split H r in l <> 0 /\ m <> 0 /\ hl_join H l m t = r;
  (** Split gives parts that join with each other and with compatibility Jamo *)
  law_parts : exists L M T : rune -> Prop,
    (forall r, In r compat_leads -> L r) /\ (forall mi, mi < 21 -> M (medial mi)) /\
    (forall r, In r compat_tails -> T r) /\
    (forall r, is_syllable r = true -> let '(l, m, t) := hl_split H r in L l /\ M m /\ T t) /\
    (forall l m t, L l -> M m -> T t -> is_syllable (hl_join H l m t) = true);
  (** Join never gives a lone Jamo or a hyphen *)
  law_join_any : forall l m t, hl_join H l m t <> 0x2D /\
    (hl_is_hangul H (hl_join H l m t) = true -> is_syllable (hl_join H l m t) = true);
  (** the replacement character is not Hangul *)
  law_fffd : hl_is_hangul H rune_error = false
}.

(** ** The concrete library satisfies the laws *)
Lemma pos_in_range x l i k : pos_in x l i = Some k -> i <= k < i + N.of_nat (length l).
Proof.
  revert i; induction l as [|y l IH]; intros i; cbn [pos_in length]; [discriminate|].
  destruct (x =? y); [intros E; injection E as <-; lia|].
  intros E; apply IH in E; lia.
Qed.
Lemma lead_idx_range r k : lead_idx r = Some k -> k < 19.
Proof.
  unfold lead_idx; destruct (in_rg 0x1100 0x1112 r) eqn:E.
  - intros H; injection H as <-; unfold in_rg in E; lia.
  - intros H; apply pos_in_range in H; cbn in H; lia.
Qed.
Lemma medial_idx_range r k : medial_idx r = Some k -> k < 21.
Proof.
  unfold medial_idx; destruct (in_rg 0x1161 0x1175 r) eqn:E; [|destruct (in_rg 0x314F 0x3163 r) eqn:E2].
  - intros H; injection H as <-; unfold in_rg in E; lia.
  - intros H; injection H as <-; unfold in_rg in E2; lia.
  - discriminate.
Qed.
Lemma tail_idx_range r k : tail_idx r = Some k -> k < 28.
Proof.
  unfold tail_idx; destruct (in_rg 0x11A8 0x11C2 r) eqn:E.
  - intros H; injection H as <-; unfold in_rg in E; lia.
  - intros H; apply pos_in_range in H; cbn in H; lia.
Qed.
Lemma syllable_is li mi ti : li < 19 -> mi < 21 -> ti < 28 -> is_syllable (syllable li mi ti) = true.
Proof. intros; unfold is_syllable, syllable; lia. Qed.

Lemma nlist_all (f : N -> bool) (n : nat) :
  forallb (fun i => f (N.of_nat i)) (seq 0 n) = true -> forall k, k < N.of_nat n -> f k = true.
Proof.
  intros H k Hk; rewrite forallb_forall in H.
  specialize (H (N.to_nat k)); rewrite N2Nat.id in H; apply H, in_seq; lia.
Qed.
Lemma in_forallb (f : N -> bool) l : forallb f l = true -> forall r, In r l -> f r = true.
Proof. intros H r; rewrite forallb_forall in H; apply H. Qed.

Definition opt_eqb (a : option N) (b : N) : bool := match a with Some x => x =? b | None => false end.
Lemma opt_eqb_eq a b : opt_eqb a b = true -> a = Some b.
Proof. destruct a; cbn; [intros H; apply N.eqb_eq in H; subst; reflexivity|discriminate]. Qed.

Lemma lead_idx_lead li : li < 19 -> lead_idx (lead li) = Some li.
Proof.
  intros H; apply opt_eqb_eq; revert li H.
  apply (nlist_all (fun li => opt_eqb (lead_idx (lead li)) li) 19); vm_compute; reflexivity.
Qed.
Lemma medial_idx_medial mi : mi < 21 -> medial_idx (medial mi) = Some mi.
Proof.
  intros H; apply opt_eqb_eq; revert mi H.
  apply (nlist_all (fun mi => opt_eqb (medial_idx (medial mi)) mi) 21); vm_compute; reflexivity.
Qed.
Lemma tail_idx_tail ti : ti < 28 -> tail_idx (tail ti) = Some ti.
Proof.
  intros H; apply opt_eqb_eq; revert ti H.
  apply (nlist_all (fun ti => opt_eqb (tail_idx (tail ti)) ti) 28); vm_compute; reflexivity.
Qed.

Lemma gh_split_parts r :
  is_syllable r = true ->
  let '(l, m, t) := gh_split r in
  lead_idx l = Some ((r - 0xAC00) / 588) /\ medial_idx m = Some (((r - 0xAC00) mod 588) / 28)
  /\ tail_idx t = Some ((r - 0xAC00) mod 28) /\ l <> 0 /\ m <> 0.
Proof.
  unfold is_syllable; intros H; unfold gh_split.
  set (i := r - 0xAC00); assert (i < 11172) as Hi by lia.
  assert (i / 588 < 19) as H1 by lia; assert ((i mod 588) / 28 < 21) as H2 by lia.
  assert (i mod 28 < 28) as H3 by lia.
  unfold lead_idx, medial_idx, tail_idx.
  assert (in_rg 0x1100 0x1112 (0x1100 + i / 588) = true) as -> by (unfold in_rg; lia).
  assert (in_rg 0x1161 0x1175 (0x1161 + i mod 588 / 28) = true) as -> by (unfold in_rg; lia).
  split; [f_equal; lia|]; split; [f_equal; lia|]; split; [|split; lia].
  destruct (i mod 28 =? 0) eqn:E.
  - assert (in_rg 0x11A8 0x11C2 0 = false) as -> by reflexivity.
    cbn [pos_in compat_tails N.eqb]; f_equal; lia.
  - assert (in_rg 0x11A8 0x11C2 (0x11A7 + i mod 28) = true) as -> by (unfold in_rg; lia).
    f_equal; lia.
Qed.

Lemma go_hangul_laws : hangul_laws go_hangul.
Proof.
  constructor; cbn [hl_is_hangul hl_is_jaeum hl_is_moeum hl_join hl_split go_hangul].
  - intros r Hr.
    assert ((gh_is_hangul r && gh_is_jaeum r && negb (gh_is_moeum r)) = true) as E.
    { revert r Hr; apply in_forallb; vm_compute; reflexivity. }
    destruct (gh_is_hangul r), (gh_is_jaeum r), (gh_is_moeum r); try discriminate; auto.
  - intros r Hr Hn.
    assert (((r =? 0) || (gh_is_hangul r && gh_is_jaeum r && negb (gh_is_moeum r))) = true) as E.
    { revert r Hr Hn; intros r Hr _; revert r Hr.
      apply (in_forallb (fun r => (r =? 0) || (gh_is_hangul r && gh_is_jaeum r && negb (gh_is_moeum r)))).
      vm_compute; reflexivity. }
    assert (r =? 0 = false) as Hz by lia; rewrite Hz in E.
    destruct (gh_is_hangul r), (gh_is_jaeum r), (gh_is_moeum r); try discriminate; auto.
  - intros mi Hmi; unfold medial, gh_is_hangul, gh_is_jaeum, gh_is_moeum, in_rg; lia.
  - intros r; unfold gh_is_hangul, gh_is_jaeum, gh_is_moeum, is_syllable, in_rg; lia.
  - intros li mi ti H1 H2 H3; unfold gh_join.
    rewrite lead_idx_lead, medial_idx_medial, tail_idx_tail by assumption; reflexivity.
  - intros r Hr; pose proof (gh_split_parts r Hr) as H; destruct (gh_split r) as [[l m] t].
    destruct H as (H1 & H2 & H3 & H4 & H5); repeat split; try assumption.
    unfold gh_join; rewrite H1, H2, H3; unfold is_syllable in Hr; lia.
  - exists (fun r => lead_idx r <> None), (fun r => medial_idx r <> None), (fun r => tail_idx r <> None).
    assert (forall (f : N -> option N) l, forallb (fun r => match f r with Some _ => true | None => false end) l = true ->
              forall r, In r l -> f r <> None) as Hin.
    { intros f l H r Hr; pose proof (in_forallb _ _ H r Hr) as E; cbv beta in E; destruct (f r); [discriminate|discriminate E]. }
    split; [apply Hin; vm_compute; reflexivity|]; split;
      [intros mi Hmi; rewrite medial_idx_medial by exact Hmi; discriminate|].
    split; [apply Hin; vm_compute; reflexivity|]; split.
    + intros r Hr; pose proof (gh_split_parts r Hr) as H; destruct (gh_split r) as [[l m] t].
      destruct H as (-> & -> & -> & _); repeat split; discriminate.
    + intros l m t Hl Hm Ht; unfold gh_join.
      destruct (lead_idx l) eqn:E1; [|contradiction]; destruct (medial_idx m) eqn:E2; [|contradiction].
      destruct (tail_idx t) eqn:E3; [|contradiction].
      apply (syllable_is n n0 n1); eauto using lead_idx_range, medial_idx_range, tail_idx_range.
  - intros l m t; unfold gh_join.
    destruct (lead_idx l) eqn:E1; [|split; [discriminate|discriminate]].
    destruct (medial_idx m) eqn:E2; [|split; [discriminate|discriminate]].
    destruct (tail_idx t) eqn:E3; [|split; [discriminate|discriminate]].
    apply lead_idx_range in E1; apply medial_idx_range in E2; apply tail_idx_range in E3.
    pose proof (syllable_is n n0 n1 E1 E2 E3) as Hs; unfold syllable in Hs;
      unfold is_syllable in *; split; [lia|intros; lia].
  - reflexivity.
Qed.

(** ** The composer *)
Section Composer.
Context (H : hangul_lib) (laws : hangul_laws H).

(** With an empty buffer the score does not matter. *)
Lemma compose_score rs t sc sc' :
  compose_loop H rs t sc lmt0 = compose_loop H rs t sc' lmt0.
Proof.
  revert t sc sc'; induction rs as [|ch rs IH]; intros t sc sc'; cbn [compose_loop]; [reflexivity|].
  change (write H lmt0) with (@nil rune); cbn [app].
  destruct (ch =? 0x2D); [apply IH|].
  destruct (negb (hl_is_hangul H ch)); [f_equal; apply IH|].
  destruct (negb (hl_is_jaeum H ch) && negb (hl_is_moeum H ch)); [reflexivity|].
  set (s' := if hl_is_moeum H ch then 1%nat else if t then 2%nat else 0%nat).
  destruct (s' <=? sc)%nat, (s' <=? sc')%nat; reflexivity.
Qed.

(** C31: a non-Hangul character separates. *)
Lemma compose_split_gen a c b t sc buf :
  hl_is_hangul H c = false -> c <> 0x2D ->
  compose_loop H (a ++ c :: b) t sc buf
  = compose_loop H a t sc buf ++ c :: compose_loop H b false 0 lmt0.
Proof.
  intros Hc Hd; revert t sc buf; induction a as [|ch a IH]; intros t sc buf.
  - cbn [app compose_loop]; assert (c =? 0x2D = false) as -> by lia; rewrite Hc; cbn [negb].
    rewrite (compose_score b false sc 0); reflexivity.
  - cbn [app compose_loop].
    destruct (ch =? 0x2D); [apply IH|].
    destruct (negb (hl_is_hangul H ch)); [rewrite IH, <- app_assoc; reflexivity|].
    destruct (negb (hl_is_jaeum H ch) && negb (hl_is_moeum H ch)); [rewrite IH, <- app_assoc; reflexivity|].
    set (s' := if hl_is_moeum H ch then 1%nat else if t then 2%nat else 0%nat).
    destruct (s' <=? sc)%nat; rewrite IH; [rewrite <- app_assoc|]; reflexivity.
Qed.
Lemma compose_split a c b :
  hl_is_hangul H c = false -> c <> 0x2D ->
  compose_runes H (a ++ c :: b) = compose_runes H a ++ c :: compose_runes H b.
Proof. apply compose_split_gen. Qed.

(** C29: reading back decomposed syllables. *)
Lemma lead_nonzero li : li < 19 -> lead li <> 0 /\ In (lead li) compat_leads.
Proof.
  intros Hl; split.
  - assert ((negb (lead li =? 0)) = true) as E.
    { revert li Hl; apply (nlist_all (fun li => negb (lead li =? 0)) 19); vm_compute; reflexivity. }
    lia.
  - apply nth_In; cbn; lia.
Qed.
Lemma tail_nonzero ti : 0 < ti -> ti < 28 -> tail ti <> 0 /\ In (tail ti) compat_tails.
Proof.
  intros H0 Hl; split.
  - assert (((ti =? 0) || negb (tail ti =? 0)) = true) as E.
    { revert ti Hl H0; intros ti Hl _; revert ti Hl.
      apply (nlist_all (fun ti => (ti =? 0) || negb (tail ti =? 0)) 28); vm_compute; reflexivity. }
    lia.
  - apply nth_In; cbn; lia.
Qed.

Lemma not_hyphen r : In r compat_leads \/ In r compat_tails \/ (exists mi, mi < 21 /\ r = medial mi) ->
  r =? 0x2D = false.
Proof.
  intros Hr; assert (forall l, forallb (fun r => negb (r =? 0x2D)) l = true -> In r l -> r =? 0x2D = false) as Hin.
  { intros l Hl Hi; pose proof (in_forallb _ _ Hl r Hi) as E; cbv beta in E; destruct (r =? 0x2D); [discriminate|reflexivity]. }
  destruct Hr as [Hr|[Hr|(mi & Hmi & ->)]].
  - revert Hr; apply Hin; vm_compute; reflexivity.
  - revert Hr; apply Hin; vm_compute; reflexivity.
  - unfold medial; lia.
Qed.

Lemma read_lead li rs sc buf :
  li < 19 ->
  compose_loop H (lead li :: rs) false sc buf = write H buf ++ compose_loop H rs false 0 (lead li, 0, 0).
Proof.
  intros Hl; destruct (lead_nonzero li Hl) as [Hn Hin]; cbn [compose_loop].
  rewrite not_hyphen by (left; exact Hin).
  destruct (law_lead H laws (lead li) Hin) as (-> & -> & ->); reflexivity.
Qed.
Lemma read_medial mi rs l :
  mi < 21 ->
  compose_loop H (medial mi :: rs) false 0 (l, 0, 0) = compose_loop H rs false 1 (l, medial mi, 0).
Proof.
  intros Hm; cbn [compose_loop].
  rewrite not_hyphen by (right; right; exists mi; auto).
  destruct (law_medial H laws mi Hm) as (-> & -> & ->); reflexivity.
Qed.
Lemma read_tail ti rs l m :
  0 < ti -> ti < 28 ->
  compose_loop H (0x2D :: tail ti :: rs) false 1 (l, m, 0) = compose_loop H rs false 2 (l, m, tail ti).
Proof.
  intros H0 Hl; destruct (tail_nonzero ti H0 Hl) as [Hn Hin]; cbn [compose_loop].
  change (0x2D =? 0x2D) with true; cbv iota.
  rewrite not_hyphen by (right; left; exact Hin).
  destruct (law_tail H laws (tail ti) Hin Hn) as (-> & -> & ->); reflexivity.
Qed.

Lemma write_full li mi t :
  li < 19 -> mi < 21 -> write H (lead li, medial mi, t) = [hl_join H (lead li) (medial mi) t].
Proof.
  intros H1 H2; unfold write, is_lmt0.
  destruct (lead_nonzero li H1) as [Hn _].
  assert (lead li =? 0 = false) as -> by lia.
  assert (medial mi =? 0 = false) as -> by (unfold medial; lia); reflexivity.
Qed.

Lemma compose_decomposed s sc buf :
  Forall (fun r => is_syllable r = true) s ->
  compose_loop H (flat_map decompose s) false sc buf = write H buf ++ s.
Proof.
  intros Hs; revert sc buf; induction Hs as [|r s Hr Hs IH]; intros sc buf; cbn [flat_map].
  - cbn [compose_loop]; rewrite app_nil_r; reflexivity.
  - unfold decompose; set (i := r - 0xAC00).
    assert (i < 11172) as Hi by (unfold is_syllable in Hr; lia).
    assert (i / 588 < 19) as H1 by lia; assert ((i mod 588) / 28 < 21) as H2 by lia.
    assert (i mod 28 < 28) as H3 by lia.
    cbn [app]; rewrite read_lead by exact H1; f_equal.
    rewrite read_medial by exact H2.
    assert (r = syllable (i / 588) (i mod 588 / 28) (i mod 28)) as Er
      by (unfold syllable; unfold is_syllable in Hr; lia).
    destruct (i mod 28 =? 0) eqn:E.
    + cbn [app]; rewrite IH, write_full by assumption; cbn [app]; f_equal.
      change 0 with (tail 0) at 1; rewrite (law_join H laws) by (assumption || lia).
      etransitivity; [|symmetry; exact Er]; f_equal; lia.
    + cbn [app]; rewrite read_tail by lia; rewrite IH, write_full by assumption; cbn [app]; f_equal.
      rewrite (law_join H laws) by assumption; symmetry; exact Er.
Qed.
Lemma compose_decompose s :
  Forall (fun r => is_syllable r = true) s -> compose_runes H (flat_map decompose s) = s.
Proof. intros Hs; unfold compose_runes; rewrite compose_decomposed by exact Hs; reflexivity. Qed.

(** C30: the characters of the result. *)
Definition composed (r : rune) : Prop := r <> 0x2D /\ (hl_is_hangul H r = true -> is_syllable r = true).
Lemma write_composed b : Forall composed (write H b).
Proof.
  unfold write; destruct (is_lmt0 b); [constructor|]; destruct b as [[l m] t].
  constructor; [|constructor]; apply (law_join_any H laws).
Qed.
Lemma compose_composed rs t sc b : Forall composed (compose_loop H rs t sc b).
Proof.
  revert t sc b; induction rs as [|ch rs IH]; intros t sc b; cbn [compose_loop]; [apply write_composed|].
  destruct (N.eqb_spec ch 0x2D) as [E|E]; [apply IH|].
  destruct (hl_is_hangul H ch) eqn:Eh; cbn [negb].
  - destruct (negb (hl_is_jaeum H ch) && negb (hl_is_moeum H ch)).
    + apply Forall_app; split; [apply write_composed|apply IH].
    + set (s' := if hl_is_moeum H ch then 1%nat else if t then 2%nat else 0%nat).
      destruct (s' <=? sc)%nat; [apply Forall_app; split; [apply write_composed|]|]; apply IH.
  - apply Forall_app; split; [apply write_composed|]; constructor; [|apply IH].
    split; [exact E|congruence].
Qed.

(** ... which composition leaves alone. *)
Lemma split_write r : is_syllable r = true -> write H (hl_split H r) = [r].
Proof.
  intros Hr; pose proof (law_split H laws r Hr) as Hs; destruct (hl_split H r) as [[l m] t].
  destruct Hs as (H1 & H2 & H3); unfold write, is_lmt0.
  assert (l =? 0 = false) as -> by lia; assert (m =? 0 = false) as -> by lia; cbn [andb].
  rewrite H3; reflexivity.
Qed.
Lemma compose_fixed rs sc b :
  Forall composed rs -> compose_loop H rs false sc b = write H b ++ rs.
Proof.
  intros Hr; revert sc b; induction Hr as [|ch rs [Hd Hh] Hr IH]; intros sc b; cbn [compose_loop].
  - rewrite app_nil_r; reflexivity.
  - assert (ch =? 0x2D = false) as -> by lia.
    destruct (hl_is_hangul H ch) eqn:Eh; cbn [negb].
    + specialize (Hh eq_refl); pose proof (law_syllable H laws ch) as Hl; rewrite Hh, Eh in Hl.
      cbn [andb] in Hl; rewrite Hl; rewrite IH, split_write by exact Hh; reflexivity.
    + rewrite IH; reflexivity.
Qed.
Lemma compose_idempotent rs : compose_runes H (compose_runes H rs) = compose_runes H rs.
Proof.
  unfold compose_runes; rewrite compose_fixed; [reflexivity|apply compose_composed].
Qed.

(** Keeping the other characters, when each Jamo stands where it can be used: a consonant
    after a hyphen is a tail, another one is a lead. *)
Fixpoint well_placed (after_hyphen : bool) (rs : list rune) : Prop :=
  match rs with
  | [] => True
  | r :: rs' =>
    if r =? 0x2D then well_placed true rs'
    else (hl_is_hangul H r = true -> is_syllable r = false ->
          (exists mi, mi < 21 /\ r = medial mi)
          \/ In r (if after_hyphen then tl compat_tails else compat_leads))
         /\ well_placed false rs'
  end.
Definition other (r : rune) : bool := negb (hl_is_hangul H r) && negb (r =? 0x2D).

Definition good_buf (L M T : rune -> Prop) (b : lmt) : Prop :=
  let '(l, m, t) := b in (l = 0 \/ L l) /\ (m = 0 \/ M m) /\ T t.

Lemma keep_others_gen rs t sc b (L M T : rune -> Prop) :
  (forall r, In r compat_leads -> L r) -> (forall mi, mi < 21 -> M (medial mi)) ->
  (forall r, In r compat_tails -> T r) ->
  (forall r, is_syllable r = true -> let '(l, m, t) := hl_split H r in L l /\ M m /\ T t) ->
  (forall l m t, L l -> M m -> T t -> is_syllable (hl_join H l m t) = true) ->
  scalars rs -> well_placed t rs -> good_buf L M T b ->
  filter other (map fix_rune (compose_loop H rs t sc b)) = filter other rs.
Proof.
  intros HL HM HT HS HJ.
  assert (T 0) as T0 by (apply HT; left; reflexivity).
  assert (forall b, good_buf L M T b -> filter other (map fix_rune (write H b)) = []) as Hw.
  { intros [[l m] x] (H1 & H2 & H3); unfold write.
    destruct (is_lmt0 (l, m, x)); [reflexivity|]; cbn [map filter].
    assert (is_syllable (hl_join H (if l =? 0 then 0x3147 else l) (if m =? 0 then 0x3161 else m) x) = true) as Hj.
    { apply HJ; [| |exact H3].
      - destruct H1 as [->|H1]; [apply HL; vm_compute; tauto|].
        destruct (N.eqb_spec l 0) as [->|_]; [apply HL; vm_compute; tauto|exact H1].
      - destruct H2 as [->|H2]; [apply (HM 18); lia|].
        destruct (N.eqb_spec m 0) as [->|_]; [apply (HM 18); lia|exact H2]. }
    pose proof (law_syllable H laws (hl_join H (if l =? 0 then 0x3147 else l) (if m =? 0 then 0x3161 else m) x)) as Hl.
    assert (fix_rune (hl_join H (if l =? 0 then 0x3147 else l) (if m =? 0 then 0x3161 else m) x)
            = hl_join H (if l =? 0 then 0x3147 else l) (if m =? 0 then 0x3161 else m) x) as ->.
    { unfold fix_rune, is_scalar; unfold is_syllable in Hj.
      destruct (_ || _) eqn:Ef; [reflexivity|lia]. }
    rewrite Hj in Hl; unfold other.
    destruct (hl_is_hangul H _); [reflexivity|discriminate]. }
  intros Hsc; revert t sc b; induction Hsc as [|ch rs Hch Hsc IH]; intros t sc b Hp Hb;
    cbn [compose_loop well_placed] in *.
  - apply Hw; exact Hb.
  - destruct (N.eqb_spec ch 0x2D) as [->|E].
    { cbn [filter]; unfold other at 2; change (negb (0x2D =? 0x2D)) with false; rewrite andb_false_r.
      apply IH; assumption. }
    destruct Hp as [Hp Hrest].
    assert (ch =? 0x2D = false) as Ed by lia.
    cbn [filter]; unfold other at 2; rewrite Ed; cbn [negb]; rewrite andb_true_r.
    assert (good_buf L M T lmt0) as Hb0 by (cbn; auto).
    destruct (hl_is_hangul H ch) eqn:Eh; cbn [negb].
    + pose proof (law_syllable H laws ch) as Hl; rewrite Eh in Hl; cbn [andb] in Hl; rewrite Hl.
      destruct (is_syllable ch) eqn:Es.
      * rewrite map_app, filter_app, Hw by exact Hb; cbn [app]; apply IH; [exact Hrest|].
        pose proof (HS ch Es) as Hs; destruct (hl_split H ch) as [[l m] x]; cbn; tauto.
      * assert (forall b', good_buf L M T b' ->
           good_buf L M T (put b' (if hl_is_moeum H ch then 1%nat else if t then 2%nat else 0%nat) ch)) as Hput.
        { intros [[l m] x] (H1 & H2 & H3).
          destruct (Hp eq_refl eq_refl) as [(mi & Hmi & ->)|Hin].
          - destruct (law_medial H laws mi Hmi) as (_ & _ & ->); cbn [put good_buf]; auto.
          - destruct t.
            + assert (ch <> 0) as Hn0.
              { intros ->; revert Hin; vm_compute; intuition discriminate. }
              assert (In ch compat_tails) as Hin' by (right; exact Hin).
              destruct (law_tail H laws ch Hin' Hn0) as (_ & _ & ->); cbn [put good_buf]; auto.
            + destruct (law_lead H laws ch Hin) as (_ & _ & ->); cbn [put good_buf]; auto. }
        set (s' := if hl_is_moeum H ch then 1%nat else if t then 2%nat else 0%nat) in *.
        destruct (s' <=? sc)%nat.
        -- rewrite map_app, filter_app, Hw by exact Hb; cbn [app]; apply IH; auto.
        -- apply IH; auto.
    + rewrite map_app, filter_app, Hw by exact Hb; cbn [app map filter].
      assert (fix_rune ch = ch) as -> by (unfold fix_rune; rewrite Hch; reflexivity).
      unfold other at 1; rewrite Eh, Ed; cbn [negb andb]; f_equal; apply IH; assumption.
Qed.
Lemma keep_others rs :
  scalars rs -> well_placed false rs ->
  filter other (map fix_rune (compose_runes H rs)) = filter other rs.
Proof.
  intros Hsc Hp; destruct (law_parts H laws) as (L & M & T & HL & HM & HT & HS & HJ).
  apply (keep_others_gen rs false 0%nat lmt0 L M T); try assumption.
  cbn; repeat split; auto; apply HT; left; reflexivity.
Qed.
End Composer.

(** ** On bytes *)
Lemma jamo_scalar r : r < 0xD800 -> is_scalar r = true.
Proof. unfold is_scalar; lia. Qed.
Lemma decompose_scalars text :
  Forall (fun r => is_syllable r = true) text -> scalars (flat_map decompose text).
Proof.
  unfold scalars; induction 1 as [|r s Hr Hs IH]; cbn [flat_map]; [constructor|].
  apply Forall_app; split; [|exact IH].
  unfold decompose; set (i := r - 0xAC00).
  assert (i < 11172) as Hi by (unfold is_syllable in Hr; lia).
  constructor; [|constructor].
  - pose proof (lead_nonzero (i / 588) ltac:(lia)) as [_ Hin].
    revert Hin; apply (in_forallb is_scalar); vm_compute; reflexivity.
  - apply jamo_scalar; unfold medial; lia.
  - destruct (i mod 28 =? 0) eqn:E; [constructor|]; constructor; [reflexivity|]; constructor; [|constructor].
    pose proof (tail_nonzero (i mod 28) ltac:(lia) ltac:(lia)) as [_ Hin].
    revert Hin; apply (in_forallb is_scalar); vm_compute; reflexivity.
Qed.

Lemma composed_fix H r : hangul_laws H -> composed H r -> composed H (fix_rune r).
Proof.
  intros laws Hc; unfold fix_rune; destruct (is_scalar r); [exact Hc|].
  split; [discriminate|].
  intros Hh; exfalso.
  (* the replacement character is not Hangul *)
  pose proof (law_fffd H laws); congruence.
Qed.
Lemma compose_hangul_composed H : hangul_laws H -> forall word r,
  In r (runes (compose_hangul H word)) ->
  r <> 0x2D /\ (hl_is_hangul H r = true -> is_syllable r = true).
Proof.
  intros laws word r; unfold compose_hangul; rewrite runes_encode_fix; intros Hin.
  apply in_map_iff in Hin; destruct Hin as (x & <- & Hin).
  apply composed_fix; [exact laws|].
  pose proof (compose_composed H laws (runes word) false 0%nat lmt0) as Hall.
  rewrite Forall_forall in Hall; apply Hall; exact Hin.
Qed.
Lemma compose_hangul_idempotent H : hangul_laws H -> forall word,
  compose_hangul H (compose_hangul H word) = compose_hangul H word.
Proof.
  intros laws word; unfold compose_hangul at 1.
  assert (Forall (composed H) (runes (compose_hangul H word))) as Hall.
  { apply Forall_forall; intros r Hr; apply (compose_hangul_composed H laws word r Hr). }
  unfold compose_runes; rewrite compose_fixed by assumption.
  change (write H lmt0) with (@nil rune); cbn [app].
  apply utf8_text_runes, encode_utf8_text.
Qed.
Lemma compose_hangul_keeps H : hangul_laws H -> forall word,
  well_placed H false (runes word) ->
  filter (fun r => negb (hl_is_hangul H r) && negb (r =? 0x2D)) (runes (compose_hangul H word))
  = filter (fun r => negb (hl_is_hangul H r) && negb (r =? 0x2D)) (runes word).
Proof.
  intros laws word Hp; unfold compose_hangul; rewrite runes_encode_fix.
  apply (keep_others H laws); [apply runes_scalar|exact Hp].
Qed.
Lemma compose_hangul_split H (a b : list rune) (c : rune) :
  hl_is_hangul H c = false -> c <> 0x2D ->
  scalars a -> is_scalar c = true -> scalars b ->
  compose_hangul H (encode (a ++ c :: b))
  = compose_hangul H (encode a) ++ encode [c] ++ compose_hangul H (encode b).
Proof.
  intros Hc Hd Ha Hs Hb; unfold compose_hangul.
  rewrite !runes_encode; try assumption.
  - rewrite compose_split by assumption; rewrite encode_app.
    change (c :: compose_runes H b) with ([c] ++ compose_runes H b); rewrite encode_app; reflexivity.
  - apply Forall_app; split; [exact Ha|constructor; assumption].
Qed.
