(** Facts about internal/scripts, by sweeps over the Unicode tables. *)
From Verif Require Import GoBase Utf8 UniTables Unicode Scripts.
Open Scope N_scope.

(** All characters of a table of ranges. *)
Definition expand_range (x : N * N) : list N :=
  map (fun i => fst x + N.of_nat i) (seq 0 (N.to_nat (snd x - fst x + 1))).
Definition expand_ranges (tab : list (N * N)) : list N := flat_map expand_range tab.

Lemma in_expand_range lo hi r : lo <= r -> r <= hi -> In r (expand_range (lo, hi)).
Proof.
  intros H1 H2; unfold expand_range; cbn [fst snd]; apply in_map_iff.
  exists (N.to_nat (r - lo)); split; [lia|apply in_seq; lia].
Qed.
Lemma in_ranges_expand tab r : in_ranges tab r = true -> In r (expand_ranges tab).
Proof.
  induction tab as [|[lo hi] tab IH]; cbn [in_ranges]; [discriminate|].
  unfold expand_ranges; cbn [flat_map]; rewrite in_app_iff.
  destruct (r <? lo) eqn:E1; [discriminate|]; destruct (r <=? hi) eqn:E2; intros H.
  - left; apply in_expand_range; lia.
  - right; apply IH; exact H.
Qed.
Lemma ranges_sweep (f : N -> bool) tab :
  forallb f (expand_ranges tab) = true -> forall r, in_ranges tab r = true -> f r = true.
Proof.
  intros H r Hr; rewrite forallb_forall in H; apply H, in_ranges_expand; exact Hr.
Qed.

(** The table of a script. *)
Definition script_table (s : script) : list (list (N * N)) :=
  match s with
  | Latn => [tab_latin]
  | Cyrl => [tab_cyrillic; tab_mark]
  | Geor => [tab_georgian]
  | Grek => [tab_greek]
  | Hrkt => [[(0x30FC, 0x30FC)]; tab_hiragana; tab_katakana]
  end.
Lemma script_is_table s r :
  script_is s r = true -> exists tab, In tab (script_table s) /\ in_ranges tab r = true.
Proof.
  destruct s; cbn [script_is script_table In]; intros H.
  - exists tab_latin; auto.
  - apply orb_true_iff in H; destruct H as [H|H]; [exists tab_cyrillic|exists tab_mark]; auto.
  - exists tab_georgian; auto.
  - exists tab_greek; auto.
  - apply orb_true_iff in H; destruct H as [H|H].
    + apply orb_true_iff in H; destruct H as [H|H].
      * exists [(0x30FC, 0x30FC)]; split; [auto|].
        apply N.eqb_eq in H; subst; reflexivity.
      * exists tab_hiragana; auto.
    + exists tab_katakana; auto.
Qed.
Lemma script_sweep (f : N -> bool) s :
  forallb (fun tab => forallb f (expand_ranges tab)) (script_table s) = true ->
  forall r, script_is s r = true -> f r = true.
Proof.
  intros H r Hr; destruct (script_is_table s r Hr) as (tab & Hin & Hr').
  rewrite forallb_forall in H; specialize (H tab Hin).
  exact (ranges_sweep f tab H r Hr').
Qed.

(** ** Latin *)
Definition basic_lower (r : rune) : bool := (97 <=? r) && (r <=? 122).
Definition basic_upper (r : rune) : bool := (65 <=? r) && (r <=? 90).
Definition lower_basic (r : rune) : rune := if basic_upper r then r + 32 else r.

Lemma to_lower_basic r : basic_lower r || basic_upper r = true -> to_lower r = lower_basic r.
Proof.
  intros H; assert (forallb (fun x => to_lower x =? lower_basic x) (expand_ranges [(65, 90); (97, 122)]) = true)
    as Hs by (vm_compute; reflexivity).
  pose proof (ranges_sweep (fun x => to_lower x =? lower_basic x) _ Hs r) as Hr; apply N.eqb_eq, Hr.
  cbn [in_ranges]; unfold basic_lower, basic_upper in H.
  destruct (r <? 65) eqn:?, (r <=? 90) eqn:?, (r <? 97) eqn:?, (r <=? 122) eqn:?; lia.
Qed.

Lemma latn_normalize_decomposed ch base marks :
  nfd ch = Some (base :: marks) -> basic_lower base || basic_upper base = true ->
  script_normalize Latn ch = lower_basic base.
Proof.
  intros Hn Hb; cbn [script_normalize]; unfold nfd_first; rewrite Hn.
  assert (encode (base :: marks) = base :: encode marks) as ->.
  { unfold encode; cbn [flat_map]; unfold encode_rune.
    assert (base <=? 0x7F = true) as -> by (unfold basic_lower, basic_upper in Hb; lia); reflexivity. }
  apply to_lower_basic; exact Hb.
Qed.
Lemma nfd_basic ch : basic_lower ch || basic_upper ch = true -> nfd ch = None.
Proof.
  intros H; assert (forallb (fun x => match nfd x with None => true | _ => false end)
                            (expand_ranges [(65, 90); (97, 122)]) = true) as Hs by (vm_compute; reflexivity).
  pose proof (ranges_sweep _ _ Hs ch) as Hr; cbv beta in Hr; destruct (nfd ch); [|reflexivity].
  exfalso; apply Bool.diff_false_true, Hr.
  cbn [in_ranges]; unfold basic_lower, basic_upper in H.
  destruct (ch <? 65) eqn:?, (ch <=? 90) eqn:?, (ch <? 97) eqn:?, (ch <=? 122) eqn:?; lia.
Qed.
Lemma latn_normalize_basic ch :
  basic_lower ch || basic_upper ch = true -> script_normalize Latn ch = lower_basic ch.
Proof.
  intros H; cbn [script_normalize]; unfold nfd_first; rewrite nfd_basic by exact H.
  apply to_lower_basic; exact H.
Qed.

(** ** Idempotence *)
Definition latn_exceptions : list rune := [482; 483; 495; 508; 509; 510; 511; 7835].

Definition exceptions (s : script) : list rune :=
  match s with Latn => latn_exceptions | _ => [] end.

Lemma normalize_idempotent s ch :
  script_is s ch = true -> ~ In ch (exceptions s) ->
  script_normalize s (script_normalize s ch) = script_normalize s ch.
Proof.
  intros Hs Hn.
  assert ((nmem ch (exceptions s)
           || (script_normalize s (script_normalize s ch) =? script_normalize s ch)) = true) as H.
  { revert ch Hs Hn; intros ch Hs _; revert ch Hs; apply script_sweep.
    destruct s; vm_compute; reflexivity. }
  apply orb_true_iff in H; destruct H as [H|H]; [|apply N.eqb_eq; exact H].
  exfalso; apply Hn; unfold nmem in H; apply existsb_exists in H.
  destruct H as (x & Hx & E); apply N.eqb_eq in E; subst; exact Hx.
Qed.
Lemma normalize_in_script s ch :
  script_is s ch = true -> script_is s (script_normalize s ch) = true.
Proof.
  revert ch; apply script_sweep; destruct s; vm_compute; reflexivity.
Qed.

(** Every character of the script is normalized to a scalar value. *)
Lemma normalize_scalar s ch :
  script_is s ch = true -> is_scalar (script_normalize s ch) = true.
Proof. revert ch; apply script_sweep; destruct s; vm_compute; reflexivity. Qed.
