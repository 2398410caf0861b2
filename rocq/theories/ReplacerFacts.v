(** Facts about strings.Replacer: when the order of its arguments does not matter. *)
From Coq Require Import Permutation.
From Verif Require Import GoBase Utf8 Utf8Facts Unicode Replacer.
Open Scope N_scope.

Definition is_prefix (k s : bytes) : Prop := exists r, s = k ++ r.

Lemma has_prefix_spec s p : has_prefix s p = true <-> is_prefix p s.
Proof.
  revert s; induction p as [|y p IH]; intros s.
  - split; [intros _; exists s; reflexivity|destruct s; reflexivity].
  - destruct s as [|x s]; cbn [has_prefix].
    + split; [discriminate|intros (r & E); discriminate].
    + split.
      * intros H; apply andb_true_iff in H; destruct H as [H1 H2].
        apply N.eqb_eq in H1; apply IH in H2; destruct H2 as (r & ->); subst; exists r; reflexivity.
      * intros (r & E); injection E as -> ->; rewrite N.eqb_refl; apply IH; exists r; reflexivity.
Qed.
Lemma prefix_comparable a b s : is_prefix a s -> is_prefix b s -> is_prefix a b \/ is_prefix b a.
Proof.
  revert b s; induction a as [|x a IH]; intros b s (ra & Ha) (rb & Hb).
  - left; exists b; reflexivity.
  - destruct b as [|y b]; [right; exists (x :: a); reflexivity|].
    rewrite Ha in Hb; cbn [app] in Hb; injection Hb as -> Hb.
    destruct (IH b (a ++ ra)) as [(r & ->)|(r & ->)].
    + exists ra; reflexivity.
    + exists rb; exact Hb.
    + left; exists r; reflexivity.
    + right; exists r; reflexivity.
Qed.

(** No source text is a prefix of another one (nor given twice with different targets). *)
Definition unambiguous (t : list (bytes * bytes)) : Prop :=
  forall k1 v1 k2 v2, In (k1, v1) t -> In (k2, v2) t -> is_prefix k1 k2 -> k1 = k2 /\ v1 = v2.

(** A decision procedure. *)
Definition unambiguousb (t : list (bytes * bytes)) : bool :=
  forallb (fun a => forallb (fun b =>
    negb (has_prefix (fst b) (fst a)) || (beqb (fst a) (fst b) && beqb (snd a) (snd b))) t) t.
Lemma unambiguousb_ok t : unambiguousb t = true -> unambiguous t.
Proof.
  unfold unambiguousb; intros H k1 v1 k2 v2 H1 H2 Hp.
  rewrite forallb_forall in H; specialize (H _ H1); rewrite forallb_forall in H; specialize (H _ H2).
  cbn [fst snd] in H; apply has_prefix_spec in Hp; rewrite Hp in H; cbn [negb orb] in H.
  apply andb_true_iff in H; destruct H as [E1 E2].
  apply beqb_eq in E1; apply beqb_eq in E2; auto.
Qed.

Definition matches (k s : bytes) (ig : bool) : bool :=
  match k with [] => negb ig | _ => has_prefix s k end.
Lemma matches_prefix k s ig : matches k s ig = true -> is_prefix k s.
Proof.
  destruct k as [|x k]; cbn [matches]; intros H; [exists s; reflexivity|].
  apply has_prefix_spec; exact H.
Qed.

Lemma rep_lookup_some t s ig v n :
  rep_lookup t s ig = Some (v, n) ->
  exists k, In (k, v) t /\ matches k s ig = true /\ n = length k.
Proof.
  induction t as [|[k w] t IH]; cbn [rep_lookup]; [discriminate|].
  fold (matches k s ig); destruct (matches k s ig) eqn:E.
  - intros H; injection H as <- <-; exists k; auto with datatypes.
  - intros H; destruct (IH H) as (k' & Hin & H'); exists k'; auto with datatypes.
Qed.
Lemma rep_lookup_none t s ig :
  rep_lookup t s ig = None <-> forall k v, In (k, v) t -> matches k s ig = false.
Proof.
  induction t as [|[k w] t IH]; cbn [rep_lookup].
  - split; [intros _ k v []|reflexivity].
  - fold (matches k s ig); destruct (matches k s ig) eqn:E.
    + split; [discriminate|intros H; rewrite (H k w) in E by (left; reflexivity); discriminate].
    + rewrite IH; split; intros H k' v' Hin.
      * destruct Hin as [Hin|Hin]; [injection Hin as <- <-; exact E|eauto].
      * eapply H; right; exact Hin.
Qed.
Lemma rep_lookup_found t k v s ig :
  unambiguous t -> In (k, v) t -> matches k s ig = true -> rep_lookup t s ig = Some (v, length k).
Proof.
  intros Hu Hin Hm; destruct (rep_lookup t s ig) as [[v' n']|] eqn:E.
  - apply rep_lookup_some in E; destruct E as (k' & Hin' & Hm' & ->).
    destruct (prefix_comparable k k' s) as [Hp|Hp].
    + eapply matches_prefix; exact Hm.
    + eapply matches_prefix; exact Hm'.
    + destruct (Hu _ _ _ _ Hin Hin' Hp) as [-> ->]; reflexivity.
    + destruct (Hu _ _ _ _ Hin' Hin Hp) as [-> ->]; reflexivity.
  - rewrite rep_lookup_none in E; rewrite (E _ _ Hin) in Hm; discriminate.
Qed.

Lemma rep_lookup_same t1 t2 s ig :
  unambiguous t1 -> (forall x, In x t1 <-> In x t2) -> rep_lookup t1 s ig = rep_lookup t2 s ig.
Proof.
  intros Hu Hsame.
  destruct (rep_lookup t2 s ig) as [[v n]|] eqn:E.
  - apply rep_lookup_some in E; destruct E as (k & Hin & Hm & ->).
    apply rep_lookup_found; [exact Hu|apply Hsame; exact Hin|exact Hm].
  - rewrite rep_lookup_none in *; intros k v Hin; eapply E, Hsame; exact Hin.
Qed.

Lemma rep_from_same t1 t2 n s :
  unambiguous t1 -> (forall x, In x t1 <-> In x t2) -> rep_from n t1 s = rep_from n t2 s.
Proof.
  intros Hu Hsame; revert n; induction s as [|c s IH]; intros n; cbn [rep_from].
  - destruct n; [|reflexivity]; rewrite (rep_lookup_same t1 t2) by assumption; reflexivity.
  - destruct n; [|apply IH].
    rewrite (rep_lookup_same t1 t2) by assumption.
    rewrite (rep_lookup_same t1 t2 (c :: s) true) by assumption.
    destruct (match rep_lookup t2 (c :: s) false with
              | Some (v, O) => (v, rep_lookup t2 (c :: s) true) | r => ([], r) end) as [pre r].
    destruct r as [[v [|k]]|]; rewrite IH; reflexivity.
Qed.
Lemma replacer_same t1 t2 s :
  unambiguous t1 -> (forall x, In x t1 <-> In x t2) -> replacer_replace t1 s = replacer_replace t2 s.
Proof. apply rep_from_same. Qed.
Lemma replacer_permutation t1 t2 s :
  unambiguous t1 -> Permutation t1 t2 -> replacer_replace t1 s = replacer_replace t2 s.
Proof.
  intros Hu Hp; apply replacer_same; [exact Hu|]; intros x; split; apply Permutation_in;
    [exact Hp|apply Permutation_sym; exact Hp].
Qed.

(** ** What it computes, without an order *)
Inductive expands (t : list (bytes * bytes)) : bytes -> bytes -> Prop :=
| expands_nil : expands t [] []
| expands_key k v s s' :
    In (k, v) t -> expands t s s' -> expands t (k ++ s) (v ++ s')
| expands_char c s s' :
    (forall k v, In (k, v) t -> ~ is_prefix k (c :: s)) ->
    expands t s s' -> expands t (c :: s) (c :: s').

Definition no_empty_key (t : list (bytes * bytes)) : Prop := forall v, ~ In ([], v) t.

Lemma rep_from_skip t n s : (n <= length s)%nat -> no_empty_key t -> rep_from n t s = rep_from 0 t (skipn n s).
Proof.
  intros Hn He; revert n Hn; induction s as [|c s IH]; intros n Hn.
  - destruct n; [reflexivity|cbn in Hn; lia].
  - destruct n; [reflexivity|]; cbn [skipn]; rewrite <- IH by (cbn in Hn; lia); reflexivity.
Qed.
Lemma rep_from_nil t : no_empty_key t -> rep_from 0 t [] = [].
Proof.
  intros He; cbn [rep_from]; destruct (rep_lookup t [] false) as [[v n]|] eqn:E; [|reflexivity].
  apply rep_lookup_some in E; destruct E as (k & Hin & Hm & _).
  destruct k; [exfalso; eapply He; exact Hin|discriminate].
Qed.
Lemma rep_step_key t v k s c :
  no_empty_key t -> rep_lookup t (c :: s) false = Some (v, S k) ->
  rep_from 0 t (c :: s) = v ++ rep_from k t s.
Proof. intros He E; cbn [rep_from]; rewrite E; reflexivity. Qed.
Lemma rep_step_char t s c :
  rep_lookup t (c :: s) false = None -> rep_from 0 t (c :: s) = c :: rep_from 0 t s.
Proof. intros E; cbn [rep_from]; rewrite E; reflexivity. Qed.

Lemma replacer_expands t s : no_empty_key t -> expands t s (replacer_replace t s).
Proof.
  intros He; unfold replacer_replace.
  remember (length s) as n eqn:Hn; revert s Hn; induction n as [n IH] using lt_wf_ind; intros s Hn.
  destruct s as [|c s]; [rewrite rep_from_nil by exact He; constructor|].
  destruct (rep_lookup t (c :: s) false) as [[v m]|] eqn:E.
  - pose proof E as E'; apply rep_lookup_some in E'; destruct E' as (k & Hin & Hm & ->).
    destruct k as [|k0 k]; [exfalso; eapply He; exact Hin|].
    cbn [length] in E; rewrite (rep_step_key t v (length k)) by assumption.
    apply matches_prefix in Hm; destruct Hm as (r & Er); rewrite Er.
    injection Er as -> Es; subst s; rewrite rep_from_skip; [|rewrite app_length; lia|exact He].
    rewrite skipn_app, skipn_all, Nat.sub_diag; cbn [skipn app].
    change (k0 :: k ++ r) with ((k0 :: k) ++ r); constructor; [exact Hin|].
    eapply IH; [|reflexivity]; subst n; cbn [length]; rewrite app_length; lia.
  - rewrite rep_step_char by exact E; constructor.
    + intros k v Hin Hp; rewrite rep_lookup_none in E; specialize (E k v Hin).
      destruct k; [eapply He; exact Hin|]; cbn [matches] in E.
      apply has_prefix_spec in Hp; congruence.
    + eapply IH; [|reflexivity]; subst n; cbn; lia.
Qed.
Lemma expands_replacer t s s' :
  no_empty_key t -> unambiguous t -> expands t s s' -> s' = replacer_replace t s.
Proof.
  intros He Hu H; unfold replacer_replace; induction H as [|k v s s' Hin H IH|c s s' Hno H IH].
  - rewrite rep_from_nil by exact He; reflexivity.
  - destruct k as [|k0 k]; [exfalso; eapply He; exact Hin|].
    cbn [app]; rewrite (rep_step_key t v (length k)).
    + rewrite rep_from_skip; [|rewrite app_length; lia|exact He].
      rewrite skipn_app, skipn_all, Nat.sub_diag; cbn [skipn app]; rewrite IH; reflexivity.
    + exact He.
    + apply (rep_lookup_found t (k0 :: k)); [exact Hu|exact Hin|].
      cbn [matches]; apply has_prefix_spec; exists s; reflexivity.
  - rewrite rep_step_char; [rewrite IH; reflexivity|].
    apply rep_lookup_none; intros k v Hin; destruct (matches k (c :: s) false) eqn:E; [|reflexivity].
    apply matches_prefix in E; exfalso; eapply Hno; eassumption.
Qed.
