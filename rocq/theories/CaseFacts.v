(** Normalization character by character, for C67. *)
From Coq Require Import String Lia.
From Verif Require Import GoBase Utf8 Utf8Facts UniTables Unicode Replacer ReplacerFacts Scripts Spec Jamo Procedure LettersFacts.
Open Scope N_scope.

(** ** Replacing single characters *)

Definition sub (t : list (bytes * bytes)) (c : rune) : bytes :=
  match List.find (fun p => beqb (fst p) (encode_rune c)) t with
  | Some (_, v) => v
  | None => encode_rune c
  end.
Definition single_key (p : bytes * bytes) : bool :=
  valid_utf8 (fst p) && (length (runes (fst p)) =? 1)%nat && valid_utf8 (snd p).
Lemma single_key_char p : single_key p = true -> exists r, is_scalar r = true /\ fst p = encode_rune r /\ utf8_text (snd p).
Proof.
  unfold single_key; intros H; apply andb_true_iff in H; destruct H as [H Hv]; apply andb_true_iff in H; destruct H as [Hk Hl].
  apply valid_utf8_text in Hk; apply Nat.eqb_eq in Hl; apply utf8_text_runes in Hk.
  pose proof (runes_scalar (fst p)) as Hs.
  destruct (runes (fst p)) as [|r [|? ?]]; try discriminate; exists r; split; [inversion Hs; assumption|]; split.
  - rewrite <- Hk; cbn [encode flat_map]; apply app_nil_r.
  - apply valid_utf8_text; exact Hv.
Qed.
Lemma encode_prefix r c s : is_scalar r = true -> is_scalar c = true -> is_prefix (encode_rune r) (encode_rune c ++ s) -> r = c.
Proof.
  intros Hr Hc (x & E); pose proof (decode_encode r x Hr) as D1; pose proof (decode_encode c s Hc) as D2.
  rewrite <- E, D2 in D1; injection D1 as -> _; reflexivity.
Qed.
Lemma encode_tail c : exists b t, encode_rune c = b :: t /\ Forall (fun x => is_cont x = true) t.
Proof.
  assert (forall x, is_cont (0x80 + x mod 64) = true) as Hc.
  { intros x; pose proof (N.mod_lt x 64 ltac:(lia)); unfold is_cont; apply andb_true_iff; split; apply N.leb_le; lia. }
  unfold encode_rune; destruct (c <=? 0x7F); [eexists _, _; split; [reflexivity|constructor]|].
  destruct (c <=? 0x7FF); [eexists _, _; split; [reflexivity|repeat constructor; apply Hc]|].
  destruct (negb (is_scalar c)); [eexists _, _; split; [reflexivity|repeat constructor]|].
  destruct (c <=? 0xFFFF); eexists _, _; (split; [reflexivity|repeat constructor; apply Hc]).
Qed.
Lemma cont_no_prefix r b s : is_scalar r = true -> is_cont b = true -> ~ is_prefix (encode_rune r) (b :: s).
Proof.
  intros Hr Hb (x & E); pose proof (decode_encode r x Hr) as D; rewrite <- E in D.
  assert (decode_rune (b :: s) = (rune_error, 1%nat)) as D'.
  { unfold is_cont in Hb; apply andb_true_iff in Hb; destruct Hb as [H1 H2]; apply N.leb_le in H1, H2.
    unfold decode_rune; destruct (N.ltb_spec b 0x80); [lia|]; destruct (N.ltb_spec b 0xC2); [reflexivity|lia]. }
  rewrite D' in D; injection D as <- Hl; vm_compute in Hl; discriminate.
Qed.
Lemma rep_from_cont t e s : Forall (fun p => single_key p = true) t -> Forall (fun x => is_cont x = true) e ->
  rep_from 0 t (e ++ s) = e ++ rep_from 0 t s.
Proof.
  intros Ht He; induction He as [|b e Hb He IH]; [reflexivity|]; cbn [app]; rewrite rep_step_char; [rewrite IH; reflexivity|].
  apply rep_lookup_none; intros k v Hin; destruct (matches k (b :: e ++ s) false) eqn:E; [|reflexivity].
  apply matches_prefix in E; rewrite Forall_forall in Ht; destruct (single_key_char _ (Ht _ Hin)) as (r & Hr & Hk & _).
  cbn [fst] in Hk; subst k; exfalso; eapply cont_no_prefix; eassumption.
Qed.
Lemma find_sub t c s : Forall (fun p => single_key p = true) t -> is_scalar c = true ->
  rep_lookup t (encode_rune c ++ s) false =
  option_map (fun p => (snd p, length (encode_rune c))) (List.find (fun p => beqb (fst p) (encode_rune c)) t).
Proof.
  intros Ht Hc; induction Ht as [|[k v] t Hk Ht IH]; [reflexivity|]; cbn [rep_lookup List.find fst].
  destruct (single_key_char _ Hk) as (r & Hr & Ek & _); cbn [fst] in Ek.
  assert (match k with [] => negb false | _ => has_prefix (encode_rune c ++ s) k end = beqb k (encode_rune c)) as ->.
  { destruct k as [|k0 k]; [exfalso; symmetry in Ek; exact (encode_rune_nonnil _ Ek)|].
    apply eq_true_iff_eq; rewrite has_prefix_spec, beqb_eq, Ek; split.
    - intros Hp; apply encode_prefix in Hp; [subst; reflexivity|exact Hr|exact Hc].
    - intros ->; exists s; reflexivity. }
  destruct (beqb k (encode_rune c)) eqn:E; [apply beqb_eq in E; subst k; rewrite <- E; reflexivity|exact IH].
Qed.
Lemma replace_chars t rs : Forall (fun p => single_key p = true) t -> scalars rs ->
  replacer_replace t (encode rs) = concat (map (sub t) rs).
Proof.
  intros Ht Hs; unfold replacer_replace.
  assert (no_empty_key t) as He.
  { intros v Hin; rewrite Forall_forall in Ht; destruct (single_key_char _ (Ht _ Hin)) as (r & _ & E & _).
    symmetry in E; exact (encode_rune_nonnil _ E). }
  induction Hs as [|c rs Hc Hs IH]; [apply rep_from_nil; exact He|].
  change (encode (c :: rs)) with (encode_rune c ++ encode rs); cbn [map concat]; unfold sub at 1.
  pose proof (find_sub t c (encode rs) Ht Hc) as Hf; destruct (encode_tail c) as (b & e & Ee & Hcont).
  destruct (List.find _ t) as [[k v]|] eqn:E; cbn [option_map snd] in Hf.
  - rewrite Ee in *; cbn [app length] in *; rewrite (rep_step_key t v (length e)) by assumption.
    rewrite rep_from_skip; [|rewrite app_length; lia|exact He].
    rewrite skipn_app, skipn_all, Nat.sub_diag; cbn [skipn app]; rewrite IH; reflexivity.
  - rewrite Ee in *; cbn [app] in *; rewrite rep_step_char by exact Hf; rewrite rep_from_cont by assumption.
    rewrite IH; reflexivity.
Qed.

(** ** Normalizing *)
Definition norm_char (s : spec) (c : rune) : list rune := map (norm_rune s) (runes (sub (s_normReplacer s) c)).
Lemma sub_text t c : Forall (fun p => single_key p = true) t -> utf8_text (sub t c).
Proof.
  intros Ht; unfold sub; destruct (List.find _ t) as [[k v]|] eqn:E; [|apply utf8_text_rune].
  apply List.find_some in E; destruct E as [E _]; rewrite Forall_forall in Ht.
  destruct (single_key_char _ (Ht _ E)) as (r & _ & _ & Hv); exact Hv.
Qed.
Lemma normalize_chars s rs : forallb single_key (s_normReplacer s) = true -> scalars rs ->
  snd (normalize s None (encode rs)) = encode (concat (map (norm_char s) rs)).
Proof.
  intros Ht Hs; unfold normalize; cbn [snd].
  assert (Forall (fun p => single_key p = true) (s_normReplacer s)) as Hf by (apply Forall_forall; apply forallb_forall; exact Ht).
  rewrite replace_chars by assumption; f_equal; clear Hs Ht; induction rs as [|c rs IH]; [reflexivity|].
  cbn [map concat]; rewrite runes_app_text by (apply sub_text; exact Hf); rewrite map_app, IH; reflexivity.
Qed.

(** ** The characters that have a lower case *)
Fixpoint strided (n : nat) (lo step : N) : list N :=
  match n with O => [] | S n' => lo :: strided n' (lo + step) step end.
Definition cased : list N :=
  flat_map (fun e => let '(lo, hi, step, _) := e in strided (S (N.to_nat ((hi - lo) / step))) lo step) tab_lower.
Lemma strided_in n lo step k : (k < n)%nat -> In (lo + N.of_nat k * step) (strided n lo step).
Proof.
  revert lo k; induction n as [|n IH]; intros lo k Hk; [lia|]; cbn [strided]; destruct k as [|k]; [left; lia|].
  right; replace (lo + N.of_nat (S k) * step) with ((lo + step) + N.of_nat k * step) by lia; apply IH; lia.
Qed.
Lemma to_lower_in_cased tab r : forallb (fun e => let '(_, _, step, _) := e in negb (step =? 0)) tab = true ->
  to_lower_in tab r <> r ->
  In r (flat_map (fun e => let '(lo, hi, step, _) := e in strided (S (N.to_nat ((hi - lo) / step))) lo step) tab).
Proof.
  induction tab as [|[[[lo hi] step] d] tab IH]; cbn [to_lower_in forallb flat_map]; intros Hs Hr; [contradiction|].
  apply andb_true_iff in Hs; destruct Hs as [H0 Hs]; apply negb_true_iff, N.eqb_neq in H0.
  destruct (N.ltb_spec r lo) as [|Hlo]; [contradiction|]; apply in_or_app.
  destruct ((r <=? hi) && ((r - lo) mod step =? 0)) eqn:E; [left|right; apply IH; assumption].
  apply andb_true_iff in E; destruct E as [Hhi Hm]; apply N.leb_le in Hhi; apply N.eqb_eq in Hm.
  pose proof (N.div_mod (r - lo) step H0) as Hd.
  assert (r = lo + N.of_nat (N.to_nat ((r - lo) / step)) * step) as -> by (rewrite N2Nat.id; unfold rune in *; lia).
  apply strided_in. assert ((r - lo) / step <= (hi - lo) / step) by (apply N.div_le_mono; unfold rune in *; lia). lia.
Qed.
Lemma to_lower_cased r : to_lower r <> r -> In r cased.
Proof. apply to_lower_in_cased; vm_compute; reflexivity. Qed.

Definition case_pairs : list (rune * rune) := map (fun a => (a, to_lower a)) cased.

(** The normalization of the script does not depend on the case, apart from one letter; it
    leaves Georgian letters alone. *)
Definition script_ok (sc : script) : bool :=
  forallb (fun p => if script_is sc (fst p) then
                      if fst p =? 0x1EE then true
                      else if script_is sc (snd p) then script_normalize sc (fst p) =? script_normalize sc (snd p) else false
                    else true) case_pairs.
Lemma scripts_ok : forallb script_ok [Latn; Cyrl; Grek; Hrkt] = true.
Proof. vm_compute; reflexivity. Qed.
Lemma script_case sc a : sc <> Geor -> script_is sc a = true -> a <> 0x1EE -> to_lower a <> a ->
  script_is sc (to_lower a) = true /\ script_normalize sc (to_lower a) = script_normalize sc a.
Proof.
  intros Hg Hs Ha Hl; pose proof scripts_ok as H; rewrite forallb_forall in H.
  assert (script_ok sc = true) as H'.
  { apply H; destruct sc; cbn [In]; auto 6; contradiction. }
  unfold script_ok in H'; rewrite forallb_forall in H'.
  specialize (H' (a, to_lower a) (in_map _ _ _ (to_lower_cased a Hl))); cbn [fst snd] in H'; rewrite Hs in H'.
  destruct (N.eqb_spec a 0x1EE) as [|_]; [contradiction|].
  destruct (script_is sc (to_lower a)); [|discriminate]; split; [reflexivity|]; apply N.eqb_eq in H'; symmetry; exact H'.
Qed.

(** So only the letters in the table of the language have to be checked. *)
Definition case_ok (except : list rune) (s : spec) : bool :=
  let special := flat_map (fun p => runes (fst p)) (s_normReplacer s) ++ s_normLetters s in
  forallb single_key (s_normReplacer s) &&
  forallb (fun p => let '(a, b) := p in
                    if (if nmem a special then true else nmem b special) then
                      if script_is (s_script s) a then if nmem a except then true else beqb (norm_char s a) (norm_char s b) else true
                    else true) case_pairs.
Lemma sub_plain t c : ~ In c (flat_map (fun p => runes (fst p)) t) -> is_scalar c = true -> sub t c = encode_rune c.
Proof.
  intros Hn Hc; unfold sub; destruct (List.find _ t) as [[k v]|] eqn:E; [|reflexivity].
  apply List.find_some in E; destruct E as [Hin E]; cbn [fst] in E; apply beqb_eq in E; subst k; exfalso; apply Hn.
  apply in_flat_map; exists (encode_rune c, v); split; [exact Hin|]; cbn [fst].
  replace (encode_rune c) with (encode [c]) by apply app_nil_r; rewrite runes_encode by (repeat constructor; exact Hc); left; reflexivity.
Qed.
Lemma norm_char_plain s c : ~ In c (flat_map (fun p => runes (fst p)) (s_normReplacer s) ++ s_normLetters s) -> is_scalar c = true ->
  script_is (s_script s) c = true -> norm_char s c = [script_normalize (s_script s) c].
Proof.
  intros Hn Hc Hs; unfold norm_char; rewrite sub_plain; [|intros H; apply Hn, in_or_app; left; exact H|exact Hc].
  replace (encode_rune c) with (encode [c]) by apply app_nil_r; rewrite runes_encode by (repeat constructor; exact Hc); cbn [map].
  unfold norm_rune; rewrite Hs; destruct (nmem c (s_normLetters s)) eqn:E; [|reflexivity].
  exfalso; apply nmem_in_iff in E; apply Hn, in_or_app; right; exact E.
Qed.
Lemma case_ok_norm except s a : case_ok except s = true -> s_script s <> Geor -> script_is (s_script s) a = true ->
  a <> 0x1EE -> ~ In a except -> is_scalar a = true -> is_scalar (to_lower a) = true ->
  norm_char s (to_lower a) = norm_char s a.
Proof.
  unfold case_ok; intros H Hg Hs Ha Hn Hc Hc'; apply andb_true_iff in H; destruct H as [_ H]; rewrite forallb_forall in H.
  destruct (N.eq_dec (to_lower a) a) as [->|Hd]; [reflexivity|].
  specialize (H (a, to_lower a) (in_map _ _ _ (to_lower_cased a Hd))); cbn [fst snd] in H; rewrite Hs in H.
  destruct (nmem a except) eqn:Ex; [apply nmem_in_iff in Ex; contradiction|].
  set (special := flat_map _ _ ++ _) in H.
  destruct (nmem a special) eqn:Ea; [apply beqb_eq in H; symmetry; exact H|].
  destruct (nmem (to_lower a) special) eqn:Eb; [apply beqb_eq in H; symmetry; exact H|].
  destruct (script_case (s_script s) a Hg Hs Ha Hd) as [Hs' En].
  assert (forall c, nmem c special = false -> ~ In c special) as Hnm by (intros c E Hin; apply nmem_in in Hin; congruence).
  rewrite (norm_char_plain s a), (norm_char_plain s (to_lower a)); auto; rewrite En; reflexivity.
Qed.
