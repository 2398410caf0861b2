(** The examples and the languages of the page: C83, C84. *)
From Coq Require Import String Permutation Sorted Lia.
From Verif Require Import GoBase Utf8 Utf8Facts Spec Bundled Api TestCmd Cli Tools PropBundled PropTools Web JsText PropJsText
  Json PropJson WebUrl PropUrl WebParts.
Open Scope nat_scope.

(** ** C83 Examples *)

(** [n] elements at different places of a list, or all of them if there are fewer, in any order *)
Definition some_of {A} (n : nat) (l out : list A) : Prop := exists all, Permutation l all /\ out = firstn n all.

Lemma swap_perm {A} (x : A) j rest : j < length rest -> Permutation (x :: rest) (nth j rest x :: swap_in x j rest).
Proof.
  intros Hj; unfold swap_in; rewrite <- (firstn_skipn j rest) at 1.
  assert (skipn j rest = nth j rest x :: skipn (S j) rest) as ->.
  { clear -Hj; revert rest Hj; induction j as [|j IH]; intros [|y rest] Hj; cbn in *; try lia; [reflexivity|apply IH; lia]. }
  apply perm_trans with (nth j rest x :: x :: firstn j rest ++ skipn (S j) rest).
  - apply perm_trans with (x :: nth j rest x :: firstn j rest ++ skipn (S j) rest); [|apply perm_swap].
    apply perm_skip, Permutation_sym, Permutation_middle.
  - apply perm_skip, Permutation_middle.
Qed.
Lemma sample_some {A} n : forall picks (l : list A), some_of n l (sample_size picks n l).
Proof.
  induction n as [|n IH]; intros picks l; [exists l; split; [apply Permutation_refl|reflexivity]|].
  destruct l as [|x rest]; cbn [sample_size]; [exists []; split; [constructor|reflexivity]|].
  pose proof (Nat.mod_upper_bound (hd O picks) (S (length rest)) ltac:(lia)) as Hb.
  destruct (Nat.modulo (hd O picks) (S (length rest))) as [|j] eqn:Ej; rewrite ?Ej in Hb.
  - destruct (IH (tl picks) rest) as (all & Hp & ->); exists (x :: all); split; [apply perm_skip; exact Hp|reflexivity].
  - destruct (IH (tl picks) (swap_in x j rest)) as (all & Hp & ->); exists (nth j rest x :: all); split; [|reflexivity].
    eapply perm_trans; [apply (swap_perm x j); lia|apply perm_skip; exact Hp].
Qed.

(** App hands over specs that do not differ in their examples, and none for the empty language. *)
Definition consistent (given : page_specs -> Prop) : Prop :=
  (forall specs specs' lang tests tests', given specs -> given specs' ->
     tests_of specs lang = Some tests -> tests_of specs' lang = Some tests' -> tests = tests') /\
  (forall specs, given specs -> lookup specs [] = None).
(** Nothing is left to be done. *)
Definition examples_rest (b : examples_box) : Prop := eb_effect b = false /\ eb_dirty b = false.

Record examples_inv (given : page_specs -> Prop) (b : examples_box) : Prop := {
  ei_given : given (eb_specs b);
  ei_renders : app_renders (eb_specs b) (eb_lang b);
  ei_ran : eb_effect b = false -> eb_prev b = eb_lang b;
  ei_next : eb_prev b = eb_lang b -> forall tests, tests_of (eb_specs b) (eb_lang b) = Some tests -> some_of 5 tests (eb_next b);
  ei_shown : eb_dirty b = false -> eb_shown b = eb_next b
}.
Lemma shuffle_inv given b picks : examples_inv given b -> examples_inv given (shuffle picks b).
Proof.
  intros [H1 H2 H3 H4 H5]; unfold shuffle; destruct (tests_of (eb_specs b) (eb_lang b)) as [tests|] eqn:E; [|exfalso; apply H2; exact E].
  split; cbn [eb_specs eb_lang eb_effect eb_prev eb_next eb_shown eb_dirty]; auto; [|discriminate].
  intros _ tests' E'; rewrite E in E'; injection E' as <-; apply sample_some.
Qed.
Lemma shuffle_kept picks b : eb_specs (shuffle picks b) = eb_specs b /\ eb_lang (shuffle picks b) = eb_lang b /\
  eb_prev (shuffle picks b) = eb_prev b /\ eb_effect (shuffle picks b) = eb_effect b.
Proof. unfold shuffle; destruct (tests_of _ _); repeat split. Qed.
Lemma reached_inv given b : consistent given -> examples_reached given b -> examples_inv given b.
Proof.
  intros [Hc Hn]; induction 1 as [specs lang Hg Ha|b b' Hr IH Hs Hg].
  - split; cbn [examples_first eb_specs eb_lang eb_effect eb_prev eb_next eb_shown eb_dirty]; auto; [discriminate|].
    intros <- tests E; exfalso; apply Ha; unfold tests_of; rewrite (Hn _ Hg); reflexivity.
  - pose proof IH as Inv; destruct IH as [H1 H2 H3 H4 H5]; destruct Hs as [picks b He|b He Hd|specs lang b He Ha|picks b].
    + unfold examples_effect; destruct (beqb (eb_prev b) (eb_lang b)) eqn:E.
      * apply beqb_eq in E; split; cbn [eb_specs eb_lang eb_effect eb_prev eb_next eb_shown eb_dirty]; auto.
      * destruct (shuffle_kept picks b) as (K1 & K2 & K3 & K4).
        unfold shuffle in *; destruct (tests_of (eb_specs b) (eb_lang b)) as [tests|] eqn:Et; [|contradiction H2].
        split; cbn [eb_specs eb_lang eb_effect eb_prev eb_next eb_shown eb_dirty]; auto; [|discriminate].
        intros _ tests' E'; rewrite Et in E'; injection E' as <-; apply sample_some.
    + split; cbn [examples_render eb_specs eb_lang eb_effect eb_prev eb_next eb_shown eb_dirty]; auto; discriminate.
    + split; cbn [examples_render eb_specs eb_lang eb_effect eb_prev eb_next eb_shown eb_dirty] in *; auto; [discriminate|].
      intros E tests Et; rewrite (H3 He) in E; subst lang.
      destruct (tests_of (eb_specs b) (eb_lang b)) as [tests0|] eqn:E0; [|contradiction H2].
      rewrite (Hc _ _ _ _ _ Hg H1 Et E0); apply (H4 (H3 He) _ eq_refl).
    + apply shuffle_inv; exact Inv.
Qed.

(** At rest, the page shows five examples of the language, or all of them. *)
Theorem C83_shown : forall given b, consistent given -> examples_reached given b -> examples_rest b ->
  exists tests, tests_of (eb_specs b) (eb_lang b) = Some tests /\ some_of 5 tests (eb_shown b).
Proof.
  intros given b Hc Hr [He Hd]; destruct (reached_inv given b Hc Hr) as [_ H2 H3 H4 H5].
  destruct (tests_of (eb_specs b) (eb_lang b)) as [tests|] eqn:E; [|contradiction H2; exact E].
  exists tests; split; [reflexivity|]; rewrite (H5 Hd); exact (H4 (H3 He) _ eq_refl).
Qed.
Print Assumptions C83_shown.

(** What the component does on its own comes to a rest. *)
Inductive own_steps : examples_box -> nat -> examples_box -> Prop :=
| own_none b : own_steps b 0 b
| own_effect b picks n b' : eb_effect b = true -> own_steps (examples_effect picks b) n b' -> own_steps b (S n) b'
| own_again b n b' : eb_effect b = false -> eb_dirty b = true ->
    own_steps (examples_render (eb_specs b) (eb_lang b) b) n b' -> own_steps b (S n) b'.
Definition box_cost (b : examples_box) : nat :=
  (if eb_dirty b then 2 else 0) + (if eb_effect b then 1 + (if beqb (eb_prev b) (eb_lang b) then 0 else 2) else 0).
Lemma effect_cost picks b : eb_effect b = true -> box_cost (examples_effect picks b) < box_cost b.
Proof.
  intros He; unfold box_cost, examples_effect; cbn [eb_specs eb_lang eb_effect eb_prev eb_dirty]; rewrite He.
  destruct (beqb (eb_prev b) (eb_lang b)) eqn:E; [destruct (eb_dirty b); lia|].
  unfold shuffle; destruct (tests_of _ _); cbn [eb_dirty]; destruct (eb_dirty b); lia.
Qed.
Theorem C83_settles : forall given b, consistent given -> examples_reached given b ->
  (forall n b', own_steps b n b' -> n <= 5) /\
  exists n b', own_steps b n b' /\ examples_rest b' /\ eb_lang b' = eb_lang b /\ eb_specs b' = eb_specs b.
Proof.
  intros given b Hc Hr.
  assert (forall m b, examples_reached given b -> box_cost b <= m -> (forall n b', own_steps b n b' -> n <= m) /\
    exists n b', own_steps b n b' /\ examples_rest b' /\ eb_lang b' = eb_lang b /\ eb_specs b' = eb_specs b) as H.
  { clear b Hr; induction m as [|m IH]; intros b Hr Hm.
    - assert (eb_effect b = false /\ eb_dirty b = false) as [He Hd].
      { unfold box_cost in Hm; destruct (eb_dirty b); [lia|]; destruct (eb_effect b); [lia|auto]. }
      split.
      + intros n b' Hs; inversion Hs; subst; [lia|congruence|congruence].
      + exists 0, b; split; [constructor|split; [split; assumption|split; reflexivity]].
    - pose proof (reached_inv given b Hc Hr) as [H1 H2 H3 H4 H5].
      assert (forall picks, eb_effect b = true -> examples_reached given (examples_effect picks b) /\ box_cost (examples_effect picks b) <= m) as Heff.
      { intros picks He; split; [|pose proof (effect_cost picks b He); lia].
        eapply exr_step; [exact Hr|apply ex_effect; exact He|].
        unfold examples_effect; destruct (beqb _ _); cbn [eb_specs]; [exact H1|destruct (shuffle_kept picks b) as (-> & _); exact H1]. }
      assert (eb_effect b = false -> eb_dirty b = true -> examples_reached given (examples_render (eb_specs b) (eb_lang b) b) /\
        box_cost (examples_render (eb_specs b) (eb_lang b) b) <= m) as Hren.
      { intros He Hd; split; [eapply exr_step; [exact Hr|apply ex_again; assumption|exact H1]|].
        unfold box_cost in *; rewrite He, Hd in Hm; cbn [examples_render eb_dirty eb_effect eb_prev eb_lang].
        rewrite (H3 He), (proj2 (beqb_eq _ _) eq_refl); lia. }
      split.
      + intros n b' Hs; inversion Hs; subst; [lia| |].
        * destruct (Heff picks ltac:(assumption)) as [Hr' Hm']; apply le_n_S; eapply (proj1 (IH _ Hr' Hm')); eassumption.
        * destruct (Hren ltac:(assumption) ltac:(assumption)) as [Hr' Hm']; apply le_n_S; eapply (proj1 (IH _ Hr' Hm')); eassumption.
      + destruct (eb_effect b) eqn:He.
        * destruct (Heff [] eq_refl) as [Hr' Hm']; destruct (proj2 (IH _ Hr' Hm')) as (n & b' & Ho & Hrest & El & Es).
          exists (S n), b'; split; [eapply own_effect; [exact He|exact Ho]|split; [exact Hrest|]].
          rewrite El, Es; unfold examples_effect; destruct (beqb _ _); cbn [eb_lang eb_specs]; [auto|].
          destruct (shuffle_kept [] b) as (-> & -> & _); auto.
        * destruct (eb_dirty b) eqn:Hd.
          -- destruct (Hren eq_refl eq_refl) as [Hr' Hm']; destruct (proj2 (IH _ Hr' Hm')) as (n & b' & Ho & Hrest & El & Es).
             exists (S n), b'; split; [eapply own_again; [exact He|exact Hd|exact Ho]|split; [exact Hrest|]]; rewrite El, Es; split; reflexivity.
          -- exists 0, b; split; [constructor|split; [split; assumption|split; reflexivity]]. }
  apply H; [exact Hr|]; unfold box_cost; destruct (eb_dirty b), (eb_effect b), (beqb (eb_prev b) (eb_lang b)); lia.
Qed.
Print Assumptions C83_settles.

(** *** The bundled languages *)

(** What the page has of a spec of the manifest, by JSON.parse *)
Definition tells (j : json_spec) (s : page_spec) : Prop :=
  utf16 (ps_id s) (runes (j_id j)) /\ utf16 (ps_korean s) (runes (j_korean j)) /\
  Forall2 (fun e x => utf16 (fst x) (runes (fst e)) /\ utf16 (snd x) (runes (snd e))) (j_test j) (ps_test s).
(** The specs of a manifest, in any order of the keys *)
Definition given_by (specs : list (bytes * json_spec)) (ps : page_specs) : Prop :=
  exists ms, Permutation ms specs /\ Forall2 (fun e x => utf16 (fst x) (runes (fst e)) /\ tells (snd e) (snd x)) ms ps.

Lemma utf16_same j j' rs : utf16 j rs -> utf16 j' rs -> j = j'.
Proof. intros H H'; rewrite (utf16_units _ _ H), (utf16_units _ _ H'); reflexivity. Qed.
Lemma forall2_in_r {A B} (R : A -> B -> Prop) l l' y : Forall2 R l l' -> In y l' -> exists x, In x l /\ R x y.
Proof.
  induction 1 as [|a b l l' Hab H IH]; intros Hin; [contradiction|]; destruct Hin as [->|Hin]; [exists a; split; [left; reflexivity|exact Hab]|].
  destruct (IH Hin) as (x & Hx & Hr); exists x; split; [right; exact Hx|exact Hr].
Qed.
Lemma tests_same t l l' : Forall2 (fun (e : bytes * bytes) (x : jstring * jstring) => utf16 (fst x) (runes (fst e)) /\ utf16 (snd x) (runes (snd e))) t l ->
  Forall2 (fun (e : bytes * bytes) (x : jstring * jstring) => utf16 (fst x) (runes (fst e)) /\ utf16 (snd x) (runes (snd e))) t l' -> l = l'.
Proof.
  intros H; revert l'; induction H as [|e x t l [H1 H2] H IH]; intros l' H'; inversion H' as [|? x' ? l0 [H3 H4] H5]; subst; [reflexivity|].
  f_equal; [|apply IH; exact H5]; destruct x, x'; cbn [fst snd] in *; f_equal; eapply utf16_same; eassumption.
Qed.

(** Each key is that of one bundled language. *)
Definition of_bundle (lang : jstring) (s : page_spec) : Prop :=
  exists name src s0, lookup bundled_files (specs_dir ++ name ++ ext) = Some src /\ parse_spec choices0 src = Ok s0 /\
    utf8_text name /\ In name (list_langs bundled_files) /\ utf16 lang (runes name) /\ ps_id s = lang /\
    l_id (s_lang s0) = name /\ utf16 (ps_korean s) (runes (l_korean (s_lang s0))) /\
    Forall2 (fun e x => utf16 (fst x) (runes (fst e)) /\ utf16 (snd x) (runes (snd e))) (s_test s0) (ps_test s).
Lemma given_bundle c order specs translits ps lang s :
  (forall lang, choices_ok (c lang)) -> (forall l, Permutation l (order l)) ->
  manifest bundled_files c order = Ok (specs, translits) -> given_by specs ps -> lookup ps lang = Some s -> of_bundle lang s.
Proof.
  intros Hc Ho Em (ms & Hp & Hf) Hl; apply PropBundled.lookup_in in Hl.
  destruct (forall2_in_r _ _ _ _ Hf Hl) as ([name j] & Hin & Hk & Hid & Hko & Ht); cbn [fst snd] in *.
  destruct (C61_manifest c order Hc Ho) as (specs' & translits' & Em' & Hlangs & _ & Hs & _).
  rewrite Em in Em'; injection Em' as <- <-.
  assert (In (name, j) specs) as Hin' by (eapply Permutation_in; [exact Hp|exact Hin]).
  destruct (Hs name j Hin') as (Ej & src & s0 & Es & E0 & D1 & _ & _ & D4 & _ & _ & _ & _ & D9).
  assert (In name (list_langs bundled_files)) as Hln by (eapply Permutation_in; [exact Hlangs|apply (in_map fst) in Hin'; exact Hin']).
  destruct (C74_manifest c order [] Hc Ho) as (specs2 & translits2 & ms2 & Em2 & _ & _ & Hm2 & Hu & _).
  assert (utf8_text name) as Hutf.
  { rewrite <- Hm2 in Hln; apply in_map_iff in Hln; destruct Hln as ([name' j'] & E & Hin2); cbn [fst] in E; subst name'.
    exact (proj1 (Hu _ _ Hin2)). }
  exists name, src, s0; split; [exact Es|]; split; [exact E0|]; split; [exact Hutf|]; split; [exact Hln|]; split; [exact Hk|].
  split; [rewrite Ej in Hid; eapply utf16_same; eassumption|]; split; [congruence|].
  rewrite <- D4, <- D9; split; assumption.
Qed.

(** The flags of bundled languages *)
Lemma flags_checked : forallb (fun name => match lookup flags (flat_map units (runes name)) with Some _ => true | None => false end)
  (list_langs bundled_files) = true.
Proof. vm_compute; reflexivity. Qed.
(** A flag has the two letters of a country; Welsh has that of Wales, and some languages have none. *)
Theorem C84_flags : forall lang flag, lookup flags lang = Some flag ->
  flag = [] \/ flag = lit "gb wls" \/ exists a b, flag = [a; b] /\ (0x61 <= a <= 0x7A)%N /\ (0x61 <= b <= 0x7A)%N.
Proof.
  intros lang flag E; apply PropBundled.lookup_in in E.
  assert (Forall (fun e => snd e = [] \/ snd e = lit "gb wls" \/ exists a b, snd e = [a; b] /\ (0x61 <= a <= 0x7A)%N /\ (0x61 <= b <= 0x7A)%N) flags) as H.
  { unfold flags; repeat (apply Forall_cons; [cbn; first [left; reflexivity|right; left; reflexivity|right; right; do 2 eexists; split; [reflexivity|lia]]|]); apply Forall_nil. }
  rewrite Forall_forall in H; exact (H _ E).
Qed.
Print Assumptions C84_flags.
Lemma bundle_flag lang s : of_bundle lang s -> exists flag, lookup flags lang = Some flag.
Proof.
  intros (name & src & s0 & _ & _ & _ & Hln & Hu & _); pose proof flags_checked as Hf; rewrite forallb_forall in Hf; specialize (Hf _ Hln).
  rewrite <- (utf16_units _ _ Hu) in Hf; destruct (lookup flags lang) as [f|]; [exists f; reflexivity|discriminate].
Qed.
Lemma bundle_nonempty lang s : of_bundle lang s -> lang <> [].
Proof. intros H ->; destruct (bundle_flag _ _ H) as (f & E); vm_compute in E; discriminate. Qed.
Lemma bundle_proto lang s : of_bundle lang s -> existsb (beqb lang) object_prototype = false.
Proof.
  intros H; destruct (existsb (beqb lang) object_prototype) eqn:E; [exfalso|reflexivity].
  apply existsb_exists in E; destruct E as (x & Hin & E); apply beqb_eq in E; subst x.
  destruct (bundle_flag _ _ H) as (f & Ef).
  assert (Forall (fun l => lookup flags l = None) object_prototype) as Hp by (repeat (constructor; [vm_compute; reflexivity|]); constructor).
  rewrite Forall_forall in Hp; rewrite (Hp _ Hin) in Ef; discriminate.
Qed.

Lemma given_consistent c order specs translits :
  (forall lang, choices_ok (c lang)) -> (forall l, Permutation l (order l)) ->
  manifest bundled_files c order = Ok (specs, translits) -> consistent (given_by specs).
Proof.
  intros Hc Ho Em; split.
  - intros ps ps' lang tests tests' G G' H H'; unfold tests_of in H, H'.
    assert (forall ps, given_by specs ps -> forall s, lookup ps lang = Some s -> of_bundle lang s) as Hb
      by (intros; eapply given_bundle; eassumption).
    destruct (lookup ps lang) as [s|] eqn:E, (lookup ps' lang) as [s'|] eqn:E'.
    + injection H as <-; injection H' as <-.
      destruct (Hb _ G _ E) as (name & src & s0 & L1 & P1 & U1 & _ & Hu1 & _ & _ & _ & T1).
      destruct (Hb _ G' _ E') as (name' & src' & s0' & L2 & P2 & U2 & _ & Hu2 & _ & _ & _ & T2).
      assert (name = name') as <-.
      { rewrite <- (utf8_text_runes name U1), <- (utf8_text_runes name' U2), <- (usv_utf16 _ _ Hu1), <- (usv_utf16 _ _ Hu2); reflexivity. }
      rewrite L1 in L2; injection L2 as <-; rewrite P1 in P2; injection P2 as <-; eapply tests_same; eassumption.
    + rewrite (bundle_proto _ _ (Hb _ G _ E)) in H'; discriminate.
    + rewrite (bundle_proto _ _ (Hb _ G' _ E')) in H; discriminate.
    + rewrite H in H'; injection H' as <-; reflexivity.
  - intros ps G; destruct (lookup ps []) as [s|] eqn:E; [exfalso|reflexivity].
    eapply bundle_nonempty; [eapply given_bundle; eassumption|reflexivity].
Qed.

(** The links of the examples shown lead to the language and the word. *)
Theorem C83_links : forall c order specs translits b w r a search,
  (forall lang, choices_ok (c lang)) -> (forall l, Permutation l (order l)) ->
  manifest bundled_files c order = Ok (specs, translits) ->
  examples_reached (given_by specs) b -> examples_rest b -> In (w, r) (eb_shown b) -> visited a ->
  search = parse_path (example_link (eb_lang b) w) \/ search = url_query (parse_path (example_link (eb_lang b) w)) ->
  let a' := navigate a search in
  (forall sample, app_lang sample (current_params a') = eb_lang b) /\ app_word (current_params a') = w /\
  forall again, again = search \/ again = url_query search -> current_params (first_address again) = current_params a'.
Proof.
  intros c order specs translits b w r a search Hc Ho Em Hr Hrest Hin Ha Hs a'.
  pose proof (given_consistent c order specs translits Hc Ho Em) as Hcon.
  destruct (C83_shown _ b Hcon Hr Hrest) as (tests & Et & all & Hp & Esh).
  assert (In (w, r) tests) as Hint.
  { eapply Permutation_in; [apply Permutation_sym; exact Hp|]; rewrite Esh in Hin; rewrite <- (firstn_skipn 5 all); apply in_or_app; left; exact Hin. }
  unfold tests_of in Et; destruct (lookup (eb_specs b) (eb_lang b)) as [s|] eqn:El.
  2: { destruct (existsb _ _); [injection Et as <-; contradiction|discriminate]. }
  injection Et as <-.
  destruct (given_bundle c order specs translits _ _ _ Hc Ho Em (ei_given _ _ (reached_inv _ _ Hcon Hr)) El)
    as (name & src & s0 & L1 & P1 & _ & _ & Hu & _ & Hid & _ & T1).
  destruct (forall2_in_r _ _ _ _ T1 Hint) as ([w0 r0] & Hin0 & Hw & _); cbn [fst snd] in *.
  rewrite <- Hid in Hu.
  destruct (C78_bundled name src s0 w0 r0 a (eb_lang b) w search L1 P1 Hin0 Ha Hu Hw Hs) as (X1 & X2 & _ & X4); auto.
Qed.
Print Assumptions C83_links.

Definition ex_specs : page_specs :=
  [(lit "ita", {| ps_id := lit "ita"; ps_korean := lit "it"; ps_test := [(lit "a", lit "A"); (lit "b", lit "B")] |});
   (lit "nld", {| ps_id := lit "nld"; ps_korean := lit "du"; ps_test := map (fun k => ([k], [k])) [1; 2; 3; 4; 5; 6; 7]%N |});
   (lit "xyz", {| ps_id := lit "xyz"; ps_korean := lit "du"; ps_test := [] |})].
Example C83_example :
  let b1 := examples_effect [3] (examples_first ex_specs (lit "ita")) in
  let b2 := examples_render (eb_specs b1) (eb_lang b1) b1 in
  let b3 := examples_effect [6; 5; 1; 0; 1] (examples_render ex_specs (lit "nld") (examples_effect [] b2)) in
  let b4 := examples_effect [] (examples_render (eb_specs b3) (eb_lang b3) b3) in
  consistent (fun specs => specs = ex_specs) /\ examples_reached (fun specs => specs = ex_specs) b4 /\ examples_rest b4 /\
  map fst (eb_shown b2) = [lit "b"; lit "a"] /\ map fst (eb_shown b4) = [[7]; [1]; [4]; [3]; [6]]%N.
Proof.
  cbv zeta; split; [|split; [|split; [split; reflexivity|split; vm_compute; reflexivity]]].
  - split; [intros ? ? lang tests tests' -> -> H H'; rewrite H in H'; injection H' as <-; reflexivity|intros ? ->; reflexivity].
  - repeat (eapply exr_step; [|first [apply ex_effect; reflexivity|apply ex_again; reflexivity|apply ex_app; [reflexivity|discriminate]]|reflexivity]).
    apply exr_first; [reflexivity|discriminate].
Qed.

(** ** C84 Languages *)

Definition select_rest (b : select_box) : Prop := sb_effect b = false /\ sb_dirty b = false.
(** The order of strings by their units: equal up to a place where one ends or has a lower unit *)
Inductive js_before : jstring -> jstring -> Prop :=
| jb_end p u s : js_before p (p ++ u :: s)
| jb_unit p u v s t : (u < v)%N -> js_before (p ++ u :: s) (p ++ v :: t).

Lemma js_less_before a : forall b, js_less a b = true <-> js_before a b.
Proof.
  induction a as [|x a IH]; intros [|y b]; cbn [js_less].
  - split; [discriminate|intros H; inversion H as [p u s E1 E2|p u v s t Hl E1 E2]; destruct p; discriminate].
  - split; [intros _; apply (jb_end [] y b)|reflexivity].
  - split; [discriminate|intros H; inversion H as [p u s E1 E2|p u v s t Hl E1 E2]; destruct p; discriminate].
  - rewrite orb_true_iff, andb_true_iff, IH, N.ltb_lt, N.eqb_eq; split.
    + intros [Hl|[-> H]]; [apply (jb_unit [] x y a b Hl)|].
      destruct H as [p u s|p u v s t Hl]; [apply (jb_end (y :: p) u s)|apply (jb_unit (y :: p) u v s t Hl)].
    + intros H; remember (x :: a) as l eqn:E1; remember (y :: b) as m eqn:E2; destruct H as [p u s|p u v s t Hl].
      * subst p; cbn [app] in E2; injection E2 as -> <-; right; split; [reflexivity|constructor].
      * destruct p as [|z p]; cbn [app] in E1, E2.
        -- injection E1 as -> ->; injection E2 as -> ->; left; exact Hl.
        -- injection E1 as -> <-; injection E2 as -> <-; right; split; [reflexivity|constructor; exact Hl].
Qed.
Lemma js_less_irrefl a : js_less a a = false.
Proof. induction a as [|x a IH]; [reflexivity|]; cbn [js_less]; rewrite IH, N.ltb_irrefl, andb_false_r; reflexivity. Qed.
Lemma js_less_trans a : forall b c, js_less a b = true -> js_less b c = true -> js_less a c = true.
Proof.
  induction a as [|x a IH]; intros [|y b] [|z c]; cbn [js_less]; try discriminate; auto.
  rewrite !orb_true_iff, !andb_true_iff, !N.ltb_lt, !N.eqb_eq.
  intros [H1|[H1 H1']] [H2|[H2 H2']]; [left; lia|left; lia|left; lia|right; split; [lia|eapply IH; eassumption]].
Qed.
Lemma js_less_total a : forall b, js_less a b = false -> js_less b a = false -> a = b.
Proof.
  induction a as [|x a IH]; intros [|y b]; cbn [js_less]; try discriminate; [reflexivity|].
  rewrite !orb_false_iff; intros [H1 H2] [H3 H4]; apply N.ltb_ge in H1, H3; assert (x = y) as <- by lia.
  rewrite N.eqb_refl in H2, H4; f_equal; apply IH; assumption.
Qed.

Lemma insert_perm s l : Permutation (s :: l) (sort_insert s l).
Proof.
  induction l as [|x l IH]; cbn [sort_insert]; [apply Permutation_refl|destruct (js_less _ _); [|apply Permutation_refl]].
  eapply perm_trans; [apply perm_swap|apply perm_skip; exact IH].
Qed.
Definition not_after (a b : page_spec) : Prop := ~ js_before (ps_korean b) (ps_korean a).
Lemma not_after_less a b : not_after a b <-> js_less (ps_korean b) (ps_korean a) = false.
Proof.
  unfold not_after; rewrite <- js_less_before; destruct (js_less _ _); split; intros H; [contradiction H; reflexivity|discriminate|reflexivity|discriminate].
Qed.
Lemma insert_sorted s l : StronglySorted not_after l -> StronglySorted not_after (sort_insert s l).
Proof.
  induction 1 as [|x l Hs IH Hf]; cbn [sort_insert]; [repeat constructor|].
  destruct (js_less (ps_korean x) (ps_korean s)) eqn:E.
  - constructor; [exact IH|]; eapply Permutation_Forall; [apply insert_perm|]; constructor; [|exact Hf].
    apply not_after_less; destruct (js_less (ps_korean s) (ps_korean x)) eqn:E'; [|reflexivity].
    pose proof (js_less_trans _ _ _ E E') as E2; rewrite js_less_irrefl in E2; discriminate.
  - constructor; [constructor; assumption|]; constructor; [apply not_after_less; exact E|].
    eapply Forall_impl; [|exact Hf]; intros y Hy; apply not_after_less in Hy; apply not_after_less.
    destruct (js_less (ps_korean y) (ps_korean s)) eqn:E'; [|reflexivity].
    destruct (js_less (ps_korean x) (ps_korean y)) eqn:E2; [rewrite (js_less_trans _ _ _ E2 E') in E; discriminate|].
    rewrite (js_less_total _ _ E2 Hy) in E; congruence.
Qed.
Lemma insert_filter k s l : StronglySorted not_after l ->
  filter (fun x => beqb (ps_korean x) k) (sort_insert s l) = filter (fun x => beqb (ps_korean x) k) (s :: l).
Proof.
  induction 1 as [|x l Hs IH Hf]; cbn [sort_insert]; [reflexivity|].
  destruct (js_less (ps_korean x) (ps_korean s)) eqn:E; [|reflexivity]; cbn [filter] in *; rewrite IH.
  destruct (beqb (ps_korean x) k) eqn:Ex, (beqb (ps_korean s) k) eqn:Es; try reflexivity.
  apply beqb_eq in Ex, Es; rewrite Ex, Es, js_less_irrefl in E; discriminate.
Qed.
Lemma sorted_specs specs : let l := sort_by_korean specs in
  Permutation (map snd specs) l /\ StronglySorted not_after l /\
  forall k, filter (fun x => beqb (ps_korean x) k) l = filter (fun x => beqb (ps_korean x) k) (map snd specs).
Proof.
  unfold sort_by_korean; cbv zeta; induction (map snd specs) as [|s l (H1 & H2 & H3)]; cbn [fold_right].
  - split; [constructor|split; [constructor|reflexivity]].
  - split; [|split].
    + eapply perm_trans; [apply perm_skip; exact H1|apply insert_perm].
    + apply insert_sorted; exact H2.
    + intros k; rewrite insert_filter by exact H2; cbn [filter]; rewrite H3; reflexivity.
Qed.

Lemma select_shown b : select_reached b -> select_rest b -> sb_shown b = select_options (sb_specs b).
Proof.
  intros Hr [He Hd].
  assert ((sb_effect b = false -> sb_next b = select_options (sb_specs b)) /\ (sb_dirty b = false -> sb_shown b = sb_next b)) as [H1 H2].
  { clear He Hd; induction Hr as [specs|b b' Hr IH Hs]; [split; [discriminate|reflexivity]|].
    destruct Hs as [b He|other b He]; cbn [select_effect select_render sb_specs sb_effect sb_next sb_shown sb_dirty].
    - split; [reflexivity|discriminate].
    - split; [|reflexivity]; destruct other; [discriminate|intros _; apply (proj1 IH He)]. }
  rewrite (H2 Hd), (H1 He); reflexivity.
Qed.

(** At rest, there is one option for each language, by the Korean name; languages of the same
    name keep the order of the specs. *)
Theorem C84_options : forall b, select_reached b -> select_rest b ->
  exists sorted, Permutation (map snd (sb_specs b)) sorted /\ StronglySorted not_after sorted /\
    (forall k, filter (fun x => beqb (ps_korean x) k) sorted = filter (fun x => beqb (ps_korean x) k) (map snd (sb_specs b))) /\
    map op_value (sb_shown b) = map ps_id sorted /\ map op_text (sb_shown b) = map ps_korean sorted.
Proof.
  intros b Hr Hrest.
  destruct (sorted_specs (sb_specs b)) as (P1 & P2 & P3); exists (sort_by_korean (sb_specs b)).
  rewrite (select_shown b Hr Hrest); unfold select_options; rewrite !map_map; auto.
Qed.
Print Assumptions C84_options.

(** For the bundled languages: every option has a flag, and choosing it leads to that language,
    which App knows, with the word as it was. *)
Theorem C84_choose : forall c order specs translits b o a word,
  (forall lang, choices_ok (c lang)) -> (forall l, Permutation l (order l)) ->
  manifest bundled_files c order = Ok (specs, translits) ->
  select_reached b -> select_rest b -> given_by specs (sb_specs b) -> In o (sb_shown b) -> visited a -> js_units word ->
  (exists flag, op_flag o = Some flag) /\
  let a' := handle_change (op_value o) word a in
  app_renders (sb_specs b) (op_value o) /\
  (forall sample, app_lang sample (current_params a') = op_value o) /\ app_word (current_params a') = usv_string word.
Proof.
  intros c order specs translits b o a word Hc Ho Em Hr Hrest Hg Hin Ha Hw.
  rewrite (select_shown b Hr Hrest) in Hin; unfold select_options in Hin; apply in_map_iff in Hin; destruct Hin as (s & <- & Hin).
  assert (In s (map snd (sb_specs b))) as Hin'.
  { eapply Permutation_in; [apply Permutation_sym, sorted_specs|exact Hin]. }
  apply in_map_iff in Hin'; destruct Hin' as ([lang s'] & E & Hin'); cbn [snd] in E; subst s'.
  assert (exists s', lookup (sb_specs b) lang = Some s') as (s' & El).
  { clear -Hin'; induction (sb_specs b) as [|[k x] l IH]; [contradiction|]; cbn [lookup].
    destruct (beqb k lang) eqn:E; [eauto|]; destruct Hin' as [Hx|Hx]; [|apply IH; exact Hx].
    injection Hx as -> ->; rewrite (proj2 (beqb_eq lang lang) eq_refl) in E; discriminate. }
  pose proof (given_bundle c order specs translits _ _ _ Hc Ho Em Hg El) as Hb.
  (* the id of the spec is its key *)
  assert (ps_id s = lang) as Hid.
  { destruct Hg as (ms & Hp & Hf); destruct (forall2_in_r _ _ _ _ Hf Hin') as ([name j] & Hinm & Hk & Hi & _); cbn [fst snd] in *.
    destruct (C61_manifest c order Hc Ho) as (specs' & translits' & Em' & _ & _ & Hs & _).
    rewrite Em in Em'; injection Em' as <- <-.
    destruct (Hs name j ltac:(eapply Permutation_in; [exact Hp|exact Hinm])) as (Ej & _).
    rewrite Ej in Hi; eapply utf16_same; eassumption. }
  cbn [option_of op_flag op_value]; rewrite Hid; split; [exact (bundle_flag _ _ Hb)|]; cbv zeta.
  split; [unfold app_renders, tests_of; rewrite El; discriminate|].
  pose proof (bundle_nonempty _ _ Hb) as Hne; destruct Hb as (name & _ & _ & _ & _ & _ & _ & Hu & _).
  assert (usv_string lang = lang) as Eu by (unfold usv_string; rewrite (usv_utf16 _ _ Hu); symmetry; apply utf16_units; exact Hu).
  assert (js_units lang) as Hju.
  { clear -Hu; induction Hu as [|u s rs H0 H IH|h l s rs Hh Hl H IH]; unfold js_units in *; [constructor|constructor; [lia|exact IH]|].
    constructor; [lia|]; constructor; [lia|exact IH]. }
  destruct (C77_typed a lang word Ha Hju Hw ltac:(rewrite Eu; exact Hne)) as (_ & X1 & X2 & _); rewrite Eu in X1; auto.
Qed.
Print Assumptions C84_choose.

Example C84_example :
  let b := select_render None (select_effect (select_render (Some ex_specs) (select_render None (select_effect (select_first []))))) in
  select_reached b /\ select_rest b /\
  map (fun o => (op_value o, op_flag o)) (sb_shown b) = [(lit "nld", Some (lit "nl")); (lit "xyz", None); (lit "ita", Some (lit "it"))].
Proof.
  cbv zeta; split; [|split; [split; reflexivity|vm_compute; reflexivity]].
  repeat (eapply ser_step; [|first [apply se_effect; reflexivity|apply se_render; reflexivity]]); apply ser_first.
Qed.
