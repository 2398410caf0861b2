(** Properties C35 to C40: the package-level functions. *)
From Coq Require Import Permutation Sorted String.
From Verif Require Import GoBase Utf8 Utf8Facts Hsl Spec SpecOrder Jamo Procedure ProcFacts Replacer ReplacerFacts
  BString Bundled Api ApiFacts Concurrent PropBundled PropOutput.
Open Scope Z_scope.

(** ** C35 Error contract of Hangulize

    For any set of bundled files and any contents of the cache, a call that returns ends in
    one of three ways. *)
Theorem C35_contract :
  forall W (H : hangul_lib) fs c specs (reg : list (bytes * translit W)) w lang word specs' w' out err,
  hangulize H fs c specs reg w lang word = (specs', w', Ok (out, err)) ->
  (lookup specs lang = None /\ lookup fs (specs_dir ++ lang ++ ext) = None /\
   out = word /\ err = Some (ErrSpecNotFound lang)) \/
  (exists s sc, snd (load_spec fs c specs lang) = Ok s /\ In sc (l_translit (s_lang s)) /\ out = [] /\
     (err = Some (ErrTranslit sc) \/ (err = Some (ErrTranslitNotImported sc) /\ lookup reg sc = None))) \/
  (exists s tr, snd (load_spec fs c specs lang) = Ok s /\ err = None /\
     forward H s reg false w word = (w', tr, Ok out)).
Proof. intros; eapply hangulize_errors; eassumption. Qed.
Print Assumptions C35_contract.

(** With the bundled files, an unknown language is always reported and changes nothing. *)
Theorem C35_unknown :
  forall W (H : hangul_lib) c (reg : list (bytes * translit W)) w lang word,
  ~ In lang (list_langs bundled_files) ->
  hangulize H bundled_files c [] reg w lang word = ([], w, Ok (word, Some (ErrSpecNotFound lang))).
Proof.
  intros W H c reg w lang word Hn; unfold hangulize, load_spec; cbn [lookup].
  destruct (lookup bundled_files (specs_dir ++ lang ++ ext)) as [src|] eqn:E; [|reflexivity].
  exfalso; apply Hn; apply (list_langs_in _ _ bundled_flat); exists src; apply lookup_in; exact E.
Qed.
Print Assumptions C35_unknown.

(** With the bundled files a call for a bundled language returns, whatever the word. *)
Theorem C35_returns :
  forall W (H : hangul_lib) c (reg : list (bytes * translit W)) w lang word,
  choices_ok c -> In lang (list_langs bundled_files) ->
  (forall sc t w x, lookup reg sc = Some t -> returns (snd (tl_run t w x))) ->
  exists specs' w' out err, hangulize H bundled_files c [] reg w lang word = (specs', w', Ok (out, err)) /\
    err <> Some (ErrSpecNotFound lang).
Proof.
  intros W H c reg w lang word Hc Hin Ht.
  destruct (C05_loads lang c [] Hin Hc) as (specs' & s & El & _ & Hs).
  destruct (Hs eq_refl) as (src & Hsrc & Hp).
  destruct (forward H s reg false w word) as [[w' tr] r] eqn:Ef.
  destruct (C06_returns W H _ src c s reg false w word w' tr r Hsrc Hc Hp) as [(out & ->)|(sc & Hr)]; try assumption.
  - intros; eapply Ht; eassumption.
  - exists specs', w', out, None; unfold hangulize, run_hangulizer; rewrite El, Ef; split; [reflexivity|discriminate].
  - exists specs', w', []; destruct Hr as [->| ->]; eexists; unfold hangulize, run_hangulizer;
      rewrite El, Ef; (split; [reflexivity|discriminate]).
Qed.
Print Assumptions C35_returns.

(** Japanese needs furigana. *)
Example C35_example :
  snd (hangulize (W := unit) go_hangul bundled_files choices0 [] [] tt (lit "jpn") (lit "か"))
  = Ok ([], Some (ErrTranslitNotImported (lit "furigana"))).
Proof. vm_compute; reflexivity. Qed.
Example C35_example_unknown : ~ In (lit "x") (list_langs bundled_files).
Proof. vm_compute; intuition discriminate. Qed.

(** ** C36 The transliterator registry behaves as a map and hands out copies

    [history m calls answers]: the answers to the calls are those of a map [m] (a function
    from schemes), whatever is written into the copies.  Copies are never at address 0,
    where the registry is. *)
Section C36.
  Context {T : Type} (scheme : T -> bytes).
  Definition update (m : bytes -> option T) (k : bytes) (v : option T) : bytes -> option T :=
    fun k' => if beqb k k' then v else m k'.
  Inductive history : (bytes -> option T) -> list call -> list answer -> Prop :=
  | h_end m : history m [] []
  | h_use_new m t cs ans : m (scheme t) = None ->
      history (update m (scheme t) (Some t)) cs ans -> history m (Use t :: cs) (Changed true :: ans)
  | h_use_old m t t' cs ans : m (scheme t) = Some t' ->
      history m cs ans -> history m (Use t :: cs) (Changed false :: ans)
  | h_unuse m s t' cs ans : m s = Some t' ->
      history (update m s None) cs ans -> history m (Unuse s :: cs) (Changed true :: ans)
  | h_unuse_no m s cs ans : m s = None ->
      history m cs ans -> history m (Unuse s :: cs) (Changed false :: ans)
  | h_copy m a copy cs ans : (0 < a)%nat -> (forall k, lookup copy k = m k) ->
      history m cs ans -> history m (Translits :: cs) (Copy a copy :: ans)
  | h_scribble m i contents cs ans :
      history m cs ans -> history m (Scribble i contents :: cs) (Nothing :: ans).

  Lemma history_ext m m' cs ans : (forall k, m k = m' k) -> history m cs ans -> history m' cs ans.
  Proof.
    intros He H; revert m' He; induction H; intros m' He; rewrite ?He in *; econstructor; try eassumption; eauto;
      try (apply IHhistory; intros k; unfold update; rewrite He; reflexivity).
    intros k; rewrite <- He; auto.
  Qed.
  Lemma lookup_remove (r : list (bytes * T)) s k :
    lookup (remove r s) k = update (lookup r) s None k.
  Proof.
    unfold update; induction r as [|[k' v] r IH]; cbn [remove filter fst lookup].
    - destruct (beqb s k); reflexivity.
    - destruct (beqb k' s) eqn:E; cbn [negb].
      + apply beqb_eq in E; subst k'; fold (remove r s); rewrite IH; destruct (beqb s k); reflexivity.
      + cbn [lookup]; fold (remove r s); rewrite IH; destruct (beqb k' k) eqn:E2; [|reflexivity].
        apply beqb_eq in E2; subst k'; destruct (beqb s k) eqn:E3; [|reflexivity].
        apply beqb_eq in E3; subst s; rewrite (proj2 (beqb_eq k k) eq_refl) in E; discriminate.
  Qed.
  Lemma read_write_0 (h : heap (T := T)) r : read (write h 0 r) 0 = r.
  Proof. reflexivity. Qed.
  Lemma length_write (h : heap (T := T)) i r : (i < length h)%nat -> length (write h i r) = length h.
  Proof. intros H; unfold write; rewrite app_length, firstn_length; cbn [length]; rewrite skipn_length; lia. Qed.
  Lemma read_write_other (h : heap (T := T)) i j r : (i < length h)%nat -> i <> j -> read (write h i r) j = read h j.
  Proof.
    intros Hi Hj; unfold read, write; destruct (Nat.lt_ge_cases j i) as [Hlt|Hge].
    - rewrite app_nth1 by (rewrite firstn_length; lia).
      rewrite <- (firstn_skipn i h) at 2; rewrite app_nth1 by (rewrite firstn_length; lia); reflexivity.
    - rewrite app_nth2 by (rewrite firstn_length; lia); rewrite firstn_length, Nat.min_l by lia.
      destruct (j - i)%nat as [|k] eqn:E; [lia|]; cbn [nth].
      rewrite <- (firstn_skipn (S i) h) at 2; rewrite app_nth2 by (rewrite firstn_length; lia).
      rewrite firstn_length, Nat.min_l by lia; f_equal; lia.
  Qed.

  Lemma call_steps_history cs h :
    (0 < length h)%nat -> history (lookup (read h 0)) cs (snd (call_steps scheme h cs)).
  Proof.
    revert h; induction cs as [|c cs IH]; intros h Hh; cbn [call_steps snd]; [constructor|].
    destruct c as [t|s| |i m]; cbn [call_step].
    - unfold reg_add; destruct (lookup (read h 0) (scheme t)) as [t'|] eqn:E.
      + specialize (IH (write h 0 (read h 0)) ltac:(rewrite length_write; lia)); rewrite read_write_0 in IH.
        destruct (call_steps scheme _ cs) as [h2 l]; cbn [snd] in *; eapply h_use_old; eassumption.
      + specialize (IH (write h 0 ((scheme t, t) :: read h 0)) ltac:(rewrite length_write; lia)); rewrite read_write_0 in IH.
        destruct (call_steps scheme _ cs) as [h2 l]; cbn [snd] in *; apply h_use_new; [exact E|].
        eapply history_ext; [|exact IH]; reflexivity.
    - unfold reg_remove; destruct (lookup (read h 0) s) as [t'|] eqn:E.
      + specialize (IH (write h 0 (remove (read h 0) s)) ltac:(rewrite length_write; lia)); rewrite read_write_0 in IH.
        destruct (call_steps scheme _ cs) as [h2 l]; cbn [snd] in *; eapply h_unuse; [exact E|].
        eapply history_ext; [|exact IH]; intros k; apply lookup_remove.
      + specialize (IH (write h 0 (read h 0)) ltac:(rewrite length_write; lia)); rewrite read_write_0 in IH.
        destruct (call_steps scheme _ cs) as [h2 l]; cbn [snd] in *; eapply h_unuse_no; eassumption.
    - specialize (IH (h ++ [read h 0]) ltac:(rewrite app_length; cbn; lia)).
      destruct (call_steps scheme _ cs) as [h2 l]; cbn [snd] in *; apply h_copy; [exact Hh|reflexivity|].
      replace (read (h ++ [read h 0]) 0) with (read h 0) in IH; [exact IH|].
      unfold read; rewrite app_nth1 by exact Hh; reflexivity.
    - destruct ((1 <=? i)%nat && (i <? length h)%nat) eqn:E.
      + apply andb_true_iff in E; destruct E as [E1 E2]; apply Nat.leb_le in E1; apply Nat.ltb_lt in E2.
        specialize (IH (write h i m) ltac:(rewrite length_write; lia)).
        rewrite read_write_other in IH by lia.
        destruct (call_steps scheme _ cs) as [h2 l]; cbn [snd] in *; apply h_scribble; exact IH.
      + specialize (IH h Hh); destruct (call_steps scheme _ cs) as [h2 l]; cbn [snd] in *; apply h_scribble; exact IH.
  Qed.

  (** A copy changes only when its owner writes into it. *)
  Lemma copy_kept cs h a :
    (0 < a < length h)%nat -> (forall contents, ~ In (Scribble a contents) cs) ->
    read (fst (call_steps scheme h cs)) a = read h a.
  Proof.
    revert h; induction cs as [|c cs IH]; intros h Ha Hn; cbn [call_steps fst]; [reflexivity|].
    assert (forall h', (0 < a < length h')%nat -> read h' a = read h a ->
              read (fst (call_steps scheme h' cs)) a = read h a) as Hgo.
    { intros h' Hl Hr; rewrite <- Hr; apply IH; [exact Hl|]; intros x Hx; apply (Hn x); right; exact Hx. }
    assert (exists h' x, call_step scheme h c = (h', x) /\ (0 < a < length h')%nat /\ read h' a = read h a)
      as (h' & x & -> & Hl & Hr).
    { destruct c as [t|s| |i m]; cbn [call_step].
      - destruct (reg_add scheme (read h 0) t) as [r b]; do 2 eexists; split; [reflexivity|].
        rewrite length_write by lia; split; [exact Ha|]; apply read_write_other; lia.
      - destruct (reg_remove (read h 0) s) as [r b]; do 2 eexists; split; [reflexivity|].
        rewrite length_write by lia; split; [exact Ha|]; apply read_write_other; lia.
      - do 2 eexists; split; [reflexivity|]; rewrite app_length; cbn [length]; split; [lia|].
        unfold read; apply app_nth1; lia.
      - do 2 eexists; split; [reflexivity|].
        destruct ((1 <=? i)%nat && (i <? length h)%nat) eqn:E; [|split; [exact Ha|reflexivity]].
        apply andb_true_iff in E; destruct E as [E1 E2]; apply Nat.ltb_lt in E2.
        rewrite length_write by lia; split; [exact Ha|]; apply read_write_other; [lia|].
        intros ->; apply (Hn m); left; reflexivity. }
    specialize (Hgo h' Hl Hr); destruct (call_steps scheme h' cs); exact Hgo.
  Qed.
End C36.

(** From the empty registry of the package, or of a new Hangulizer. *)
Theorem C36_registry : forall T (scheme : T -> bytes) calls,
  history scheme (fun _ => None) calls (snd (call_steps scheme [[]] calls)).
Proof. intros T scheme calls; exact (call_steps_history scheme calls [[]] ltac:(cbn; lia)). Qed.
Print Assumptions C36_registry.

Theorem C36_copies : forall T (scheme : T -> bytes) h h1 a copy calls,
  (0 < length h)%nat -> call_step scheme h Translits = (h1, Copy a copy) ->
  (forall contents, ~ In (Scribble a contents) calls) ->
  read (fst (call_steps scheme h1 calls)) a = copy.
Proof.
  intros T scheme h h1 a copy calls Hh E Hn; cbn [call_step] in E; injection E as <- <- <-.
  rewrite copy_kept; [|rewrite app_length; cbn; lia|exact Hn].
  unfold read; rewrite app_nth2 by lia; rewrite Nat.sub_diag; reflexivity.
Qed.
Print Assumptions C36_copies.

(** Transliterators are numbers here, the scheme is the last digit. *)
Definition digit (n : N) : bytes := [(n mod 10)%N].
Example C36_example :
  snd (call_steps digit [[]] [Use 1%N; Use 11%N; Translits; Scribble 1 []; Unuse [1%N]; Use 11%N; Translits; Unuse [2%N]])
  = [Changed true; Changed false; Copy 1 [([1%N], 1%N)]; Nothing; Changed true; Changed true;
     Copy 2 [([1%N], 11%N)]; Changed false].
Proof. vm_compute; reflexivity. Qed.

(** ** C37 Install is all-or-nothing *)
Lemma reg_remove_lookup {T} (r : list (bytes * T)) s k :
  lookup (fst (reg_remove r s)) k = update (lookup r) s None k.
Proof.
  unfold reg_remove; destruct (lookup r s) as [t|] eqn:E; cbn [fst]; [apply lookup_remove|].
  unfold update; destruct (beqb s k) eqn:E2; [|reflexivity]; apply beqb_eq in E2; subst; exact E.
Qed.
Lemma unwind_lookup {T} (scheme : T -> bytes) done (r : list (bytes * T)) k :
  lookup (fold_left (fun r t => fst (reg_remove r (scheme t))) done r) k =
  if existsb (fun t => beqb (scheme t) k) done then None else lookup r k.
Proof.
  revert r; induction done as [|t done IH]; intros r; cbn [fold_left existsb]; [reflexivity|].
  rewrite IH, reg_remove_lookup; unfold update; destruct (existsb _ done), (beqb (scheme t) k); reflexivity.
Qed.
Lemma install_loop_spec {T} (scheme : T -> bytes) ts done (r0 r : list (bytes * T)) :
  (forall k, lookup r k = match find (fun t => beqb (scheme t) k) done with Some t => Some t | None => lookup r0 k end) ->
  (forall t, In t done -> lookup r0 (scheme t) = None) ->
  match install_loop scheme done ts r with
  | (r', true) =>
    (forall k, lookup r' k = match find (fun t => beqb (scheme t) k) (done ++ ts) with Some t => Some t | None => lookup r0 k end) /\
    (forall t, In t (done ++ ts) -> lookup r0 (scheme t) = None) /\
    (NoDup (map scheme done) -> NoDup (map scheme (done ++ ts)))
  | (r', false) =>
    (forall k, lookup r' k = lookup r0 k) /\
    ~ (NoDup (map scheme (done ++ ts)) /\ forall t, In t ts -> lookup r0 (scheme t) = None)
  end.
Proof.
  revert done r; induction ts as [|t ts IH]; intros done r Hr Hd; cbn [install_loop].
  - rewrite app_nil_r; auto.
  - unfold reg_add; destruct (lookup r (scheme t)) as [t'|] eqn:E.
    + split.
      * intros k; rewrite unwind_lookup, Hr; destruct (find (fun t => beqb (scheme t) k) done) as [d|] eqn:Ef.
        -- pose proof (find_some _ _ Ef) as [Hin Hk]; pose proof Hk as Hk'; apply beqb_eq in Hk'.
           replace (existsb (fun t => beqb (scheme t) k) done) with true
             by (symmetry; apply existsb_exists; exists d; auto).
           rewrite <- Hk', Hd; auto.
        -- destruct (existsb (fun t => beqb (scheme t) k) done) eqn:Ex; [|reflexivity].
           apply existsb_exists in Ex; destruct Ex as (d & Hin & Hk); rewrite (find_none _ _ Ef d Hin) in Hk; discriminate.
      * intros [Hn Hf]; rewrite Hr in E; destruct (find _ done) as [d|] eqn:Ef.
        -- apply find_some in Ef; destruct Ef as [Hin Hk]; apply beqb_eq in Hk.
           rewrite map_app in Hn; cbn [map] in Hn; apply NoDup_remove_2 in Hn; apply Hn, in_or_app; left.
           rewrite <- Hk; apply in_map; exact Hin.
        -- rewrite Hf in E by (left; reflexivity); discriminate.
    + assert (find (fun t0 => beqb (scheme t0) (scheme t)) done = None /\ lookup r0 (scheme t) = None) as [Hf H0].
      { rewrite Hr in E; destruct (find _ done) as [d|]; [discriminate|auto]. }
      specialize (IH (done ++ [t]) ((scheme t, t) :: r)); rewrite <- app_assoc in IH; cbn [app] in IH.
      destruct (install_loop scheme (done ++ [t]) ts _) as [r' [|]].
      * destruct IH as (H1 & H2 & H3).
        -- intros k; cbn [lookup]; destruct (beqb (scheme t) k) eqn:Ek.
           ++ pose proof Ek as Ek'; apply beqb_eq in Ek; subst k.
              assert (forall l, find (fun t0 => beqb (scheme t0) (scheme t)) done = None ->
                        find (fun t0 => beqb (scheme t0) (scheme t)) (done ++ l) =
                        find (fun t0 => beqb (scheme t0) (scheme t)) l) as Happ.
              { clear; induction done as [|d done IH]; intros l H; cbn in *; [reflexivity|].
                destruct (beqb (scheme d) (scheme t)); [discriminate|auto]. }
              rewrite Happ by exact Hf; cbn [find]; rewrite Ek'; reflexivity.
           ++ rewrite Hr.
              assert (find (fun t0 => beqb (scheme t0) k) (done ++ [t]) = find (fun t0 => beqb (scheme t0) k) done) as ->.
              { clear - Ek; induction done as [|d done IH]; cbn; [rewrite Ek; reflexivity|].
                destruct (beqb (scheme d) k); [reflexivity|exact IH]. }
              reflexivity.
        -- intros t0 Hin; apply in_app_or in Hin; destruct Hin as [Hin|[<-|[]]]; auto.
        -- repeat split; auto.
           intros Hn; apply H3; rewrite map_app; cbn [map].
           apply Permutation_NoDup with (scheme t :: map scheme done); [apply Permutation_cons_append|].
           constructor; [|exact Hn]; rewrite in_map_iff; intros (d & Ed & Hin).
           pose proof (find_none _ _ Hf d Hin) as Hx; cbv beta in Hx; rewrite Ed, (proj2 (beqb_eq _ _) eq_refl) in Hx; discriminate.
      * destruct IH as (H1 & H2).
        -- intros k; cbn [lookup]; destruct (beqb (scheme t) k) eqn:Ek.
           ++ pose proof Ek as Ek'; apply beqb_eq in Ek; subst k.
              assert (forall l, find (fun t0 => beqb (scheme t0) (scheme t)) done = None ->
                        find (fun t0 => beqb (scheme t0) (scheme t)) (done ++ l) =
                        find (fun t0 => beqb (scheme t0) (scheme t)) l) as Happ.
              { clear; induction done as [|d done IH]; intros l H; cbn in *; [reflexivity|].
                destruct (beqb (scheme d) (scheme t)); [discriminate|auto]. }
              rewrite Happ by exact Hf; cbn [find]; rewrite Ek'; reflexivity.
           ++ rewrite Hr.
              assert (find (fun t0 => beqb (scheme t0) k) (done ++ [t]) = find (fun t0 => beqb (scheme t0) k) done) as ->.
              { clear - Ek; induction done as [|d done IH]; cbn; [rewrite Ek; reflexivity|].
                destruct (beqb (scheme d) k); [reflexivity|exact IH]. }
              reflexivity.
        -- intros t0 Hin; apply in_app_or in Hin; destruct Hin as [Hin|[<-|[]]]; auto.
        -- split; [exact H1|]; intros [Hn Hall]; apply H2; split; [exact Hn|].
           intros; apply Hall; right; assumption.
Qed.

(** True: the schemes are new and distinct, and exactly these are added. *)
Theorem C37_installed : forall T (scheme : T -> bytes) ts (r r' : list (bytes * T)),
  install scheme ts r = (r', true) ->
  NoDup (map scheme ts) /\
  (forall t, In t ts -> lookup r (scheme t) = None /\ lookup r' (scheme t) = Some t) /\
  (forall k, ~ In k (map scheme ts) -> lookup r' k = lookup r k).
Proof.
  intros T scheme ts r r' E; unfold install in E.
  pose proof (install_loop_spec scheme ts [] r r (fun _ => eq_refl) (fun t (H : In t []) => match H with end)) as Hi.
  rewrite E in Hi; cbn [app] in Hi; destruct Hi as (H1 & H2 & H3); specialize (H3 (NoDup_nil _)).
  split; [exact H3|]; split.
  - intros t Hin; split; [apply H2; exact Hin|]; rewrite H1.
    destruct (find (fun t0 => beqb (scheme t0) (scheme t)) ts) as [d|] eqn:Ef.
    + apply find_some in Ef; destruct Ef as [Hd Ek]; apply beqb_eq in Ek; f_equal.
      clear - H3 Hin Hd Ek; induction ts as [|x ts IH]; [contradiction|].
      cbn [map] in H3; inversion H3 as [|? ? Hx Hn]; subst.
      destruct Hin as [<-|Hin], Hd as [<-|Hd]; auto; exfalso; apply Hx.
      * rewrite <- Ek; apply in_map; exact Hd.
      * rewrite Ek; apply in_map; exact Hin.
    + pose proof (find_none _ _ Ef t Hin) as Hx; cbv beta in Hx; rewrite (proj2 (beqb_eq _ _) eq_refl) in Hx; discriminate.
  - intros k Hk; rewrite H1; destruct (find (fun t0 => beqb (scheme t0) k) ts) as [d|] eqn:Ef; [|reflexivity].
    apply find_some in Ef; destruct Ef as [Hd Ek]; apply beqb_eq in Ek; exfalso; apply Hk; rewrite <- Ek; apply in_map; exact Hd.
Qed.
Print Assumptions C37_installed.

(** False: nothing has changed, and some scheme was taken or the list repeats one. *)
Theorem C37_undone : forall T (scheme : T -> bytes) ts (r r' : list (bytes * T)),
  install scheme ts r = (r', false) ->
  (forall k, lookup r' k = lookup r k) /\
  ~ (NoDup (map scheme ts) /\ forall t, In t ts -> lookup r (scheme t) = None).
Proof.
  intros T scheme ts r r' E; unfold install in E.
  pose proof (install_loop_spec scheme ts [] r r (fun _ => eq_refl) (fun t (H : In t []) => match H with end)) as Hi.
  rewrite E in Hi; exact Hi.
Qed.
Print Assumptions C37_undone.

Example C37_example :
  install digit [1; 2; 3]%N [([5], 5)]%N = ([([3], 3); ([2], 2); ([1], 1); ([5], 5)]%N, true) /\
  install digit [1; 2; 3]%N [([2], 52)]%N = ([([2], 52)]%N, false).
Proof. vm_compute; auto. Qed.

(** ** C38 The spec cache is invisible

    Whatever was called before: a spec handed out is one that parsing the file afresh gives
    for some iteration order, and the result of Hangulize is the one obtained by parsing
    the file afresh in any order.  ([w] is the state of the transliterators.) *)
Inductive as_fresh {W} (H : hangul_lib) (fs : files) (reg : list (bytes * translit W))
  : W -> list api_call -> list api_answer -> Prop :=
| fresh_end w : as_fresh H fs reg w [] []
| fresh_load w lang r calls ans :
    (exists c, choices_ok c /\ r = snd (load_spec fs c [] lang)) ->
    as_fresh H fs reg w calls ans -> as_fresh H fs reg w (ALoad lang :: calls) (GotSpec r :: ans)
| fresh_unload w lang calls ans :
    as_fresh H fs reg w calls ans -> as_fresh H fs reg w (AUnload lang :: calls) (GotNothing :: ans)
| fresh_hangulize w w1 r lang word calls ans :
    (forall c, choices_ok c -> exists specs', hangulize H fs c [] reg w lang word = (specs', w1, r)) ->
    as_fresh H fs reg w1 calls ans -> as_fresh H fs reg w (AHangulize lang word :: calls) (GotWord r :: ans).

Definition cached_ok (fs : files) (specs : cache) : Prop :=
  forall lang s, lookup specs lang = Some s ->
  exists c src, choices_ok c /\ lookup fs (specs_dir ++ lang ++ ext) = Some src /\ parse_spec c src = Ok s.

Lemma cached_ok_remove fs specs lang : cached_ok fs specs -> cached_ok fs (remove specs lang).
Proof.
  intros Hc k s E; apply Hc; rewrite lookup_remove in E; unfold update in E.
  destruct (beqb lang k); [discriminate|exact E].
Qed.
Lemma load_cached fs c specs lang :
  choices_ok c -> cached_ok fs specs ->
  let '(specs', r) := load_spec fs c specs lang in
  cached_ok fs specs' /\ exists c', choices_ok c' /\ r = snd (load_spec fs c' [] lang).
Proof.
  intros Hc Hok; unfold load_spec; cbn [lookup].
  destruct (lookup specs lang) as [s|] eqn:El.
  - split; [exact Hok|]; destruct (Hok _ _ El) as (c' & src & Hc' & Es & Ep).
    exists c'; split; [exact Hc'|]; rewrite Es, Ep; reflexivity.
  - destruct (lookup fs (specs_dir ++ lang ++ ext)) as [src|] eqn:Es; [|split; [exact Hok|exists c; auto]].
    destruct (parse_spec c src) as [s| | | | |] eqn:Ep;
      try (split; [exact Hok|]; exists c; split; [exact Hc|]; rewrite Ep; reflexivity).
    split; [|exists c; split; [exact Hc|]; rewrite Ep; reflexivity].
    intros k s' E; cbn [lookup] in E; destruct (beqb lang k) eqn:Ek; [|apply Hok; exact E].
    apply beqb_eq in Ek; injection E as <-; subst k; exists c, src; auto.
Qed.

Lemma api_run_fresh {W} H fs (reg : list (bytes * translit W)) specs w calls :
  (forall path src, lookup fs path = Some src -> file_ok src = true) ->
  Forall (fun ca => choices_ok (fst ca)) calls -> cached_ok fs specs ->
  as_fresh H fs reg w (map snd calls) (snd (api_run H fs reg (specs, w) calls)).
Proof.
  intros Hfs; revert specs w; induction calls as [|[c a] calls IH]; intros specs w Hc Hok; cbn [api_run map snd]; [constructor|].
  inversion Hc as [|? ? Hc1 Hcs]; subst; cbn [fst] in Hc1.
  destruct a as [lang|lang|lang word]; cbn [api_step fst snd].
  - pose proof (load_cached fs c specs lang Hc1 Hok) as Hl.
    destruct (load_spec fs c specs lang) as [specs1 r]; destruct Hl as [Hok1 Hr].
    specialize (IH specs1 w Hcs Hok1); destruct (api_run _ _ _ _ calls) as [st2 xs]; cbn [snd] in *.
    constructor; assumption.
  - specialize (IH (unload_spec specs lang) w Hcs (cached_ok_remove _ _ _ Hok)).
    destruct (api_run _ _ _ _ calls) as [st2 xs]; cbn [snd] in *; constructor; assumption.
  - pose proof (load_cached fs c specs lang Hc1 Hok) as Hl.
    destruct (hangulize H fs c specs reg w lang word) as [[specs1 w1] r] eqn:Eh.
    assert (cached_ok fs specs1 /\
            forall c', choices_ok c' -> exists specs', hangulize H fs c' [] reg w lang word = (specs', w1, r)) as [Hok1 Hr].
    { unfold hangulize in Eh; destruct (load_spec fs c specs lang) as [specs' l] eqn:El.
      destruct Hl as (Hok' & c1 & Hc1' & El1).
      assert (specs1 = specs') as ->.
      { destruct l; try (injection Eh as <- _ _; reflexivity).
        destruct (run_hangulizer _ _ _ _ _ _) as [[? ?] ?]; injection Eh as <- _ _; reflexivity. }
      split; [exact Hok'|]; intros c' Hc'.
      unfold load_spec in El1; cbn [lookup] in El1.
      unfold hangulize, load_spec; cbn [lookup].
      destruct (lookup fs (specs_dir ++ lang ++ ext)) as [src|] eqn:Es.
      - destruct (file_ok_parses src c' (Hfs _ _ Es) Hc') as (s0 & s' & E0 & Ep' & Ho' & Hu & _).
        destruct (file_ok_parses src c1 (Hfs _ _ Es) Hc1') as (s0' & s & E0' & Ep & Ho & _).
        assert (s0' = s0) as -> by congruence.
        rewrite Ep' ; rewrite Ep in El1; cbn [snd] in El1; subst l.
        unfold run_hangulizer in *; rewrite (forward_order H s0 s reg false w word Ho Hu) in Eh.
        rewrite (forward_order H s0 s' reg false w word Ho' Hu).
        destruct (forward H s0 reg false w word) as [[wa tra] ra]; injection Eh as <- <-; eexists; reflexivity.
      - cbn [snd] in El1; subst l; injection Eh as <- <-; eexists; reflexivity. }
    specialize (IH specs1 w1 Hcs Hok1); destruct (api_run _ _ _ _ calls) as [st2 xs]; cbn [snd] in *.
    econstructor; eassumption.
Qed.

Theorem C38_cache : forall W (H : hangul_lib) (reg : list (bytes * translit W)) w calls,
  Forall (fun ca => choices_ok (fst ca)) calls ->
  as_fresh H bundled_files reg w (map snd calls) (snd (api_run H bundled_files reg ([], w) calls)).
Proof.
  intros W H reg w calls Hc; apply api_run_fresh; [exact bundled_file_ok|exact Hc|].
  intros lang s E; discriminate.
Qed.
Print Assumptions C38_cache.

Example C38_example :
  let calls := [(choices0, AHangulize (lit "nld") (lit "Vincent")); (choices0, AUnload (lit "ita"));
                (choices0, AHangulize (lit "nld") (lit "Vincent"))] in
  Forall (fun ca => choices_ok (fst ca)) calls /\
  snd (api_run (W := unit) go_hangul bundled_files [] ([], tt) calls) =
  [GotWord (Ok (lit "빈센트", None)); GotNothing; GotWord (Ok (lit "빈센트", None))].
Proof. split; [repeat constructor; apply choices0_ok|vm_compute; reflexivity]. Qed.

(** ** C39 Concurrent use

    False: whenever two goroutines start with nothing cached and one asks for a bundled
    language. *)
Lemma two_race H fs reg a b x y src s :
  lookup fs (specs_dir ++ a ++ ext) = Some src -> parse_spec choices0 src = Ok s ->
  exists specs ts, steps H fs reg [] [AtLookup a x; AtLookup b y] specs ts /\ race ts.
Proof.
  intros E Es; exists [], [AtStore a x s; AtLookup b y]; split.
  - apply (steps_one H fs reg [] [] (AtLookup a x) [AtLookup b y] choices0 [] (AtStore a x s));
      [apply choices0_ok| |apply steps_none].
    cbn [thread_step lookup]; rewrite E, Es; reflexivity.
  - exists [], (AtStore a x s), [], [], (AtLookup b y), MapSpecs, true, false; repeat split.
Qed.
Theorem C39_race : forall H reg a b x y,
  In a (list_langs bundled_files) ->
  exists specs ts, steps H bundled_files reg [] [AtLookup a x; AtLookup b y] specs ts /\ race ts.
Proof.
  intros H reg a b x y Hin; apply (list_langs_in _ _ bundled_flat) in Hin; destruct Hin as (src0 & Hin).
  destruct (in_lookup _ _ _ Hin) as (src & E).
  destruct (file_ok_parses src choices0 (bundled_file_ok _ _ E) choices0_ok) as (s0 & s & _ & Es & _).
  exact (two_race H bundled_files reg a b x y src s E Es).
Qed.
Print Assumptions C39_race.

Lemma nld_listed : In (lit "nld") (list_langs bundled_files).
Proof. vm_compute; repeat ((left; reflexivity) || right). Qed.
Theorem C39_race_refuted : exists H reg requests specs ts,
  steps H bundled_files reg [] (map (fun q => AtLookup (fst q) (snd q)) requests) specs ts /\ race ts.
Proof.
  exists go_hangul, [], [(lit "nld", lit "a"); (lit "nld", lit "b")].
  exact (C39_race go_hangul [] (lit "nld") (lit "nld") (lit "a") (lit "b") nld_listed).
Qed.
Print Assumptions C39_race_refuted.

(** The accesses [race] speaks of are all there are: a goroutine that does not access a map
    does the same whatever is in it, and changes it only where it writes. *)
Theorem C39_footprint : forall H fs c reg reg' specs specs' t,
  ((forall w, access t <> Some (MapSpecs, w)) ->
     snd (thread_step H fs c reg specs' t) = snd (thread_step H fs c reg specs t)) /\
  ((forall w, access t <> Some (MapRegistry, w)) ->
     thread_step H fs c reg' specs t = thread_step H fs c reg specs t) /\
  (access t <> Some (MapSpecs, true) -> fst (thread_step H fs c reg specs t) = specs).
Proof.
  intros H fs c reg reg' specs specs' [lang word|lang word s|s word|r]; cbn [access thread_step]; split.
  - intros Hn; destruct (Hn false); reflexivity.
  - split; [reflexivity|intros _].
    destruct (lookup specs lang); [reflexivity|]; destruct (lookup fs _); [|reflexivity].
    destruct (parse_spec c b); reflexivity.
  - intros Hn; destruct (Hn true); reflexivity.
  - split; [reflexivity|intros Hn; destruct Hn; reflexivity].
  - reflexivity.
  - split; [intros Hn; destruct (Hn false); reflexivity|reflexivity].
  - reflexivity.
  - split; reflexivity.
Qed.
Print Assumptions C39_footprint.

(** True when every language asked for has been loaded before, or does not exist: no
    schedule of any number of goroutines leads to a race, the cache is not changed, and
    every goroutine that has ended has the result a call on its own gives. *)
Definition settled (fs : files) (specs : cache) (lang : bytes) : Prop :=
  lookup specs lang <> None \/ lookup fs (specs_dir ++ lang ++ ext) = None.
Inductive at_stage (H : hangul_lib) fs specs (reg : list (bytes * translit unit)) (lang word : bytes) : thread -> Prop :=
| stage_lookup : settled fs specs lang -> at_stage H fs specs reg lang word (AtLookup lang word)
| stage_detach s : lookup specs lang = Some s -> at_stage H fs specs reg lang word (AtDetach s word)
| stage_end c r : choices_ok c -> hangulize H fs c specs reg tt lang word = (specs, tt, r) ->
    at_stage H fs specs reg lang word (AtEnd r).

Lemma tt_unique (u : unit) : u = tt. Proof. destruct u; reflexivity. Qed.
Lemma stage_step H fs c reg specs lang word t specs1 t1 :
  choices_ok c -> at_stage H fs specs reg lang word t -> thread_step H fs c reg specs t = (specs1, t1) ->
  specs1 = specs /\ at_stage H fs specs reg lang word t1.
Proof.
  intros Hc Hs; inversion Hs as [Hset|s Hl|c' r Hc' Hr]; subst t; cbn [thread_step].
  - destruct (lookup specs lang) as [s|] eqn:El.
    + intros E; injection E as <- <-; split; [reflexivity|]; constructor; exact El.
    + destruct Hset as [Hn|Hn]; [congruence|]; rewrite Hn; intros E; injection E as <- <-.
      split; [reflexivity|]; apply stage_end with c; [exact Hc|].
      unfold hangulize, load_spec; rewrite El, Hn; reflexivity.
  - intros E; injection E as <- <-; split; [reflexivity|]; apply stage_end with c; [exact Hc|].
    unfold hangulize, load_spec; rewrite Hl.
    destruct (run_hangulizer H s reg false tt word) as [[u tr] r]; rewrite (tt_unique u); reflexivity.
  - intros E; injection E as <- <-; split; [reflexivity|]; apply stage_end with c'; assumption.
Qed.

Lemma settled_steps H fs reg specs ts specs2 ts2 requests :
  steps H fs reg specs ts specs2 ts2 ->
  Forall2 (fun q t => at_stage H fs specs reg (fst q) (snd q) t) requests ts ->
  specs2 = specs /\ Forall2 (fun q t => at_stage H fs specs reg (fst q) (snd q) t) requests ts2.
Proof.
  induction 1 as [specs ts|specs l t r c specs1 t1 specs2 ts2 Hc Hstep Hrest IH]; intros Hf; [auto|].
  apply Forall2_app_inv_r in Hf; destruct Hf as (q1 & q2 & H1 & H2 & ->).
  inversion H2 as [|q ? q3 ? Hq H3]; subst.
  destruct (stage_step _ _ _ _ _ _ _ _ _ _ Hc Hq Hstep) as [-> Ht1].
  apply IH; apply Forall2_app; [exact H1|constructor; assumption].
Qed.

Theorem C39_settled_partial : forall H fs reg specs (requests : list (bytes * bytes)) specs2 ts2,
  Forall (fun q => settled fs specs (fst q)) requests ->
  steps H fs reg specs (map (fun q => AtLookup (fst q) (snd q)) requests) specs2 ts2 ->
  ~ race ts2 /\ specs2 = specs /\
  forall i lang word r, nth_error requests i = Some (lang, word) -> nth_error ts2 i = Some (AtEnd r) ->
    exists c, choices_ok c /\ hangulize H fs c specs reg tt lang word = (specs, tt, r).
Proof.
  intros H fs reg specs requests specs2 ts2 Hset Hsteps.
  assert (Forall2 (fun q t => at_stage H fs specs reg (fst q) (snd q) t) requests
            (map (fun q => AtLookup (fst q) (snd q)) requests)) as Hf.
  { clear Hsteps; induction Hset; cbn [map]; constructor; [|assumption]; constructor; assumption. }
  destruct (settled_steps _ _ _ _ _ _ _ _ Hsteps Hf) as [-> Hf2]; split; [|split; [reflexivity|]].
  - assert (forall t m, In t ts2 -> access t = Some (m, true) -> False) as Hno.
    { intros t m Hin Ha; clear - Hf2 Hin Ha; induction Hf2 as [|q x qs xs Hq Hqs IH]; [contradiction|].
      destruct Hin as [->|Hin]; [|apply IH; exact Hin].
      inversion Hq; subst; discriminate. }
    intros (l & t & m & r & t' & map & w & w' & -> & Ha & Ha' & Hw).
    destruct w; [eapply Hno; [|exact Ha]; apply in_or_app; right; left; reflexivity|].
    cbn [orb] in Hw; subst w'; eapply Hno; [|exact Ha'].
    apply in_or_app; right; right; apply in_or_app; right; left; reflexivity.
  - clear - Hf2; induction Hf2 as [|q t qs ts Hq Hqs IH]; intros [|i] lang word r Hi Ht; try discriminate.
    + injection Hi as ->; injection Ht as ->; inversion Hq; subst; exists c; auto.
    + exact (IH i lang word r Hi Ht).
Qed.
Print Assumptions C39_settled_partial.

Example C39_example : exists specs, lookup specs (lit "nld") <> None /\
  Forall (fun q => settled bundled_files specs (fst q)) [(lit "nld", lit "a"); (lit "nld", lit "b"); (lit "zzz", lit "c")].
Proof.
  exists [(lit "nld", empty_spec)]; split; [discriminate|].
  apply Forall_cons; [left; discriminate|]; apply Forall_cons; [left; discriminate|].
  apply Forall_cons; [right; vm_compute; reflexivity|apply Forall_nil].
Qed.

(** True of every schedule if reading and writing a map are atomic, which Go does not
    promise: every goroutine that has ended has the result of a first call on its own, for
    any iteration orders of that call, and the cache holds only specs of bundled files. *)
Definition parsed (fs : files) (lang : bytes) (s : spec) : Prop :=
  exists c src, choices_ok c /\ lookup fs (specs_dir ++ lang ++ ext) = Some src /\ parse_spec c src = Ok s.
Definition gives (H : hangul_lib) fs (reg : list (bytes * translit unit)) (lang word : bytes) (r : res returned) : Prop :=
  forall c, choices_ok c -> exists specs, hangulize H fs c [] reg tt lang word = (specs, tt, r).
Inductive on_the_way (H : hangul_lib) fs reg (lang word : bytes) : thread -> Prop :=
| way_lookup : on_the_way H fs reg lang word (AtLookup lang word)
| way_store s : parsed fs lang s -> on_the_way H fs reg lang word (AtStore lang word s)
| way_detach s : parsed fs lang s -> on_the_way H fs reg lang word (AtDetach s word)
| way_end r : gives H fs reg lang word r -> on_the_way H fs reg lang word (AtEnd r).
Lemma way_step H c reg specs lang word t specs1 t1 :
  choices_ok c -> cached_ok bundled_files specs -> on_the_way H bundled_files reg lang word t ->
  thread_step H bundled_files c reg specs t = (specs1, t1) ->
  cached_ok bundled_files specs1 /\ on_the_way H bundled_files reg lang word t1.
Proof.
  intros Hc Hok Hs; inversion Hs as [|s Hp|s Hp|r Hr]; subst t; cbn [thread_step].
  - destruct (lookup specs lang) as [s|] eqn:El.
    + intros E; injection E as <- <-; split; [exact Hok|]; constructor; exact (Hok _ _ El).
    + destruct (lookup bundled_files (specs_dir ++ lang ++ ext)) as [src|] eqn:Es.
      * destruct (file_ok_parses src c (bundled_file_ok _ _ Es) Hc) as (s0 & s & _ & Ep & _); rewrite Ep.
        intros E; injection E as <- <-; split; [exact Hok|]; constructor; exists c, src; auto.
      * intros E; injection E as <- <-; split; [exact Hok|]; constructor; intros c' Hc'.
        unfold hangulize, load_spec; cbn [lookup]; rewrite Es; eexists; reflexivity.
  - intros E; injection E as <- <-; split; [|constructor; exact Hp].
    intros l s' El; cbn [lookup] in El; destruct (beqb lang l) eqn:Eb; [|exact (Hok _ _ El)].
    apply beqb_eq in Eb; subst l; injection El as <-; exact Hp.
  - intros E; injection E as <- <-; split; [exact Hok|]; constructor; intros c' Hc'.
    destruct Hp as (c1 & src & Hc1 & Es & Ep); unfold hangulize, load_spec; cbn [lookup]; rewrite Es.
    destruct (file_ok_parses src c' (bundled_file_ok _ _ Es) Hc') as (s0 & s' & E0 & Ep' & Ho' & Hu & _); rewrite Ep'.
    destruct (file_ok_parses src c1 (bundled_file_ok _ _ Es) Hc1) as (s0' & s1 & E0' & Ep1 & Ho & _).
    assert (s0' = s0) as -> by congruence; assert (s1 = s) as -> by congruence.
    unfold run_hangulizer; rewrite (forward_order H s0 s reg false tt word Ho Hu), (forward_order H s0 s' reg false tt word Ho' Hu).
    destruct (forward H s0 reg false tt word) as [[[] tra] ra]; eexists; reflexivity.
  - intros E; injection E as <- <-; split; [exact Hok|constructor; exact Hr].
Qed.
Theorem C39_atomic_partial : forall H reg specs (requests : list (bytes * bytes)) specs2 ts2,
  cached_ok bundled_files specs ->
  steps H bundled_files reg specs (map (fun q => AtLookup (fst q) (snd q)) requests) specs2 ts2 ->
  cached_ok bundled_files specs2 /\
  forall i lang word r, nth_error requests i = Some (lang, word) -> nth_error ts2 i = Some (AtEnd r) ->
    forall c, choices_ok c -> exists specs', hangulize H bundled_files c [] reg tt lang word = (specs', tt, r).
Proof.
  intros H reg specs requests specs2 ts2 Hok Hsteps.
  assert (Forall2 (fun q t => on_the_way H bundled_files reg (fst q) (snd q) t) requests
            (map (fun q => AtLookup (fst q) (snd q)) requests)) as Hf.
  { clear Hsteps; induction requests; cbn [map]; constructor; [constructor|assumption]. }
  revert Hok Hf; generalize (map (fun q : bytes * bytes => AtLookup (fst q) (snd q)) requests), Hsteps; clear Hsteps.
  intros ts Hsteps; induction Hsteps as [specs ts|specs l t r c specs1 t1 specs2 ts2 Hc Hstep Hrest IH]; intros Hok Hf.
  - split; [exact Hok|]; clear - Hf; induction Hf as [|q t qs ts Hq Hqs IH]; intros [|i] lang word r Hi Ht; try discriminate.
    + injection Hi as ->; injection Ht as ->; inversion Hq as [| | |? Hg]; subst; exact Hg.
    + exact (IH i lang word r Hi Ht).
  - apply Forall2_app_inv_r in Hf; destruct Hf as (q1 & q2 & H1 & H2 & ->).
    inversion H2 as [|q ? q3 ? Hq H3]; subst.
    destruct (way_step _ _ _ _ _ _ _ _ _ Hc Hok Hq Hstep) as [Hok1 Ht1].
    apply IH; [exact Hok1|]; apply Forall2_app; [exact H1|constructor; assumption].
Qed.
Print Assumptions C39_atomic_partial.

(** Two goroutines that load the same language one into the other, and a third. *)
Fixpoint scheduled (H : hangul_lib) reg (order : list nat) (specs : cache) (ts : list thread) : cache * list thread :=
  match order with
  | [] => (specs, ts)
  | i :: order' =>
    match skipn i ts with
    | [] => (specs, ts)
    | t :: r => let '(specs1, t1) := thread_step H bundled_files choices0 reg specs t in
                scheduled H reg order' specs1 (firstn i ts ++ t1 :: r)
    end
  end.
Lemma scheduled_steps H reg order specs ts specs2 ts2 :
  scheduled H reg order specs ts = (specs2, ts2) -> steps H bundled_files reg specs ts specs2 ts2.
Proof.
  revert specs ts; induction order as [|i order IH]; intros specs ts; cbn [scheduled].
  - intros E; injection E as <- <-; apply steps_none.
  - destruct (skipn i ts) as [|t r] eqn:Es; [intros E; injection E as <- <-; apply steps_none|].
    destruct (thread_step H bundled_files choices0 reg specs t) as [specs1 t1] eqn:Et; intros E.
    rewrite <- (firstn_skipn i ts), Es; eapply steps_one; [apply choices0_ok|exact Et|apply IH; exact E].
Qed.
Definition ex_threads : list thread :=
  map (fun q => AtLookup (fst q) (snd q)) [(lit "nld", lit "Vincent"); (lit "xxx", lit "b"); (lit "nld", lit "Gogh")].
Lemma ex_scheduled : snd (scheduled go_hangul [] [0; 2; 0; 2; 1; 2; 0]%nat [] ex_threads) =
  [AtEnd (Ok (lit "빈센트", None)); AtEnd (Ok (lit "b", Some (ErrSpecNotFound (lit "xxx")))); AtEnd (Ok (lit "고흐", None))].
Proof. vm_compute; reflexivity. Qed.
Example C39_atomic_example : exists specs2,
  steps go_hangul bundled_files [] [] ex_threads specs2
    [AtEnd (Ok (lit "빈센트", None)); AtEnd (Ok (lit "b", Some (ErrSpecNotFound (lit "xxx")))); AtEnd (Ok (lit "고흐", None))].
Proof.
  eexists; eapply scheduled_steps; rewrite <- ex_scheduled; apply surjective_pairing.
Qed.

(** ** C40 Language list

    [flat_files fs] (ApiFacts.v): distinct paths in the directory specs; [before_str] is the
    order of byte strings. *)
Theorem C40_list : forall fs, flat_files fs ->
  StronglySorted before_str (list_langs fs) /\ NoDup (list_langs fs) /\
  forall lang, In lang (list_langs fs) <-> exists src, In (specs_dir ++ lang ++ ext, src) fs.
Proof.
  intros fs Hf; split; [apply list_langs_sorted; exact Hf|]; split; [apply list_langs_nodup; exact Hf|].
  intros lang; apply list_langs_in; exact Hf.
Qed.
Print Assumptions C40_list.

Theorem C40_order : forall a, ~ before_str a a.
Proof. exact before_str_irrefl. Qed.
Print Assumptions C40_order.

Example C40_example : flat_files bundled_files /\
  firstn 4 (list_langs bundled_files) = [lit "aze"; lit "bel"; lit "bul"; lit "cat"].
Proof. split; [exact bundled_flat|vm_compute; reflexivity]. Qed.
