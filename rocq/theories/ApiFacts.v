(** The package-level functions. *)
From Coq Require Import Permutation Sorted String.
From Verif Require Import GoBase Utf8 Utf8Facts Regex RegexParse RegexFacts Hre FindFacts Replacer ReplacerFacts
  Subword SubwordFacts Rule RuleFacts Scripts Hsl Spec LettersFacts SpecOrder Jamo Procedure ProcFacts
  BString Bundled Api.
Open Scope Z_scope.

(** ** Strings in order *)

(** [a] comes before [b] in a dictionary of byte strings. *)
Definition before_str (a b : bytes) : Prop :=
  (exists y b', b = a ++ y :: b') \/
  (exists p x y a' b', a = p ++ x :: a' /\ b = p ++ y :: b' /\ (x < y)%N).

Lemma bytes_le_spec a b : bytes_le a b = true <-> a = b \/ before_str a b.
Proof.
  revert b; induction a as [|x a IH]; intros b; cbn [bytes_le].
  - split; [|reflexivity]; intros _; destruct b as [|y b]; [left; reflexivity|right; left; exists y, b; reflexivity].
  - destruct b as [|y b].
    + split; [discriminate|]; intros [H|[(y & b' & H)|(p & x' & y & a' & b' & H1 & H2 & _)]];
        [discriminate|destruct a; discriminate|destruct p; discriminate].
    + split.
      * destruct (N.ltb_spec x y) as [Hlt|Hge]; cbn [orb].
        -- intros _; right; right; exists [], x, y, a, b; auto.
        -- destruct (N.eqb_spec x y) as [->|Hne]; cbn [andb]; [|discriminate].
           rewrite IH; intros [->|[(z & b' & ->)|(p & x' & y' & a' & b' & -> & -> & Hlt)]].
           ++ left; reflexivity.
           ++ right; left; exists z, b'; reflexivity.
           ++ right; right; exists (y :: p), x', y', a', b'; auto.
      * intros [H|[(z & b' & H)|(p & x' & y' & a' & b' & H1 & H2 & Hlt)]].
        -- injection H as <- <-; rewrite N.eqb_refl; cbn [andb]; rewrite (proj2 (IH a)) by (left; reflexivity).
           apply orb_true_r.
        -- injection H as -> ->; rewrite N.eqb_refl; cbn [andb].
           rewrite (proj2 (IH _)) by (right; left; exists z, b'; reflexivity); apply orb_true_r.
        -- destruct p as [|q p]; cbn [app] in *.
           ++ injection H1 as -> ->; injection H2 as -> ->; apply N.ltb_lt in Hlt; rewrite Hlt; reflexivity.
           ++ injection H1 as -> ->; injection H2 as -> ->; rewrite N.eqb_refl; cbn [andb].
              rewrite (proj2 (IH _)) by (right; right; exists p, x', y', a', b'; auto); apply orb_true_r.
Qed.

Lemma bytes_le_total a b : bytes_le a b = true \/ bytes_le b a = true.
Proof.
  revert b; induction a as [|x a IH]; intros [|y b]; cbn; auto.
  destruct (IH b) as [H|H]; rewrite H;
    destruct (N.ltb_spec x y), (N.ltb_spec y x), (N.eqb_spec x y), (N.eqb_spec y x); cbn; auto; lia.
Qed.
Lemma bytes_le_trans a b c : bytes_le a b = true -> bytes_le b c = true -> bytes_le a c = true.
Proof.
  revert b c; induction a as [|x a IH]; intros [|y b] [|z c]; cbn; auto; try discriminate.
  intros H1 H2; destruct (N.ltb_spec x y) as [Hxy|Hxy]; cbn [orb andb] in H1.
  - destruct (N.ltb_spec y z) as [Hyz|Hyz]; cbn [orb andb] in H2.
    + replace (x <? z)%N with true by lia; reflexivity.
    + destruct (N.eqb_spec y z) as [->|]; [|discriminate]; replace (x <? z)%N with true by lia; reflexivity.
  - destruct (N.eqb_spec x y) as [->|]; [|discriminate]; cbn [andb] in H1.
    destruct (N.ltb_spec y z) as [Hyz|Hyz]; cbn [orb andb] in H2; [reflexivity|].
    destruct (N.eqb_spec y z) as [->|]; [|discriminate]; cbn [andb orb] in *.
    eapply IH; eassumption.
Qed.
Lemma bytes_le_antisym a b : bytes_le a b = true -> bytes_le b a = true -> a = b.
Proof.
  revert b; induction a as [|x a IH]; intros [|y b]; cbn; auto; try discriminate.
  destruct (N.ltb_spec x y), (N.ltb_spec y x), (N.eqb_spec x y), (N.eqb_spec y x); cbn; try discriminate; try lia.
  intros H1 H2; subst; f_equal; apply IH; assumption.
Qed.
Lemma before_str_irrefl a : ~ before_str a a.
Proof.
  intros [(y & b & H)|(p & x & y & a' & b' & H1 & H2 & Hlt)].
  - rewrite <- (app_nil_r a) in H at 1; apply app_inv_head in H; discriminate.
  - rewrite H1 in H2; apply app_inv_head in H2; injection H2 as <- _; lia.
Qed.

Lemma insert_perm x l : Permutation (x :: l) (insert_bytes x l).
Proof.
  induction l as [|y l IH]; cbn [insert_bytes]; [apply Permutation_refl|].
  destruct (bytes_le x y); [apply Permutation_refl|].
  eapply perm_trans; [apply perm_swap|]; constructor; exact IH.
Qed.
Lemma sort_perm l : Permutation l (sort_strings l).
Proof.
  induction l as [|x l IH]; cbn; [constructor|].
  eapply perm_trans; [apply perm_skip; exact IH|apply insert_perm].
Qed.
Definition sle (a b : bytes) : Prop := bytes_le a b = true.
Lemma insert_sorted x l : StronglySorted sle l -> StronglySorted sle (insert_bytes x l).
Proof.
  induction l as [|y l IH]; intros H; cbn [insert_bytes]; [repeat constructor|].
  inversion H as [|? ? Hs Hf]; subst; destruct (bytes_le x y) eqn:E.
  - constructor; [exact H|]; constructor; [exact E|]; eapply Forall_impl; [|exact Hf].
    intros z Hz; eapply bytes_le_trans; [exact E|exact Hz].
  - constructor; [apply IH; exact Hs|].
    assert (sle y x) as Hyx by (destruct (bytes_le_total x y) as [H'|H']; [congruence|exact H']).
    eapply Permutation_Forall; [apply insert_perm|]; constructor; assumption.
Qed.
Lemma sort_sorted l : StronglySorted sle (sort_strings l).
Proof. induction l as [|x l IH]; cbn; [constructor|apply insert_sorted; exact IH]. Qed.

Lemma sorted_strict l : NoDup l -> StronglySorted sle l -> StronglySorted before_str l.
Proof.
  intros Hn Hs; induction Hs as [|x l Hs IH Hf]; [constructor|].
  inversion Hn as [|? ? Hx Hn']; subst; constructor; [apply IH; exact Hn'|].
  rewrite Forall_forall in *; intros y Hy; specialize (Hf y Hy); apply bytes_le_spec in Hf.
  destruct Hf as [->|Hf]; [contradiction|exact Hf].
Qed.

(** ** ListLangs *)
Lemma has_suffix_spec s x : has_suffix s x = true <-> exists p, s = p ++ x.
Proof.
  unfold has_suffix; split.
  - intros H; apply andb_true_iff in H; destruct H as [Hl H]; apply beqb_eq in H.
    exists (firstn (length s - length x) s); rewrite <- H at 2; symmetry; apply firstn_skipn.
  - intros (p & ->); rewrite app_length, Nat.add_sub, skipn_app, skipn_all, Nat.sub_diag; cbn [app skipn].
    rewrite (proj2 (beqb_eq x x) eq_refl), andb_true_r; apply Nat.leb_le; lia.
Qed.
Lemma trim_suffix_app p x : trim_suffix (p ++ x) x = p.
Proof.
  unfold trim_suffix; rewrite (proj2 (has_suffix_spec (p ++ x) x)) by (exists p; reflexivity).
  rewrite app_length, Nat.add_sub, firstn_app, firstn_all, Nat.sub_diag; cbn; apply app_nil_r.
Qed.

(** Every file of the embedded directory: its path and a name below specs. *)
Definition flat_files (fs : files) : Prop :=
  NoDup (map fst fs) /\ Forall (fun e => exists name, fst e = specs_dir ++ name) fs.

Lemma list_langs_in fs lang :
  flat_files fs ->
  (In lang (list_langs fs) <-> exists src, In (specs_dir ++ lang ++ ext, src) fs).
Proof.
  intros [_ Hd]; rewrite Forall_forall in Hd; unfold list_langs.
  assert (forall l x, In x (sort_strings l) <-> In x l) as Hs.
  { intros l x; split; apply Permutation_in; [apply Permutation_sym|]; apply sort_perm. }
  rewrite Hs, in_map_iff; split.
  - intros (n & <- & Hn); apply filter_In in Hn; destruct Hn as [Hn Hx].
    apply in_map_iff in Hn; destruct Hn as ([path src] & E & Hin); cbn [fst] in E.
    destruct (Hd _ Hin) as (name & Ep); cbn [fst] in Ep; subst path.
    rewrite skipn_app, skipn_all, Nat.sub_diag in E; cbn [app skipn] in E; subst n.
    apply has_suffix_spec in Hx; destruct Hx as (q & ->); rewrite trim_suffix_app.
    exists src; exact Hin.
  - intros (src & Hin); exists (lang ++ ext); split; [apply trim_suffix_app|].
    apply filter_In; split; [|apply has_suffix_spec; exists lang; reflexivity].
    apply in_map_iff; exists (specs_dir ++ lang ++ ext, src); split; [|exact Hin]; cbn [fst].
    rewrite skipn_app, skipn_all, Nat.sub_diag; reflexivity.
Qed.

Lemma NoDup_map_inj {A B} (f : A -> B) l :
  (forall x y, In x l -> In y l -> f x = f y -> x = y) -> NoDup l -> NoDup (map f l).
Proof.
  intros Hf H; induction H as [|x l Hx H IH]; cbn [map]; [constructor|].
  constructor.
  - rewrite in_map_iff; intros (y & E & Hy); apply Hx.
    rewrite (Hf x y); [exact Hy|left; reflexivity|right; exact Hy|congruence].
  - apply IH; intros; apply Hf; auto; right; assumption.
Qed.
Lemma list_langs_nodup fs : flat_files fs -> NoDup (list_langs fs).
Proof.
  intros [Hn Hd]; unfold list_langs; eapply Permutation_NoDup; [apply sort_perm|].
  apply NoDup_map_inj.
  - intros x y Hx Hy E; apply filter_In in Hx, Hy; destruct Hx as [_ Hx], Hy as [_ Hy].
    apply has_suffix_spec in Hx, Hy; destruct Hx as (p & ->), Hy as (q & ->).
    rewrite !trim_suffix_app in E; congruence.
  - apply NoDup_filter; rewrite <- map_map; apply NoDup_map_inj; [|exact Hn].
    rewrite Forall_forall in Hd.
    intros x y Hx Hy E; apply in_map_iff in Hx, Hy; destruct Hx as (a & <- & Ha), Hy as (b & <- & Hb).
    destruct (Hd _ Ha) as (na & Ea), (Hd _ Hb) as (nb & Eb); rewrite Ea, Eb in *.
    rewrite !skipn_app, !skipn_all, !Nat.sub_diag in E; cbn [app skipn] in E; congruence.
Qed.
Lemma list_langs_sorted fs : flat_files fs -> StronglySorted before_str (list_langs fs).
Proof. intros H; apply sorted_strict; [apply list_langs_nodup; exact H|apply sort_sorted]. Qed.

(** ** Errors come from transliterators only *)
Definition no_err {A} (r : res A) : Prop := forall e, r <> Err e.

Lemma no_err_bind {A B} (r : res A) (f : A -> res B) :
  no_err r -> (forall a, no_err (f a)) -> no_err (bind r f).
Proof. intros Hr Hf e; destruct r; cbn [bind]; try discriminate; [apply Hf|intros E; injection E as ->; exact (Hr e eq_refl)]. Qed.
Lemma no_err_ok {A} (a : A) : no_err (Ok a). Proof. intros e; discriminate. Qed.
Lemma no_err_index {A} (l : list A) i : no_err (index l i).
Proof. intros e; unfold index; destruct (0 <=? i); [destruct (nth_error _ _)|]; discriminate. Qed.
Lemma no_err_slice {A} (l : list A) i j : no_err (slice l i j).
Proof. intros e; unfold slice; destruct (_ && _); discriminate. Qed.

Ltac no_err_tac :=
  repeat match goal with
      | |- no_err (Ok _) => apply no_err_ok
      | |- no_err (index _ _) => apply no_err_index
      | |- no_err (slice _ _ _) => apply no_err_slice
      | |- no_err (bind _ _) => apply no_err_bind; [|intros]
      | |- no_err (Panic _) => intros ? ?; discriminate
      | |- no_err Hang => intros ? ?; discriminate
      | |- no_err NoFuel => intros ? ?; discriminate
      | |- no_err Unmodelled => intros ? ?; discriminate
      | |- no_err (if ?x then _ else _) => destruct x
      | |- no_err (match ?x with _ => _ end) => destruct x
      end.

Lemma no_err_find_loop fuel p word n off acc : no_err (find_loop fuel p word n off acc).
Proof.
  revert off acc; induction fuel as [|fuel IH]; intros off acc; cbn [find_loop]; [intros ? ?; discriminate|].
  unfold pick_start_stop, negatives_allow; no_err_tac; try apply IH.
Qed.
Lemma no_err_find p word n : no_err (find p word n).
Proof.
  unfold find; match goal with |- no_err (match find_loop ?a ?b ?c ?d ?e ?f with _ => _ end) =>
    pose proof (no_err_find_loop a b c d e f) as Hn; destruct (find_loop a b c d e f) end;
    no_err_tac; try exact Hn; intros e' He'; apply (Hn _ He').
Qed.
Lemma no_err_repls r word ms : no_err (rule_repls r word ms).
Proof. induction ms as [|m ms IH]; cbn [rule_repls]; no_err_tac; try exact IH. Qed.
Lemma no_err_replacements r word : no_err (replacements r word).
Proof. unfold replacements; no_err_tac; [apply no_err_find|apply no_err_repls]. Qed.
Lemma no_err_commit_loop repls r off : no_err (commit_loop repls r off).
Proof. revert off; induction repls as [|x t IH]; intros off; cbn [commit_loop]; no_err_tac; apply IH. Qed.
Lemma no_err_commit r : no_err (commit r).
Proof. unfold commit; no_err_tac; apply no_err_commit_loop. Qed.
Lemma no_err_string r : no_err (replacer_string r).
Proof. unfold replacer_string; no_err_tac; apply no_err_commit. Qed.
Lemma no_err_subwords_loop gs i lv l buf : no_err (subwords_loop gs i lv l buf).
Proof. revert i l buf; induction gs as [|[c w] gs IH]; intros i l buf; cbn [subwords_loop]; no_err_tac; apply IH. Qed.
Lemma no_err_subwords r : no_err (replacer_subwords r).
Proof. unfold replacer_subwords; no_err_tac; [apply no_err_commit|apply no_err_subwords_loop]. Qed.
Lemma no_err_set_index {A} (l : list A) i x : no_err (set_index l i x).
Proof. unfold set_index; no_err_tac. Qed.
Lemma no_err_record on n recs i w r : no_err (record_subword on n recs i w r).
Proof. unfold record_subword; no_err_tac; apply no_err_set_index. Qed.
Lemma no_err_commit_records tr st sws recs : no_err (commit_records tr st sws recs).
Proof. revert tr sws; induction recs as [|[r|] recs IH]; intros tr sws; cbn [commit_records]; no_err_tac; apply IH. Qed.
Lemma no_err_rewrite_rules on n rules i w rep recs : no_err (rewrite_rules on n rules i w rep recs).
Proof.
  revert w rep recs; induction rules as [|r rules IH]; intros w rep recs; cbn [rewrite_rules]; no_err_tac;
    [apply no_err_replacements|apply no_err_string|apply no_err_record|apply IH].
Qed.
Lemma no_err_rewrite s tr sws : no_err (rewrite s tr sws).
Proof.
  unfold rewrite; apply no_err_bind.
  - match goal with |- no_err (rewrite_loop ?a ?b ?c ?d ?e ?f ?g) => generalize a b c d f g end.
    induction sws as [|sw sws IH]; intros a b c d f g; cbn [rewrite_loop]; no_err_tac;
      [apply no_err_rewrite_rules|apply no_err_subwords|apply IH].
  - intros [buf recs]; no_err_tac; unfold trace_commit; no_err_tac; apply no_err_commit_records.
Qed.
Lemma no_err_transcribe_rules on n rules i w rep dum recs : no_err (transcribe_rules on n rules i w rep dum recs).
Proof.
  revert w rep dum recs; induction rules as [|r rules IH]; intros w rep dum recs; cbn [transcribe_rules]; no_err_tac;
    [apply no_err_replacements|apply no_err_string|apply no_err_string|apply no_err_record|apply IH].
Qed.
Lemma no_err_transcribe s tr sws : no_err (transcribe s tr sws).
Proof.
  unfold transcribe; apply no_err_bind.
  - match goal with |- no_err (transcribe_loop ?a ?b ?c ?d ?e ?f ?g) => generalize a b c d f g end.
    induction sws as [|sw sws IH]; intros a b c d f g; cbn [transcribe_loop]; no_err_tac;
      [apply IH|apply no_err_transcribe_rules|apply no_err_subwords|apply IH].
  - intros [buf recs]; no_err_tac; unfold trace_commit; no_err_tac; apply no_err_commit_records.
Qed.
Lemma no_err_after_translit H s tr word : no_err (after_translit H s tr word).
Proof.
  unfold after_translit; destruct (normalize s tr word) as [tr1 w1]; no_err_tac;
    [unfold partition; no_err_tac; apply no_err_subwords|apply no_err_rewrite|apply no_err_transcribe].
Qed.

Lemma transliterate_err {W} schemes (reg : list (bytes * translit W)) w tr word :
  forall e, snd (transliterate schemes reg w tr word) = Err e ->
  exists sc, In sc schemes /\ (e = ErrTranslit sc \/ (e = ErrTranslitNotImported sc /\ lookup reg sc = None)).
Proof.
  revert w tr word; induction schemes as [|sc schemes IH]; intros w tr word e; cbn [transliterate]; [discriminate|].
  destruct (lookup reg sc) as [t|] eqn:El.
  - destruct (tl_run t w word) as [w1 [word1|e1| | | |]]; cbn [snd]; try discriminate.
    + intros E; destruct (IH _ _ _ _ E) as (s & Hs & H); exists s; split; [right; exact Hs|exact H].
    + intros E; injection E as <-; exists sc; split; [left; reflexivity|left; reflexivity].
  - cbn [snd]; intros E; injection E as <-; exists sc; split; [left; reflexivity|right; split; [reflexivity|exact El]].
Qed.
Lemma forward_err {W} H s (reg : list (bytes * translit W)) on w word w' tr e :
  forward H s reg on w word = (w', tr, Err e) ->
  exists sc, In sc (l_translit (s_lang s)) /\
    (e = ErrTranslit sc \/ (e = ErrTranslitNotImported sc /\ lookup reg sc = None)).
Proof.
  unfold forward; pose proof (transliterate_err (l_translit (s_lang s)) reg w
    (trace_word (new_tracer on) SInput word []) word) as Ht.
  destruct (transliterate _ _ _ _ _) as [[w1 tr1] r]; cbn [snd] in Ht.
  destruct r as [mid|e'| | | |]; try (intros E; injection E as _ _ E; discriminate).
  - pose proof (no_err_after_translit H s tr1 mid) as Hn.
    destruct (after_translit H s tr1 mid) as [[tr2 out]| | | | |]; cbn [map_res]; intros E; try discriminate.
    injection E as _ _ <-; exfalso; exact (Hn _ eq_refl).
  - intros E; injection E as _ _ <-; exact (Ht _ eq_refl).
Qed.

Lemma hangulize_errors {W} H fs c specs (reg : list (bytes * translit W)) w lang word specs' w' out err :
  hangulize H fs c specs reg w lang word = (specs', w', Ok (out, err)) ->
  (lookup specs lang = None /\ lookup fs (specs_dir ++ lang ++ ext) = None /\
   out = word /\ err = Some (ErrSpecNotFound lang)) \/
  (exists s sc, snd (load_spec fs c specs lang) = Ok s /\ In sc (l_translit (s_lang s)) /\ out = [] /\
     (err = Some (ErrTranslit sc) \/ (err = Some (ErrTranslitNotImported sc) /\ lookup reg sc = None))) \/
  (exists s tr, snd (load_spec fs c specs lang) = Ok s /\ err = None /\
     forward H s reg false w word = (w', tr, Ok out)).
Proof.
  unfold hangulize, run_hangulizer.
  destruct (load_spec fs c specs lang) as [specs1 r] eqn:El; destruct r as [s|e| | | |]; try discriminate.
  - destruct (forward H s reg false w word) as [[w1 tr] r] eqn:Ef; intros E; injection E as <- <- E.
    destruct r as [o|e| | | |]; try discriminate; injection E as <- <-.
    + right; right; exists s, tr; auto.
    + right; left; exists s; destruct (forward_err _ _ _ _ _ _ _ _ _ Ef) as (sc & Hin & He).
      exists sc; repeat split; try assumption.
      destruct He as [->|[-> Hl]]; [left; reflexivity|right; split; [reflexivity|exact Hl]].
  - intros E; injection E as <- <- <- <-; left; unfold load_spec in El.
    destruct (lookup specs lang); [discriminate|]; destruct (lookup fs _) as [hsl|].
    + destruct (parse_spec c hsl); discriminate.
    + injection El as _ <-; auto.
Qed.
