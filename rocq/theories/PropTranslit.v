(** C20, C44, C45, C56: the transliterators. *)
From Coq Require Import String Permutation.
From Verif Require Import GoBase Utf8 Utf8Facts UniTables Unicode Replacer ReplacerFacts Scripts Hre CyrDict Translit
  TranslitFacts.
Open Scope N_scope.

(** ** C20: Cyrillic transliteration *)

(** A run of the program fixes an order of the entries of the map. *)
Definition an_order (t : list (bytes * bytes)) (order : list (bytes * bytes) -> list (bytes * bytes)) : Prop :=
  Permutation t (order t).

(** What the transliterator of [country] makes of [word] in a run. *)
Definition cyrillic_run order country word : res bytes :=
  let! t := cyrillic_new order country in cyrillic_transliterate t word.

(** The keys are distinct, as they are in a map. *)
Definition table_okb (t : list (bytes * bytes)) : bool :=
  forallb (fun a => forallb (fun b => negb (beqb (fst a) (fst b)) || beqb (snd a) (snd b)) t) t.
Lemma table_okb_ok t : table_okb t = true ->
  forall k v1 v2, In (k, v1) t -> In (k, v2) t -> v1 = v2.
Proof.
  unfold table_okb; rewrite forallb_forall; intros H k v1 v2 H1 H2.
  specialize (H _ H1); rewrite forallb_forall in H; specialize (H _ H2); cbn [fst snd] in H.
  rewrite beqb_refl in H; cbn in H; apply beqb_eq; exact H.
Qed.
Lemma dict_ok : forallb (fun e => table_okb (snd e)) cyr_dict = true.
Proof. vm_compute; reflexivity. Qed.
Lemma lookup_in {A} (m : list (bytes * A)) k v : lookup m k = Some v -> In (k, v) m.
Proof.
  induction m as [|[k' v'] m IH]; cbn [lookup]; [discriminate|].
  destruct (beqb k' k) eqn:E; [intros H; injection H as ->; apply beqb_eq in E; subst; left; reflexivity|].
  intros H; right; auto.
Qed.

(** The result depends on the order of the map, in each of the four countries. *)
Theorem C20_order_refuted : forall country, In country cyrillic_countries ->
  exists t o1 o2 word r1 r2, lookup cyr_dict country = Some t /\ an_order t o1 /\ an_order t o2 /\
    cyrillic_run o1 country word = Ok r1 /\ cyrillic_run o2 country word = Ok r2 /\ r1 <> r2.
Proof.
  intros country Hc.
  assert (forall t word r1 r2, lookup cyr_dict country = Some t ->
    cyrillic_run (fun l => l) country word = Ok r1 -> cyrillic_run (@rev _) country word = Ok r2 -> r1 <> r2 ->
    lookup cyr_dict country = Some t /\ an_order t (fun l => l) /\ an_order t (@rev _) /\
    cyrillic_run (fun l => l) country word = Ok r1 /\ cyrillic_run (@rev _) country word = Ok r2 /\ r1 <> r2) as Hstep.
  { intros t word r1 r2 H1 H2 H3 H4; split; [exact H1|]; split; [apply Permutation_refl|]; split; [apply Permutation_rev|auto]. }
  cbn [cyrillic_countries In] in Hc.
  destruct Hc as [<-|[<-|[<-|[<-|[]]]]].
  - exists cyr_bg, (fun l => l), (@rev _), (lit "sh"), (lit "сх"), (lit "ш").
    apply Hstep; vm_compute; reflexivity || discriminate.
  - exists cyr_mk, (fun l => l), (@rev _), (lit "lj"), (lit "лј"), (lit "љ").
    apply Hstep; vm_compute; reflexivity || discriminate.
  - exists cyr_ru, (fun l => l), (@rev _), (lit "zh"), (lit "ж"), (lit "зh").
    apply Hstep; vm_compute; reflexivity || discriminate.
  - exists cyr_ua, (fun l => l), (@rev _), (lit "ju"), (lit "йу"), (lit "ю").
    apply Hstep; vm_compute; reflexivity || discriminate.
Qed.
Print Assumptions C20_order_refuted.

(** Missing from the property: words with a key that begins with another key. Without one
    of those the result is the same in every run. *)
Theorem C20_order_partial : forall country t o1 o2 word,
  lookup cyr_dict country = Some t -> an_order t o1 -> an_order t o2 ->
  (forall k k', In k (map fst t) -> In k' (map fst t) -> is_prefix k k' -> k <> k' -> ~ occurs k' word) ->
  cyrillic_run o1 country word = cyrillic_run o2 country word.
Proof.
  intros country t o1 o2 word Ht P1 P2 Hk; unfold cyrillic_run, cyrillic_new; rewrite Ht; cbn [bind].
  unfold cyrillic_transliterate, replacer_replace; f_equal.
  assert (table_okb t = true) as Hok.
  { pose proof dict_ok as H; rewrite forallb_forall in H; apply (H (country, t)), lookup_in, Ht. }
  assert (clear t word) as Hc.
  { intros k1 v1 k2 v2 H1 H2 Hp Ho.
    destruct (list_eq_dec N.eq_dec k1 k2) as [->|Hne].
    - f_equal; apply (table_okb_ok t Hok k2); assumption.
    - exfalso; apply (Hk k1 k2); auto; [exact (in_map fst t _ H1)|exact (in_map fst t _ H2)]. }
  assert (forall o, an_order t o -> rep_from 0 t word = rep_from 0 (o t) word) as H.
  { intros o P; apply clear_from; [exact Hc|]; intros x; split; apply Permutation_in;
      [exact P|apply Permutation_sym, P]. }
  rewrite <- (H o1 P1), <- (H o2 P2); reflexivity.
Qed.
Print Assumptions C20_order_partial.

(** A character of the table [unicode.Latin]. *)
Definition latin (r : rune) : Prop := in_ranges tab_latin r = true.

(** Every key starts with a Latin letter, or one of [others]. *)
Definition starts_latin (others : list rune) (t : list (bytes * bytes)) : bool :=
  forallb (fun e => match runes (fst e) with
                    | r :: rs => (in_ranges tab_latin r || nmem r others) && beqb (encode (r :: rs)) (fst e)
                    | [] => false
                    end) t.
Lemma starts_latin_absent others t word k v : starts_latin others t = true -> In (k, v) t ->
  (forall r, In r (runes word) -> ~ latin r /\ ~ In r others) -> ~ occurs k word.
Proof.
  unfold starts_latin; rewrite forallb_forall; intros H Hin Hw (a & b & Ho).
  specialize (H _ Hin); cbn [fst] in H; destruct (runes k) as [|r rs] eqn:Er; [discriminate|].
  apply andb_true_iff in H; destruct H as [H1 H2]; apply beqb_eq in H2.
  assert (is_scalar r = true) as Hr.
  { pose proof (runes_scalar k) as Hs; rewrite Er in Hs; apply Forall_cons_iff in Hs; apply Hs. }
  assert (In r (runes word)) as Hi.
  { apply (rune_occurs r Hr word a (encode rs ++ b)); rewrite Ho, <- H2.
    cbn [encode flat_map]; rewrite <- app_assoc; reflexivity. }
  destruct (Hw r Hi) as [Hl Hn]; apply orb_true_iff in H1; destruct H1 as [H1|H1]; [contradiction|].
  apply Hn; unfold nmem in H1; apply existsb_exists in H1; destruct H1 as (x & Hx & E); apply N.eqb_eq in E; subst; exact Hx.
Qed.
Lemma cyrillic_kept others country t order word :
  lookup cyr_dict country = Some t -> starts_latin others t = true -> an_order t order ->
  (forall r, In r (runes word) -> ~ latin r /\ ~ In r others) -> cyrillic_run order country word = Ok word.
Proof.
  intros Ht Hs P Hw; unfold cyrillic_run, cyrillic_new; rewrite Ht; cbn [bind].
  unfold cyrillic_transliterate, replacer_replace; f_equal; apply absent_from.
  intros k v Hin; apply (starts_latin_absent others t word k v Hs); [|exact Hw].
  eapply Permutation_in; [apply Permutation_sym, P|exact Hin].
Qed.

(** Text without Latin letters stays, for Bulgaria and Macedonia; for Russia and Ukraine
    when there is no apostrophe either. *)
Theorem C20_unchanged_partial : forall country t order word,
  In country cyrillic_countries -> lookup cyr_dict country = Some t -> an_order t order ->
  (forall r, In r (runes word) -> ~ latin r) ->
  (country = lit "ru" \/ country = lit "ua" -> ~ In 0x27 (runes word)) ->
  cyrillic_run order country word = Ok word.
Proof.
  intros country t order word Hc Ht P Hw Ha.
  cbn [cyrillic_countries In] in Hc.
  destruct Hc as [<-|[<-|[<-|[<-|[]]]]].
  - apply (cyrillic_kept [] _ t); [exact Ht| |exact P|intros r Hr; split; [apply Hw, Hr|intros []]].
    injection Ht as <-; vm_compute; reflexivity.
  - apply (cyrillic_kept [] _ t); [exact Ht| |exact P|intros r Hr; split; [apply Hw, Hr|intros []]].
    injection Ht as <-; vm_compute; reflexivity.
  - apply (cyrillic_kept [0x27] _ t); [exact Ht| |exact P|].
    + injection Ht as <-; vm_compute; reflexivity.
    + intros r Hr; split; [apply Hw, Hr|intros [<-|[]]]; apply Ha; auto.
  - apply (cyrillic_kept [0x27] _ t); [exact Ht| |exact P|].
    + injection Ht as <-; vm_compute; reflexivity.
    + intros r Hr; split; [apply Hw, Hr|intros [<-|[]]]; apply Ha; auto.
Qed.
Print Assumptions C20_unchanged_partial.

(** The apostrophe is no Latin letter, but Russia and Ukraine replace it in every run. *)
Theorem C20_unchanged_refuted :
  ~ latin 0x27 /\
  forall country, In country [lit "ru"; lit "ua"] -> exists t, lookup cyr_dict country = Some t /\
    forall order, an_order t order -> cyrillic_run order country (lit "'") = Ok (lit "ь").
Proof.
  split; [vm_compute; discriminate|].
  assert (forall country t, lookup cyr_dict country = Some t -> table_okb t = true ->
    (forallb (fun e => negb (has_prefix (lit "'") (fst e)) || beqb (snd e) (lit "ь")) t = true) ->
    (existsb (fun e => has_prefix (lit "'") (fst e)) t = true) ->
    forallb (fun e => negb (beqb (fst e) [])) t = true ->
    forall order, an_order t order -> cyrillic_run order country (lit "'") = Ok (lit "ь")) as H.
  { intros country t Ht Hok Hall Hex Hne order P; unfold cyrillic_run, cyrillic_new; rewrite Ht; cbn [bind].
    unfold cyrillic_transliterate, replacer_replace; f_equal.
    rewrite forallb_forall in Hall, Hne; rewrite existsb_exists in Hex; destruct Hex as ([k v] & Hin & Hp); cbn [fst] in Hp.
    assert (no_empty_key (order t)) as He.
    { intros w Hw; apply (Permutation_in _ (Permutation_sym P)) in Hw; specialize (Hne _ Hw); discriminate. }
    destruct (rep_lookup (order t) (lit "'") false) as [[v' n]|] eqn:E.
    - pose proof E as E'; apply rep_lookup_some in E'; destruct E' as (k' & Hin' & Hm & ->).
      apply (Permutation_in _ (Permutation_sym P)) in Hin'.
      destruct k' as [|x k']; [specialize (Hne _ Hin'); discriminate|].
      cbn [matches] in Hm; specialize (Hall _ Hin'); cbn [fst snd] in Hall; rewrite Hm in Hall; cbn [negb orb] in Hall.
      apply beqb_eq in Hall; subst v'.
      assert (k' = []) as ->.
      { apply has_prefix_spec in Hm; destruct Hm as (r & Er); injection Er as _ Er; destruct k'; [reflexivity|discriminate]. }
      change (lit "'") with [0x27] in *; rewrite (rep_step_key _ (lit "ь") 0 [] 0x27 He E), rep_from_nil by exact He.
      reflexivity.
    - rewrite rep_lookup_none in E; specialize (E k v (Permutation_in _ P Hin)).
      destruct k as [|x k]; [specialize (Hne _ Hin); discriminate|]; cbn [matches] in E; congruence. }
  intros country [<-|[<-|[]]].
  - exists cyr_ru; split; [reflexivity|]; apply H; vm_compute; reflexivity.
  - exists cyr_ua; split; [reflexivity|]; apply H; vm_compute; reflexivity.
Qed.
Print Assumptions C20_unchanged_refuted.

Example C20_example :
  cyrillic_run (fun l => l) (lit "mk") (lit "Skopje, Скопје") = Ok (lit "Скопје, Скопје") /\
  cyrillic_run (@rev _) (lit "mk") (lit "Skopje, Скопје") = Ok (lit "Скопје, Скопје") /\
  cyrillic_run (fun l => l) (lit "ru") (lit "Москва 1") = Ok (lit "Москва 1").
Proof. repeat split; vm_compute; reflexivity. Qed.

(** ** C44: kana *)

(** Kana with and without voicing marks, from the character charts: a plain character is
    followed by the one with the mark. *)
Fixpoint two_by_two (l : list rune) : list (rune * rune) :=
  match l with a :: b :: l' => (a, b) :: two_by_two l' | _ => [] end.
Definition voiced_chart : list (rune * rune) := two_by_two (runes (lit
  "うゔかがきぎくぐけげこごさざしじすずせぜそぞただちぢつづてでとどはばひびふぶへべほぼゝゞウヴカガキギクグケゲコゴサザシジスズセゼソゾタダチヂツヅテデトドハバヒビフブヘベホボワヷヰヸヱヹヲヺヽヾ")).
Definition semi_voiced_chart : list (rune * rune) := two_by_two (runes (lit "はぱひぴふぷへぺほぽハパヒピフプヘペホポ")).

Definition unvoiced (c : rune) : rune :=
  match List.find (fun e => snd e =? c) (voiced_chart ++ semi_voiced_chart) with Some e => fst e | None => c end.
Definition voiced (c : rune) : rune :=
  match List.find (fun e => fst e =? c) voiced_chart with Some e => snd e | None => c end.

Definition hiragana_block (c : rune) : Prop := 0x3040 <= c <= 0x309F.
Definition katakana_block (c : rune) : Prop := 0x30A0 <= c <= 0x30FF.

(** [mark p m c]: after [p] the iteration mark [m] stands for [c]. *)
Inductive mark (p : rune) : rune -> rune -> Prop :=
| mark_hiragana : hiragana_block p -> mark p 0x309D (unvoiced p)
| mark_hiragana_voiced : hiragana_block p -> mark p 0x309E (voiced p)
| mark_katakana : katakana_block p -> mark p 0x30FD (unvoiced p)
| mark_katakana_voiced : katakana_block p -> mark p 0x30FE (voiced p).

Definition kana : list rune := map (fun n => 0x3040 + N.of_nat n) (seq 0 192).
Lemma kana_all c : hiragana_block c \/ katakana_block c -> In c kana.
Proof.
  unfold hiragana_block, katakana_block; intros H; unfold kana; apply in_map_iff.
  exists (N.to_nat (c - 0x3040)); split; [lia|]; apply in_seq; lia.
Qed.
Lemma to_seion_unvoiced c : In c kana -> to_seion c = unvoiced c.
Proof.
  intros H; apply N.eqb_eq; revert c H; apply forallb_forall; vm_compute; reflexivity.
Qed.
Lemma to_dakuon_voiced c : In c kana -> to_dakuon c = voiced c.
Proof.
  intros H; apply N.eqb_eq; revert c H; apply forallb_forall; vm_compute; reflexivity.
Qed.
Lemma in_range_spec c a b : in_range c a b = true <-> a <= c <= b.
Proof. unfold in_range; rewrite andb_true_iff, !N.leb_le; tauto. Qed.
Lemma in_range_not c a b : in_range c a b = false -> ~ a <= c <= b.
Proof. intros H Hc; apply in_range_spec in Hc; congruence. Qed.

Lemma resolve_mark_spec p c :
  mark p c (resolve_mark p c) \/ (resolve_mark p c = c /\ forall c', ~ mark p c c').
Proof.
  unfold resolve_mark, is_hiragana, is_katakana.
  destruct (in_range p 0x3040 0x309F) eqn:Eh.
  - apply in_range_spec in Eh; pose proof (kana_all p (or_introl Eh)) as Hk.
    destruct (c =? 0x309D) eqn:E1; [apply N.eqb_eq in E1; subst c; left; rewrite to_seion_unvoiced by exact Hk; constructor; exact Eh|].
    destruct (c =? 0x309E) eqn:E2; [apply N.eqb_eq in E2; subst c; left; rewrite to_dakuon_voiced by exact Hk; constructor; exact Eh|].
    right; split; [reflexivity|]; apply N.eqb_neq in E1, E2; intros c' Hm; inversion Hm; subst; try congruence;
      unfold katakana_block in *; lia.
  - apply in_range_not in Eh; destruct (in_range p 0x30A0 0x30FF) eqn:Ek.
    + apply in_range_spec in Ek; pose proof (kana_all p (or_intror Ek)) as Hk.
      destruct (c =? 0x30FD) eqn:E1; [apply N.eqb_eq in E1; subst c; left; rewrite to_seion_unvoiced by exact Hk; constructor; exact Ek|].
      destruct (c =? 0x30FE) eqn:E2; [apply N.eqb_eq in E2; subst c; left; rewrite to_dakuon_voiced by exact Hk; constructor; exact Ek|].
      right; split; [reflexivity|]; apply N.eqb_neq in E1, E2; intros c' Hm; inversion Hm; subst; try congruence;
        unfold hiragana_block in *; lia.
    + apply in_range_not in Ek; right; split; [reflexivity|].
      intros c' Hm; inversion Hm; subst; unfold hiragana_block, katakana_block in *; lia.
Qed.

Lemma kana_scalar c : In c kana -> is_scalar (unvoiced c) = true /\ is_scalar (voiced c) = true.
Proof.
  intros H; apply andb_true_iff; revert c H; apply forallb_forall; vm_compute; reflexivity.
Qed.
Lemma resolve_scalar p c : is_scalar c = true -> is_scalar (resolve_mark p c) = true.
Proof.
  intros Hc; destruct (resolve_mark_spec p c) as [H|[-> _]]; [|exact Hc].
  inversion H; subst; match goal with
    | E : hiragana_block _ |- _ => pose proof (kana_scalar p (kana_all p (or_introl E)))
    | E : katakana_block _ |- _ => pose proof (kana_scalar p (kana_all p (or_intror E))) end; tauto.
Qed.
Lemma repeat_scalars p rs : scalars rs -> scalars (repeat_loop p rs).
Proof.
  intros H; revert p; induction H as [|c rs Hc H IH]; intros p; cbn [repeat_loop]; constructor;
    [apply resolve_scalar; exact Hc|apply IH].
Qed.

(** Resolving iteration marks keeps the number of characters. The character at a place is
    what it was, or what the mark there stands for after the character written before it;
    that is decided by whether there is a mark with a meaning there. *)
Theorem C44_repeat : forall word,
  let text := runes word in let out := runes (repeat_kana word) in
  length out = length text /\
  forall i c, nth_error text i = Some c ->
    exists c', nth_error out i = Some c' /\
      ((exists j p, i = S j /\ nth_error out j = Some p /\ mark p c c') \/
       (c' = c /\ forall j p, i = S j -> nth_error out j = Some p -> forall x, ~ mark p c x)).
Proof.
  intros word text out.
  assert (out = repeat_loop 0 text) as Eout
    by (unfold out, repeat_kana; apply runes_encode, repeat_scalars, runes_scalar).
  rewrite Eout; split; [apply repeat_loop_length|]; intros i c Hi.
  exists (resolve_mark (before 0 (repeat_loop 0 text) i) c); split; [apply repeat_loop_nth; exact Hi|].
  assert (forall j, i = S j -> nth_error (repeat_loop 0 text) j = Some (before 0 (repeat_loop 0 text) i)) as Hb.
  { intros j ->; cbn [before]; apply nth_error_nth'; rewrite repeat_loop_length.
    assert (nth_error text (S j) <> None) as E by congruence; apply nth_error_Some in E; lia. }
  destruct (resolve_mark_spec (before 0 (repeat_loop 0 text) i) c) as [Hm|[E Hno]].
  - destruct i as [|j].
    + exfalso; cbn [before] in Hm; inversion Hm; unfold hiragana_block, katakana_block in *; lia.
    + left; exists j, (before 0 (repeat_loop 0 text) (S j)); auto.
  - right; split; [exact E|]; intros j p Ej Hj x Hx; rewrite (Hb j Ej) in Hj; injection Hj as <-; eapply Hno; exact Hx.
Qed.
Print Assumptions C44_repeat.

(** Only iteration marks change. *)
Theorem C44_repeat_only_marks : forall word i c,
  nth_error (runes word) i = Some c -> ~ In c (runes (lit "ゝゞヽヾ")) ->
  nth_error (runes (repeat_kana word)) i = Some c.
Proof.
  intros word i c Hi Hc; destruct (C44_repeat word) as [_ H]; destruct (H i c Hi) as (c' & Ho & Hm).
  destruct Hm as [(j & p & _ & _ & Hm)|[-> _]]; [exfalso; apply Hc|exact Ho].
  inversion Hm; subst; vm_compute; auto.
Qed.
Print Assumptions C44_repeat_only_marks.

Example C44_repeat_example :
  repeat_kana (lit "いすゞ、こゝろ、バナヽ、ぶゞ漬ヾ、ゝ") = lit "いすず、こころ、バナナ、ぶぶ漬ヾ、ゝ" /\
  mark 0x3059 0x309E 0x305A.
Proof. split; [vm_compute; reflexivity|]; apply (mark_hiragana_voiced 0x3059); unfold hiragana_block; lia. Qed.

(** The vowel in which a katakana ends. *)
Inductive vowel := Va | Vi | Vu | Ve | Vo.
Definition ends_in (v : vowel) : list rune := runes (match v with
  | Va => lit "ァアカガサザタダナハバパマャヤラヮワヵヷ"
  | Vi => lit "ィイキギシジチヂニヒビピミリヰヸ"
  | Vu => lit "ゥウクグスズッツヅヌフブプムュユルヴ"
  | Ve => lit "ェエケゲセゼテデネヘベペメレヱヶヹ"
  | Vo => lit "ォオコゴソゾトドノホボポモョヨロヲヺ"
  end).
(** The letters of a vowel alone. *)
Definition vowel_letters (v : vowel) : list rune := runes (match v with
  | Va => lit "ァア" | Vi => lit "ィイ" | Vu => lit "ゥウ" | Ve => lit "ェエ" | Vo => lit "ォオ" end).
(** What a vowel can make longer: itself, and e followed by i, o followed by u. *)
Definition lengthened_by (v : vowel) : list vowel :=
  match v with Va => [Va] | Vi => [Vi; Ve] | Vu => [Vu; Vo] | Ve => [Ve] | Vo => [Vo] end.
Definition long_after (p c : rune) : Prop :=
  exists v w, In c (vowel_letters v) /\ In w (lengthened_by v) /\ In p (ends_in w).
(** The pairs of those that the table leaves out. *)
Definition not_long : list (rune * list rune) := [
  (0x30A1, runes (lit "ヵヷ")); (0x30A2, runes (lit "ヵヷ"));
  (0x30A3, runes (lit "テデヶ")); (0x30A4, runes (lit "ェエケゲセゼチヂテデネヘベペメレヱヶヹ"));
  (0x30A5, runes (lit "ットド")); (0x30A6, runes (lit "ッ"));
  (0x30A7, runes (lit "ヶ")); (0x30A8, runes (lit "ヶ"))].
Definition left_out (p c : rune) : Prop := exists l, In (c, l) not_long /\ In p l.

Lemma nmem_in x l : nmem x l = true <-> In x l.
Proof.
  unfold nmem; rewrite existsb_exists; split; [intros (y & Hy & E); apply N.eqb_eq in E; subst; exact Hy|].
  intros H; exists x; rewrite N.eqb_refl; auto.
Qed.
Definition vowels := [Va; Vi; Vu; Ve; Vo].
Lemma vowels_all v : In v vowels. Proof. destruct v; cbn; tauto. Qed.
Definition long_afterb (p c : rune) : bool :=
  existsb (fun v => nmem c (vowel_letters v) && existsb (fun w => nmem p (ends_in w)) (lengthened_by v)) vowels.
Lemma long_afterb_spec p c : long_afterb p c = true <-> long_after p c.
Proof.
  unfold long_afterb, long_after; rewrite existsb_exists; split.
  - intros (v & _ & H); apply andb_true_iff in H; destruct H as [H1 H2]; rewrite existsb_exists in H2.
    destruct H2 as (w & Hw & H2); exists v, w; rewrite <- !nmem_in; auto.
  - intros (v & w & H1 & H2 & H3); exists v; split; [apply vowels_all|].
    apply andb_true_iff; rewrite nmem_in; split; [exact H1|]; apply existsb_exists; exists w; rewrite nmem_in; auto.
Qed.
Definition left_outb (p c : rune) : bool := existsb (fun e => (fst e =? c) && nmem p (snd e)) not_long.
Lemma left_outb_spec p c : left_outb p c = true <-> left_out p c.
Proof.
  unfold left_outb, left_out; rewrite existsb_exists; split.
  - intros ([x l] & Hi & H); cbn [fst snd] in H; apply andb_true_iff in H; destruct H as [H1 H2].
    apply N.eqb_eq in H1; subst x; exists l; rewrite <- nmem_in; auto.
  - intros (l & Hi & H); exists (c, l); cbn [fst snd]; rewrite N.eqb_refl; split; [exact Hi|]; apply nmem_in; exact H.
Qed.

(** The relations agree because they are about kana only. *)
Definition long_keys : list rune := map fst long_vowel_rels.
Lemma is_long_kana p c : is_long_vowel p c = true -> In p kana /\ In c long_keys.
Proof.
  unfold is_long_vowel; rewrite existsb_exists; intros ([x l] & Hi & H); cbn [fst snd] in H.
  apply andb_true_iff in H; destruct H as [H1 H2]; apply N.eqb_eq in H1; subst x; apply nmem_in in H2.
  assert (forallb (fun e => nmem (fst e) long_keys && forallb (fun y => nmem y kana) (snd e)) long_vowel_rels = true) as Hall
    by (vm_compute; reflexivity).
  rewrite forallb_forall in Hall; specialize (Hall _ Hi); cbn [fst snd] in Hall; apply andb_true_iff in Hall.
  destruct Hall as [Ha Hb]; rewrite forallb_forall in Hb; specialize (Hb _ H2); rewrite !nmem_in in *; auto.
Qed.
Lemma long_after_kana p c : long_after p c -> In p kana /\ In c long_keys.
Proof.
  intros (v & w & H1 & H2 & H3).
  assert (forallb (fun v => forallb (fun y => nmem y long_keys) (vowel_letters v) && forallb (fun y => nmem y kana) (ends_in v)) vowels = true)
    as Hall by (vm_compute; reflexivity).
  rewrite forallb_forall in Hall; split.
  - specialize (Hall w (vowels_all w)); apply andb_true_iff in Hall; destruct Hall as [_ H]; rewrite forallb_forall in H.
    apply nmem_in, H, H3.
  - specialize (Hall v (vowels_all v)); apply andb_true_iff in Hall; destruct Hall as [H _]; rewrite forallb_forall in H.
    apply nmem_in, H, H1.
Qed.
Lemma is_long_spec p c : is_long_vowel p c = true <-> long_after p c /\ ~ left_out p c.
Proof.
  assert (forallb (fun p => forallb (fun c => Bool.eqb (is_long_vowel p c) (long_afterb p c && negb (left_outb p c))) long_keys) kana = true)
    as Hall by (vm_compute; reflexivity).
  rewrite forallb_forall in Hall.
  assert (In p kana -> In c long_keys -> (is_long_vowel p c = true <-> long_after p c /\ ~ left_out p c)) as H.
  { intros Hp Hc; specialize (Hall p Hp); rewrite forallb_forall in Hall; specialize (Hall c Hc).
    apply Bool.eqb_prop in Hall; rewrite Hall, andb_true_iff, negb_true_iff, long_afterb_spec, <- left_outb_spec.
    destruct (left_outb p c); intuition congruence. }
  split; intros Hx.
  - destruct (is_long_kana p c Hx); tauto.
  - destruct (long_after_kana p c (proj1 Hx)); tauto.
Qed.

Lemma merge_scalars p o rs : scalars rs -> scalars (merge_long p o rs).
Proof.
  intros H; revert p o; induction H as [|c rs Hc H IH]; intros p o; cbn [merge_long]; constructor; [|apply IH].
  destruct (match o with O => is_long_vowel p c | S _ => false end); [reflexivity|exact Hc].
Qed.
Lemma runes_merge word offset : runes (merge_long_vowels word offset) = merge_long 0 offset (runes word).
Proof. unfold merge_long_vowels; apply runes_encode, merge_scalars, runes_scalar. Qed.

(** Merging long vowels keeps the number of characters. From the offset on, a vowel letter
    after a sound that it lengthens becomes the long vowel mark, but for the pairs left out
    of the table; nothing else changes. *)
Theorem C44_merge : forall word offset,
  let text := runes word in let out := runes (merge_long_vowels word offset) in
  length out = length text /\
  forall i c, nth_error text i = Some c ->
    exists c', nth_error out i = Some c' /\
      let merged := (offset <= i)%nat /\
                    exists j p, i = S j /\ nth_error text j = Some p /\ long_after p c /\ ~ left_out p c in
      (merged -> c' = 0x30FC) /\ (~ merged -> c' = c).
Proof.
  intros word offset text out.
  assert (out = merge_long 0 offset text) as Eout by apply runes_merge.
  rewrite Eout; split; [apply merge_long_length|]; intros i c Hi.
  eexists; split; [apply merge_long_nth; exact Hi|]; cbv zeta.
  assert (((offset <=? i)%nat && is_long_vowel (before 0 text i) c = true) <->
          (offset <= i)%nat /\ exists j p, i = S j /\ nth_error text j = Some p /\ long_after p c /\ ~ left_out p c) as Heq.
  { rewrite andb_true_iff, Nat.leb_le, is_long_spec; split.
    - intros [Ho Hl]; split; [exact Ho|]; destruct i as [|j].
      + exfalso; destruct (long_after_kana 0 c (proj1 Hl)) as [Hk _]; apply nmem_in in Hk; discriminate Hk.
      + exists j, (before 0 text (S j)); split; [reflexivity|]; split; [|exact Hl].
        cbn [before]; apply nth_error_nth'; assert (nth_error text (S j) <> None) as E by congruence.
        apply nth_error_Some in E; lia.
    - intros (Ho & j & p & -> & Hj & Hl); split; [exact Ho|]; cbn [before].
      rewrite (nth_error_nth text j 0 Hj); exact Hl. }
  destruct ((offset <=? i)%nat && is_long_vowel (before 0 text i) c); split; intros H; try reflexivity.
  - exfalso; apply H, Heq; reflexivity.
  - apply Heq in H; discriminate.
Qed.
Print Assumptions C44_merge.

(** Only vowel letters after a matching sound change. *)
Theorem C44_merge_only_vowels : forall word offset i c c',
  nth_error (runes word) i = Some c -> nth_error (runes (merge_long_vowels word offset)) i = Some c' -> c' <> c ->
  c' = 0x30FC /\ (offset <= i)%nat /\ exists j p, i = S j /\ nth_error (runes word) j = Some p /\ long_after p c.
Proof.
  intros word offset i c c' Hi Ho Hne; destruct (C44_merge word offset) as [_ H]; destruct (H i c Hi) as (x & Hx & H1 & H2).
  assert (Some x = Some c') as E by (rewrite <- Hx, <- Ho; reflexivity); injection E as ->.
  destruct ((offset <=? i)%nat && is_long_vowel (before 0 (runes word) i) c) eqn:Ed.
  - rewrite runes_merge in Hx; rewrite (merge_long_nth _ _ _ _ _ Hi), Ed in Hx; injection Hx as <-.
    split; [reflexivity|]; apply andb_true_iff in Ed; destruct Ed as [Ed1 Ed2]; split; [apply Nat.leb_le; exact Ed1|].
    apply is_long_spec in Ed2; destruct Ed2 as [Ed2 _]; destruct i as [|j].
    + exfalso; destruct (long_after_kana 0 c Ed2) as [Hk _]; apply nmem_in in Hk; discriminate Hk.
    + exists j, (before 0 (runes word) (S j)); split; [reflexivity|]; split; [|exact Ed2].
      cbn [before]; apply nth_error_nth'; assert (nth_error (runes word) (S j) <> None) as E by congruence.
      apply nth_error_Some in E; lia.
  - rewrite runes_merge in Hx; rewrite (merge_long_nth _ _ _ _ _ Hi), Ed in Hx; injection Hx as <-; contradiction.
Qed.
Print Assumptions C44_merge_only_vowels.

Example C44_merge_example :
  merge_long_vowels (lit "トウキョウ、オオサカ") 2 = lit "トウキョー、オーサカ" /\
  long_after 0x30E7 0x30A6 /\ ~ left_out 0x30E7 0x30A6 /\
  merge_long_vowels (lit "チイ") 0 = lit "チイ" /\ left_out 0x30C1 0x30A4.
Proof.
  rewrite <- !left_outb_spec, <- !long_afterb_spec.
  repeat split; vm_compute; try reflexivity; discriminate.
Qed.

(** ** C45: pinyin *)

(** [chunked rd text cs]: a character with readings gives its first reading as a chunk, the
    characters between two of them, if any, one chunk together. *)
Inductive chunked (rd : rune -> list bytes) : list rune -> list bytes -> Prop :=
| chunked_nil : chunked rd [] []
| chunked_read c first more text cs :
    rd c = first :: more -> chunked rd text cs -> chunked rd (c :: text) (first :: cs)
| chunked_kept run text cs :
    run <> [] -> Forall (fun c => rd c = []) run ->
    (forall c rest, text = c :: rest -> rd c <> []) ->
    chunked rd text cs -> chunked rd (run ++ text) (encode run :: cs).

Lemma pinyin_loop_chunked rd text run :
  Forall (fun c => rd c = []) run -> chunked rd (run ++ text) (pinyin_loop rd text (encode run)).
Proof.
  revert run; induction text as [|c text IH]; intros run Hr; cbn [pinyin_loop].
  - destruct (encode run) eqn:E.
    + apply encode_nil_inv in E; subst run; constructor.
    + rewrite <- E; apply chunked_kept; [intros ->; discriminate|exact Hr|discriminate|constructor].
  - destruct (rd c) as [|first more] eqn:Ec.
    + specialize (IH (run ++ [c])); rewrite encode_app in IH; cbn [encode flat_map] in IH; rewrite app_nil_r in IH.
      rewrite <- app_assoc in IH; apply IH, Forall_app; split; [exact Hr|]; constructor; [exact Ec|constructor].
    + pose proof (IH [] (Forall_nil _)) as H; cbn [app encode flat_map] in H.
      pose proof (chunked_read rd c first more text _ Ec H) as H'.
      destruct (encode run) eqn:E.
      * apply encode_nil_inv in E; subst run; exact H'.
      * cbn [app]; rewrite <- E; apply chunked_kept; [intros ->; discriminate|exact Hr| |exact H'].
        intros c' rest Ee; injection Ee as <- <-; congruence.
Qed.

Lemma run_unique (P : rune -> Prop) r1 t1 r2 t2 : Forall P r1 -> Forall P r2 ->
  (forall c rest, t1 = c :: rest -> ~ P c) -> (forall c rest, t2 = c :: rest -> ~ P c) ->
  r1 ++ t1 = r2 ++ t2 -> r1 = r2 /\ t1 = t2.
Proof.
  intros H1; revert r2; induction H1 as [|c r1 Hc H1 IH]; intros r2 H2 E1 E2 E.
  - destruct H2 as [|c r2 Hc H2]; [auto|]; exfalso; eapply E1; [exact E|exact Hc].
  - destruct H2 as [|c' r2 Hc' H2]; [exfalso; eapply E2; [symmetry; exact E|exact Hc]|].
    injection E as -> E; destruct (IH r2 H2 E1 E2 E) as [-> ->]; auto.
Qed.
Lemma chunked_inv rd whole cs : chunked rd whole cs ->
  (whole = [] /\ cs = []) \/
  (exists c f m text cs', whole = c :: text /\ cs = f :: cs' /\ rd c = f :: m /\ chunked rd text cs') \/
  (exists run text cs', whole = run ++ text /\ cs = encode run :: cs' /\ run <> [] /\ Forall (fun c => rd c = []) run /\
     (forall c rest, text = c :: rest -> rd c <> []) /\ chunked rd text cs').
Proof.
  intros H; destruct H as [|c f m text cs Hc H|run text cs Hne Hr Ht H]; [auto| |].
  - right; left; exists c, f, m, text, cs; auto.
  - right; right; exists run, text, cs; auto 6.
Qed.
Lemma chunked_unique rd text cs1 : chunked rd text cs1 -> forall cs2, chunked rd text cs2 -> cs1 = cs2.
Proof.
  induction 1 as [|c f m text cs1 Hc H IH|run text cs1 Hne Hr Ht H IH]; intros cs2 H2; apply chunked_inv in H2;
    destruct H2 as [[E1 E2]|[(c' & f' & m' & text' & cs' & E1 & E2 & Hc' & H')|
                             (run' & text' & cs' & E1 & E2 & Hne' & Hr' & Ht' & H')]]; subst cs2.
  - reflexivity.
  - discriminate.
  - symmetry in E1; apply app_eq_nil in E1; destruct E1 as [E1 _]; contradiction.
  - discriminate.
  - injection E1 as <- <-; rewrite Hc in Hc'; injection Hc' as <- <-; f_equal; apply IH; exact H'.
  - destruct run' as [|x run']; [contradiction|]; injection E1 as <- _; apply Forall_cons_iff in Hr'; destruct Hr'; congruence.
  - apply app_eq_nil in E1; destruct E1 as [E1 _]; contradiction.
  - destruct run as [|x run]; [contradiction|]; injection E1 as -> _; apply Forall_cons_iff in Hr; destruct Hr; congruence.
  - destruct (run_unique (fun c => rd c = []) run' text' run text Hr' Hr Ht' Ht (eq_sym E1)) as [-> ->].
    f_equal; apply IH; exact H'.
Qed.

(** One separator between each two chunks. *)
Inductive separated (sep : bytes) : list bytes -> bytes -> Prop :=
| separated_none : separated sep [] []
| separated_one c : separated sep [c] c
| separated_more c d cs s : separated sep (d :: cs) s -> separated sep (c :: d :: cs) (c ++ sep ++ s).
Lemma join_separated sep cs : separated sep cs (join sep cs).
Proof.
  induction cs as [|c [|d cs] IH]; [constructor|constructor|].
  change (join sep (c :: d :: cs)) with (c ++ sep ++ join sep (d :: cs)); constructor; exact IH.
Qed.

(** The result is the chunks of the word, which are determined, with one zero-width space
    between each two. *)
Theorem C45_pinyin : forall nfc readings word,
  exists cs out, pinyin_transliterate nfc readings word = Ok out /\
    separated (encode_rune 0x200B) cs out /\ chunked readings (runes (nfc word)) cs /\
    forall cs', chunked readings (runes (nfc word)) cs' -> cs' = cs.
Proof.
  intros nfc rd word; pose proof (pinyin_loop_chunked rd (runes (nfc word)) [] (Forall_nil _)) as H.
  cbn [app encode flat_map] in H.
  exists (pinyin_loop rd (runes (nfc word)) []), (join (encode_rune 0x200B) (pinyin_loop rd (runes (nfc word)) [])).
  split; [reflexivity|]; split; [apply join_separated|]; split; [exact H|].
  intros cs' H'; symmetry; eapply chunked_unique; [exact H|exact H'].
Qed.
Print Assumptions C45_pinyin.

(** The chunks of characters without readings hold exactly those characters: without
    readings at all, valid text is kept. *)
Theorem C45_kept : forall nfc word,
  utf8_text (nfc word) -> pinyin_transliterate nfc (fun _ => []) word = Ok (nfc word).
Proof.
  intros nfc word Hw; unfold pinyin_transliterate; f_equal.
  assert (forall text buf, pinyin_loop (fun _ => []) text buf =
            match buf ++ encode text with [] => [] | b => [b] end) as H.
  { induction text as [|c text IH]; intros buf; cbn [pinyin_loop]; [cbn [encode flat_map]; rewrite app_nil_r; destruct buf; reflexivity|].
    rewrite IH; cbn [encode flat_map]; rewrite app_assoc; reflexivity. }
  rewrite H; cbn [app]; rewrite utf8_text_runes by exact Hw; destruct (nfc word); reflexivity.
Qed.
Print Assumptions C45_kept.

Definition two_readings (c : rune) : list bytes :=
  if c =? 0x4E2D then [lit "zhōng"; lit "zhòng"] else if c =? 0x56FD then [lit "guó"] else [].
Example C45_example :
  pinyin_transliterate (fun w => w) two_readings (lit "A中国, B国") =
    Ok (join (encode_rune 0x200B) [lit "A"; lit "zhōng"; lit "guó"; lit ", B"; lit "guó"]).
Proof. vm_compute; reflexivity. Qed.

(** ** C56: the typewriter of furigana *)

(** The tokens that count. *)
Definition real (t : ktoken) : bool := match k_class t with TDummy => false | _ => true end.

(** [out] has the characters of [text], but for long vowels merged into the mark. *)
Definition same_but_long (text out : bytes) : Prop :=
  Forall2 (fun c c' => c' = c \/ c' = 0x30FC /\ exists v, In c (vowel_letters v)) (runes text) (runes out).

(** An auxiliary is joined to the morpheme before it. A person name after a person name,
    with its auxiliaries, is set off by a space. *)
Fixpoint spaces (last : option category) (cats : list category) : list bytes :=
  match cats with
  | [] => []
  | c :: cats' =>
    match c, last with
    | CAuxiliary, Some _ => [] :: spaces last cats'
    | CPersonName, Some CPersonName => lit " " :: spaces (Some c) cats'
    | _, _ => [] :: spaces (Some c) cats'
    end
  end.
Fixpoint set_off (seps pieces : list bytes) : bytes :=
  match seps, pieces with s :: seps', p :: pieces' => s ++ p ++ set_off seps' pieces' | _, _ => [] end.

(** The tokens are read as texts with categories. *)
Definition read_as (toks : list ktoken) (said : list (bytes * category)) : Prop :=
  Forall2 (fun t s => interpret_token t = Ok s) toks said.

Lemma skip_dummies_real ts : filter real (skip_dummies ts) = filter real ts /\
  match skip_dummies ts with [] => filter real ts = [] | t :: ts' => filter real ts = t :: filter real ts' end.
Proof.
  induction ts as [|[[] sf fs] ts [IH1 IH2]]; cbn; auto.
Qed.

Lemma same_refl text : same_but_long text text.
Proof. unfold same_but_long; induction (runes text); constructor; auto. Qed.

Lemma merge_same p o rs :
  Forall2 (fun c c' => c' = c \/ c' = 0x30FC /\ exists v, In c (vowel_letters v)) rs (merge_long p o rs).
Proof.
  revert p o; induction rs as [|c rs IH]; intros p o; cbn [merge_long]; constructor; [|apply IH].
  destruct o; [|auto]; destruct (is_long_vowel p c) eqn:E; [right|auto]; split; [reflexivity|].
  apply is_long_spec in E; destruct E as [(v & _ & Hv & _) _]; exists v; exact Hv.
Qed.
Lemma merge_long_app p o a b :
  exists p' o', merge_long p o (a ++ b) = merge_long p o a ++ merge_long p' o' b.
Proof.
  revert p o; induction a as [|c a IH]; intros p o; [exists p, o; reflexivity|].
  destruct (IH c (o - 1)%nat) as (p' & o' & E); exists p', o'; cbn [app merge_long]; rewrite E; reflexivity.
Qed.
Lemma merge_fresh p o rs : (length rs <= o)%nat -> merge_long p o rs = rs.
Proof.
  revert p o; induction rs as [|c rs IH]; intros p o H; [reflexivity|].
  cbn [length] in H; cbn [merge_long]; rewrite IH by lia; destruct o; [lia|reflexivity].
Qed.

(** The pieces of a list of texts within a merge over all of them. *)
Lemma merge_pieces strs p o : Forall utf8_text strs ->
  exists pieces, encode (merge_long p o (runes (concat strs))) = concat pieces /\
    Forall2 (fun s q => same_but_long s q /\ utf8_text q) strs pieces.
Proof.
  intros H; revert p o; induction H as [|s strs Hs H IH]; intros p o.
  - exists []; split; [reflexivity|constructor].
  - cbn [concat]; rewrite runes_app_text by exact Hs.
    destruct (merge_long_app p o (runes s) (runes (concat strs))) as (p' & o' & E).
    destruct (IH p' o') as (pieces & Ep & Hp).
    exists (encode (merge_long p o (runes s)) :: pieces); split.
    + rewrite E, encode_app, Ep; reflexivity.
    + constructor; [|exact Hp]; split; [|apply encode_utf8_text].
      unfold same_but_long; rewrite runes_encode by apply merge_scalars, runes_scalar; apply merge_same.
Qed.

(** Leading auxiliaries. *)
Lemma scan_auxiliary_spec ts said : read_as (filter real ts) said ->
  exists aux rest_said rest,
    scan_auxiliary ts = Ok (concat (map fst aux), rest) /\ said = aux ++ rest_said /\
    Forall (fun s => snd s = CAuxiliary) aux /\
    (forall s more, rest_said = s :: more -> snd s <> CAuxiliary) /\
    read_as (filter real rest) rest_said /\ (length rest <= length ts)%nat.
Proof.
  revert said; induction ts as [|t ts IH]; intros said H; cbn [filter] in H.
  - inversion H; subst; exists [], [], []; cbn; repeat split; auto; discriminate.
  - cbn [scan_auxiliary].
    assert (k_class t = TDummy \/ real t = true) as [Hd|Hr] by (unfold real; destruct (k_class t); auto).
    + assert (real t = false) as Hf by (unfold real; rewrite Hd; reflexivity); rewrite Hf in H; rewrite Hd.
      destruct (IH said H) as (aux & rs & rest & E & Es & Ha & Hn & Hrd & Hl).
      exists aux, rs, rest; repeat split; auto; cbn [length]; lia.
    + pose proof Hr as Hr'; unfold real in Hr'; rewrite Hr in H; inversion H as [|? [str cat] ? said' Ht H' E1 E2]; subst.
      destruct (category_eqb cat CAuxiliary) eqn:Ec.
      * destruct cat; try discriminate Ec.
        destruct (IH said' H') as (aux & rs & rest & E & Es & Ha & Hn & Hrd & Hl).
        exists ((str, CAuxiliary) :: aux), rs, rest.
        split; [|subst said'; repeat split; auto; cbn [length]; lia].
        destruct (k_class t); try discriminate Hr'; rewrite Ht; cbn [bind]; rewrite E; reflexivity.
      * exists [], ((str, cat) :: said'), (t :: ts).
        split; [destruct (k_class t); try discriminate Hr'; rewrite Ht; cbn [bind]; destruct cat; try discriminate Ec; reflexivity|].
        repeat split; auto.
        -- intros s more Es; injection Es as <- <-; destruct cat; try discriminate Ec; discriminate.
        -- cbn [filter]; rewrite Hr; exact H.
Qed.

Lemma spaces_aux c aux rest : Forall (fun s : bytes * category => snd s = CAuxiliary) aux ->
  spaces (Some c) (map snd (aux ++ rest)) = repeat [] (length aux) ++ spaces (Some c) (map snd rest).
Proof.
  induction 1 as [|[s k] aux Hk H IH]; [reflexivity|]; cbn [snd] in Hk; subst k.
  cbn [app map snd spaces length repeat]; rewrite IH; reflexivity.
Qed.
Lemma set_off_app n pieces seps rest : length pieces = n ->
  set_off (repeat [] n ++ seps) (pieces ++ rest) = concat pieces ++ set_off seps rest.
Proof.
  intros <-; induction pieces as [|p pieces IH]; [reflexivity|].
  cbn [length repeat app set_off concat]; rewrite IH, app_assoc; reflexivity.
Qed.
Lemma spaces_head c last cats : exists sep, spaces last (c :: cats) =
    sep :: match c, last with CAuxiliary, Some _ => spaces last cats | _, _ => spaces (Some c) cats end /\
    (c <> CAuxiliary \/ last = None ->
     sep = match last with
           | None | Some CMeta => []
           | Some l => if category_eqb c CPersonName && category_eqb l CPersonName then lit " " else []
           end).
Proof.
  destruct c, last as [[]|]; cbn [spaces]; eexists; (split; [reflexivity|]); intros H; try reflexivity;
    destruct H; congruence.
Qed.
Lemma same_trans_first a b c : same_but_long a b -> same_but_long b c -> same_but_long a c.
Proof.
  unfold same_but_long; generalize (runes a) (runes b) (runes c); intros x y z H; revert z.
  induction H as [|u v x y Huv H IH]; intros z Hz; inversion Hz as [|? w ? z' Hvw Hz']; subst; constructor; [|apply IH; exact Hz'].
  destruct Huv as [->|[-> Hu]]; [exact Hvw|]; destruct Hvw as [->|[-> [k Hk]]]; [auto|].
  right; split; [reflexivity|exact Hu].
Qed.
Lemma same_nonempty a b : same_but_long a b -> a <> [] -> b <> [].
Proof.
  intros H Ha ->; unfold same_but_long in H; change (runes []) with (@nil rune) in H; inversion H as [E|]; subst.
  apply Ha, runes_nil_inv; symmetry; assumption.
Qed.

Lemma typewrite_loop_spec fuel : forall ts said last,
  (length ts < fuel)%nat -> read_as (filter real ts) said ->
  Forall (fun s => fst s <> [] /\ utf8_text (fst s)) said ->
  (forall s more, last <> None -> said = s :: more -> snd s <> CAuxiliary) ->
  exists pieces, typewrite_loop fuel ts last = Ok (set_off (spaces last (map snd said)) pieces) /\
    Forall2 (fun s q => same_but_long (fst s) q /\ utf8_text q) said pieces.
Proof.
  induction fuel as [|fuel IH]; intros ts said last Hf Hrd Hok Hlast; [lia|].
  cbn [typewrite_loop]; unfold scan_morpheme.
  destruct (skip_dummies_real ts) as [Hsk1 Hsk2].
  destruct (skip_dummies ts) as [|t ts'] eqn:Esk.
  - rewrite Hsk2 in Hrd; inversion Hrd; subst; exists []; cbn; split; [reflexivity|constructor].
  - rewrite Hsk2 in Hrd; inversion Hrd as [|? [str cat] ? said' Ht Hrd' E1 E2]; subst.
    assert (length ts' < length ts)%nat as Hlen.
    { revert Esk; clear; induction ts as [|[[] sf fs] ts IHt]; cbn; intros E; try discriminate;
        try (injection E as _ ->; lia); specialize (IHt E); lia. }
    destruct (scan_auxiliary_spec ts' said' Hrd') as (aux & rsaid & rest & Ea & Es & Haux & Hn & Hrest & Hlrest).
    subst said'; rewrite Ht; cbn [bind]; rewrite Ea; cbn [bind].
    apply Forall_cons_iff in Hok; destruct Hok as [[Hstr Hutf] Hok]; cbn [fst] in Hstr, Hutf.
    apply Forall_app in Hok; destruct Hok as [Hoka Hokr].
    set (str' := match cat with CUnknown => merge_long_vowels str 0 | _ => str end).
    assert (same_but_long str str' /\ utf8_text str') as [Hsame Hutf'].
    { unfold str'; destruct cat; try (split; [apply same_refl|exact Hutf]).
      split; [|apply encode_utf8_text]; unfold same_but_long; rewrite runes_merge; apply merge_same. }
    destruct (merge_pieces (str' :: map fst aux) 0 (length (runes str'))) as (pieces & Ep & Hp).
    { constructor; [exact Hutf'|]; clear -Hoka; induction Hoka as [|s l [_ H]]; constructor; auto. }
    change (str' ++ concat (map fst aux)) with (concat (str' :: map fst aux)).
    unfold merge_long_vowels; rewrite Ep.
    inversion Hp as [|? p0 ? pieces' [Hp0 Hu0] Hpieces E1 E2]; subst pieces.
    assert (concat (p0 :: pieces') <> []) as Hne.
    { cbn [concat]; intros E; apply app_eq_nil in E; destruct E as [E _]; revert E.
      apply (same_nonempty str); [eapply same_trans_first; eassumption|exact Hstr]. }
    destruct (IH rest rsaid (Some cat)) as (more & Em & Hm).
    { lia. } { exact Hrest. } { exact Hokr. }
    { intros s m _ E; eapply Hn; exact E. }
    rewrite Em; cbn [bind].
    destruct (spaces_head cat last (map snd (aux ++ rsaid))) as (sep & Esp & Hsep).
    assert (match cat, last with CAuxiliary, Some _ => spaces last (map snd (aux ++ rsaid))
            | _, _ => spaces (Some cat) (map snd (aux ++ rsaid)) end = spaces (Some cat) (map snd (aux ++ rsaid))) as Etail.
    { destruct last as [lc|]; destruct cat; try reflexivity; exfalso; eapply Hlast; [discriminate|reflexivity|reflexivity]. }
    rewrite Etail in Esp; pose proof (spaces_aux cat aux rsaid Haux) as Eaux; unfold bytes in *; rewrite Eaux in Esp.
    assert (Forall2 (fun s q => same_but_long (fst s) q /\ utf8_text q) aux pieces') as Hauxp.
    { clear -Hpieces; revert pieces' Hpieces; induction aux as [|s aux IHa]; intros pieces' H; inversion H; subst; constructor; auto. }
    exists ((p0 :: pieces') ++ more); split.
    + cbn [map snd]; rewrite Esp; cbn [app set_off]; rewrite set_off_app
        by (clear -Hauxp; induction Hauxp; cbn; auto).
      rewrite Hsep.
      2:{ destruct last; [left; apply (Hlast (str, cat) (aux ++ rsaid)); [discriminate|reflexivity]|auto]. }
      cbn [concat] in *; destruct (p0 ++ concat pieces') eqn:Ec; [contradiction|rewrite <- Ec].
      rewrite <- app_assoc; reflexivity.
    + cbn [app]; constructor; [split; [eapply same_trans_first; eassumption|exact Hu0]|apply Forall2_app; assumption].
Qed.

(** Every token is written once, in order, with its long vowels merged; spaces stand before
    person names after person names only. Missing from the property: tokens with an empty
    pronunciation. *)
Theorem C56_typewriter_partial : forall tokens said,
  read_as (filter real tokens) said -> Forall (fun s => fst s <> [] /\ utf8_text (fst s)) said ->
  exists pieces, typewrite tokens = Ok (set_off (spaces None (map snd said)) pieces) /\
    Forall2 (fun s piece => same_but_long (fst s) piece /\ utf8_text piece) said pieces.
Proof.
  intros tokens said H1 H2; unfold typewrite; apply typewrite_loop_spec; auto; intros s more H; contradiction.
Qed.
Print Assumptions C56_typewriter_partial.

(** A token with an empty pronunciation ends the text. *)
Theorem C56_empty_refuted : exists tokens said,
  read_as (filter real tokens) said /\ Forall (fun s => utf8_text (fst s)) said /\
  (exists s, In s said /\ fst s <> []) /\ typewrite tokens = Ok [].
Proof.
  exists [{| k_class := TUnknown; k_surface := []; k_features := [] |};
          {| k_class := TUnknown; k_surface := lit "ア"; k_features := [] |}],
         [([], CMeta); (lit "ア", CUnknown)].
  split; [repeat constructor|]; split.
  { constructor; [apply utf8_text_nil|]; constructor; [|constructor]; apply valid_utf8_text; reflexivity. }
  split; [exists (lit "ア", CUnknown); split; [right; left; reflexivity|discriminate]|]; vm_compute; reflexivity.
Qed.
Print Assumptions C56_empty_refuted.

(** A token of the dictionary without nine features panics. *)
Theorem C56_features : forall t, k_class t = TKnown ->
  (exists s, interpret_token t = Ok s) <-> (9 <= length (k_features t))%nat.
Proof.
  intros [c sf fs]; cbn [k_class k_features]; intros ->; unfold interpret_token; cbn [k_class k_features].
  destruct fs as [|f0 [|f1 [|f2 [|f3 [|f4 [|f5 [|f6 [|f7 [|f8 fs]]]]]]]]]; split;
    try (intros [s H]; vm_compute in H; discriminate); try (cbn [length]; lia).
  - intros _; set (l := f0 :: f1 :: f2 :: f3 :: f4 :: f5 :: f6 :: f7 :: f8 :: fs).
    change (index l 0) with (Ok f0); change (index l 1) with (Ok f1); change (index l 2) with (Ok f2).
    change (index l 6) with (Ok f6); change (index l 8) with (Ok f8); cbn [bind].
    repeat match goal with |- context [if ?c then _ else _] => destruct c end; eexists; reflexivity.
Qed.
Print Assumptions C56_features.

(** What a token says and its category. A token of the dictionary is pronounced as its ninth
    feature says, except that the particles ha and he are written as they are spelt. Its part of
    speech decides first, then whether it is the name of a person, then whether it is a proper
    noun. Any other token says its own text. *)
Inductive says : ktoken -> bytes -> category -> Prop :=
| says_symbol t pos s1 s2 f3 f4 f5 root f7 pron more :
    k_class t = TKnown -> k_features t = pos :: s1 :: s2 :: f3 :: f4 :: f5 :: root :: f7 :: pron :: more ->
    pos = lit "フィラー" \/ pos = lit "記号" -> says t pron CMeta
| says_auxiliary t s1 s2 f3 f4 f5 root f7 pron more :
    k_class t = TKnown -> k_features t = lit "助動詞" :: s1 :: s2 :: f3 :: f4 :: f5 :: root :: f7 :: pron :: more ->
    says t pron CAuxiliary
| says_particle t s1 s2 f3 f4 f5 root f7 pron more out :
    k_class t = TKnown -> k_features t = lit "助詞" :: s1 :: s2 :: f3 :: f4 :: f5 :: root :: f7 :: pron :: more ->
    (root = lit "は" /\ out = lit "ハ") \/ (root = lit "へ" /\ out = lit "ヘ") \/
      (root <> lit "は" /\ root <> lit "へ" /\ out = pron) ->
    says t out CMorpheme
| says_word t pos s1 s2 f3 f4 f5 root f7 pron more cat :
    k_class t = TKnown -> k_features t = pos :: s1 :: s2 :: f3 :: f4 :: f5 :: root :: f7 :: pron :: more ->
    ~ In pos [lit "フィラー"; lit "記号"; lit "助動詞"; lit "助詞"] ->
    (cat = CPersonName <-> s2 = lit "人名") ->
    (cat = CProperNoun <-> s2 <> lit "人名" /\ s1 = lit "固有名詞") ->
    In cat [CPersonName; CProperNoun; CMorpheme] ->
    says t pron cat
| says_itself t cat :
    k_class t <> TKnown -> (cat = CMeta <-> Forall (fun r => is_space r = true) (runes (k_surface t))) ->
    In cat [CMeta; CUnknown] -> says t (k_surface t) cat.
Lemma beqb_false a b : beqb a b = false <-> a <> b.
Proof. split; [intros H E; apply beqb_eq in E; congruence|intros H; destruct (beqb a b) eqn:E; [apply beqb_eq in E; contradiction|reflexivity]]. Qed.
Lemma interpret_known t f0 f1 f2 f3 f4 f5 f6 f7 f8 fs : k_class t = TKnown ->
  k_features t = f0 :: f1 :: f2 :: f3 :: f4 :: f5 :: f6 :: f7 :: f8 :: fs ->
  interpret_token t =
    (if beqb f0 (lit "フィラー") || beqb f0 (lit "記号") then Ok (f8, CMeta)
     else if beqb f0 (lit "助動詞") then Ok (f8, CAuxiliary)
     else if beqb f0 (lit "助詞") then
       Ok (if beqb f6 (lit "は") then lit "ハ" else if beqb f6 (lit "へ") then lit "ヘ" else f8, CMorpheme)
     else if beqb f2 (lit "人名") then Ok (f8, CPersonName)
     else if beqb f1 (lit "固有名詞") then Ok (f8, CProperNoun)
     else Ok (f8, CMorpheme)).
Proof.
  intros Ec Ef; unfold interpret_token; rewrite Ec, Ef; set (l := f0 :: _).
  change (index l 0) with (Ok f0); change (index l 1) with (Ok f1); change (index l 2) with (Ok f2).
  change (index l 6) with (Ok f6); change (index l 8) with (Ok f8); reflexivity.
Qed.
Theorem C56_reading : forall t text cat, interpret_token t = Ok (text, cat) <-> says t text cat.
Proof.
  intros t text cat; split.
  - intros H; destruct (k_class t) eqn:Ec.
    1,3,4: unfold interpret_token in H; rewrite Ec in H; injection H as <- <-; apply says_itself; [congruence| |];
      destruct (forallb is_space (runes (k_surface t))) eqn:E; try (cbn; tauto);
      [rewrite forallb_forall in E; rewrite Forall_forall; split; auto
      |split; [discriminate|intros Hf; exfalso; rewrite Forall_forall in Hf; rewrite <- forallb_forall in Hf; congruence]].
    pose proof (proj1 (C56_features t Ec) (ex_intro _ _ H)) as Hl.
    destruct (k_features t) as [|f0 [|f1 [|f2 [|f3 [|f4 [|f5 [|f6 [|f7 [|f8 fs]]]]]]]]] eqn:Ef; cbn [length] in Hl; try lia; clear Hl.
    rewrite (interpret_known _ _ _ _ _ _ _ _ _ _ _ Ec Ef) in H.
    destruct (beqb f0 (lit "フィラー") || beqb f0 (lit "記号")) eqn:E1.
    { injection H as <- <-; eapply says_symbol; [exact Ec|exact Ef|].
      apply orb_true_iff in E1; rewrite !beqb_eq in E1; exact E1. }
    apply orb_false_iff in E1; rewrite !beqb_false in E1; destruct E1 as [N1 N2].
    destruct (beqb f0 (lit "助動詞")) eqn:E2.
    { injection H as <- <-; apply beqb_eq in E2; rewrite E2 in Ef; eapply says_auxiliary; [exact Ec|exact Ef]. }
    apply beqb_false in E2; destruct (beqb f0 (lit "助詞")) eqn:E3.
    { injection H as <- <-; apply beqb_eq in E3; rewrite E3 in Ef; eapply says_particle; [exact Ec|exact Ef|].
      destruct (beqb f6 (lit "は")) eqn:E4; [apply beqb_eq in E4; auto|].
      destruct (beqb f6 (lit "へ")) eqn:E5; [apply beqb_eq in E5; auto|].
      apply beqb_false in E4, E5; auto. }
    apply beqb_false in E3.
    assert (~ In f0 [lit "フィラー"; lit "記号"; lit "助動詞"; lit "助詞"]) as Hn
      by (intros [E|[E|[E|[E|[]]]]]; congruence).
    destruct (beqb f2 (lit "人名")) eqn:E4; [|destruct (beqb f1 (lit "固有名詞")) eqn:E5];
      injection H as <- <-; (eapply says_word; [exact Ec|exact Ef|exact Hn| | |cbn; tauto]);
      rewrite ?beqb_eq, ?beqb_false in *; split; intros; try discriminate; try tauto.
  - intros H; destruct H as [t pos s1 s2 f3 f4 f5 root f7 pron more Ec Ef Hp|t s1 s2 f3 f4 f5 root f7 pron more Ec Ef
      |t s1 s2 f3 f4 f5 root f7 pron more out Ec Ef Hr|t pos s1 s2 f3 f4 f5 root f7 pron more cat Ec Ef Hn H1 H2 H3|t cat Ec H1 H2];
      try rewrite (interpret_known _ _ _ _ _ _ _ _ _ _ _ Ec Ef).
    + destruct Hp as [-> | ->]; reflexivity.
    + reflexivity.
    + change (beqb (lit "助詞") (lit "フィラー") || beqb (lit "助詞") (lit "記号")) with false.
      change (beqb (lit "助詞") (lit "助動詞")) with false; change (beqb (lit "助詞") (lit "助詞")) with true; cbv iota.
      destruct Hr as [[-> ->]|[[-> ->]|(N1 & N2 & ->)]]; [reflexivity|reflexivity|].
      apply beqb_false in N1, N2; rewrite N1, N2; reflexivity.
    + assert (forall x, In x [lit "フィラー"; lit "記号"; lit "助動詞"; lit "助詞"] -> beqb pos x = false) as Hb
        by (intros x Hx; apply beqb_false; intros ->; contradiction).
      rewrite !Hb by (cbn [In]; tauto); cbn [orb].
      destruct (beqb s2 (lit "人名")) eqn:E4; [apply beqb_eq in E4; apply H1 in E4; subst cat; reflexivity|].
      destruct (beqb s1 (lit "固有名詞")) eqn:E5.
      * apply beqb_false in E4; apply beqb_eq in E5; rewrite (proj2 H2 (conj E4 E5)); reflexivity.
      * apply beqb_false in E4, E5; destruct H3 as [<-|[<-|[<-|[]]]]; [exfalso; tauto|exfalso; tauto|reflexivity].
    + unfold interpret_token; destruct (k_class t); try congruence;
        (destruct (forallb is_space (runes (k_surface t))) eqn:E;
         [rewrite forallb_forall, <- Forall_forall in E; rewrite (proj2 H1 E); reflexivity
         |destruct H2 as [<-|[<-|[]]]; [|reflexivity]; exfalso; pose proof (proj1 H1 eq_refl) as Hf;
          rewrite Forall_forall in Hf; rewrite <- forallb_forall in Hf; congruence]).
Qed.
Print Assumptions C56_reading.
Example C56_says : says
  {| k_class := TKnown; k_surface := lit "太郎";
     k_features := [lit "名詞"; lit "固有名詞"; lit "人名"; lit "名"; lit "*"; lit "*"; lit "太郎"; lit "タロウ"; lit "タロー"] |}
  (lit "タロー") CPersonName.
Proof.
  eapply says_word; [reflexivity|reflexivity| | |  |cbn; tauto].
  - intros H; vm_compute in H; intuition discriminate.
  - split; reflexivity.
  - split; [discriminate|intros [H _]; contradiction].
Qed.

Definition known (pos sub1 sub2 root pron : bytes) : ktoken :=
  {| k_class := TKnown; k_surface := root; k_features := [pos; sub1; sub2; []; []; []; root; pron; pron] |}.
Example C56_example :
  let name := known (lit "名詞") (lit "固有名詞") (lit "人名") in
  typewrite [{| k_class := TDummy; k_surface := []; k_features := [] |};
             name (lit "自由") (lit "サトウ"); name (lit "太郎") (lit "タロー");
             known (lit "助詞") [] [] (lit "は") (lit "ワ");
             known (lit "動詞") [] [] (lit "行く") (lit "イコ"); known (lit "助動詞") [] [] (lit "う") (lit "ウ")] =
    Ok (lit "サトウ タローハイコー").
Proof. vm_compute; reflexivity. Qed.
