(** Properties C60 to C62: the commands ls, manifest.json and dev. *)
From Coq Require Import String Permutation.
From Verif Require Import GoBase Utf8 Utf8Facts Replacer ReplacerFacts Hsl Spec SpecOrder LettersFacts Jamo Procedure ProcFacts BString Bundled
  Api ApiFacts TestCmd Cli CliFacts Tools PropBundled PropTrace PropCli.
Open Scope Z_scope.

(** What is known of every bundled file. *)
Lemma bundled_lang c lang :
  choices_ok c -> In lang (list_langs bundled_files) ->
  exists src s0 s, lookup bundled_files (specs_dir ++ lang ++ ext) = Some src /\
    parse_spec choices0 src = Ok s0 /\ parse_spec c src = Ok s /\ same_but_order s0 s /\ unambiguous (s_normReplacer s0) /\
    l_id (s_lang s) = lang /\
    Forall (fun x => utf8_text (fst x) /\ (length (runes (fst x)) <= snd x)%nat)
      [(l_id (s_lang s), 8%nat); (c_stage (s_config s), 8%nat); (l_english (s_lang s), 24%nat); (l_korean (s_lang s), 24%nat)].
Proof.
  intros Hc Hin; apply (list_langs_in _ _ bundled_flat) in Hin; destruct Hin as (src0 & Hin).
  destruct (in_lookup _ _ _ Hin) as (src & Es).
  destruct (file_ok_parses src c (bundled_file_ok _ _ Es) Hc) as (s0 & s & E0 & Ep & Ho & Hu & _).
  exists src, s0, s; repeat (split; [assumption|]).
  pose proof bundled_fits as Hf; rewrite forallb_forall in Hf; specialize (Hf _ (lookup_in _ _ _ Es)).
  unfold file_fits in Hf; cbn [fst snd] in Hf; rewrite E0 in Hf; apply andb_true_iff in Hf; destruct Hf as [_ Hf].
  apply andb_true_iff in Hf; destruct Hf as [Hf _]; destruct Ho as [Ho _].
  assert (s_lang s = s_lang s0) as -> by (rewrite Ho; reflexivity).
  assert (s_config s = s_config s0) as -> by (rewrite Ho; reflexivity).
  unfold spec_fits in Hf; apply andb_true_iff in Hf; destruct Hf as [Hn Hf]; apply beqb_eq in Hn.
  split; [apply app_inv_head in Hn; apply app_inv_tail in Hn; symmetry; exact Hn|].
  apply Forall_forall; intros x Hx; rewrite forallb_forall in Hf; specialize (Hf x Hx).
  apply andb_true_iff in Hf; destruct Hf as [H1 H2]; split; [apply valid_utf8_text; exact H1|apply Nat.leb_le; exact H2].
Qed.

(** ** C60 The command ls *)

(** A row, and where its fields are: [field] starts at column [n] of the line, and a blank
    or the end of the line follows. *)
Definition row_of (s : spec) (line : bytes) : Prop :=
  exists sp1 sp2 sp3 sp4, Forall (fun b => b = 0x20%N) (sp1 ++ sp2 ++ sp3 ++ sp4) /\ sp1 <> [] /\ sp2 <> [] /\ sp3 <> [] /\
    line = l_id (s_lang s) ++ sp1 ++ c_stage (s_config s) ++ sp2 ++ l_english (s_lang s) ++ sp3 ++
           l_korean (s_lang s) ++ sp4 ++ [10%N].
Definition at_column (n : nat) (field line : bytes) : Prop :=
  exists before after, line = before ++ field ++ after /\ length (runes before) = n /\
    exists b rest, after = b :: rest /\ (b = 0x20%N \/ b = 10%N).
Definition aligned (s : spec) (line : bytes) : Prop :=
  at_column 0 (l_id (s_lang s)) line /\ at_column 9 (c_stage (s_config s)) line /\
  at_column 18 (l_english (s_lang s)) line /\ at_column 43 (l_korean (s_lang s)) line.
Definition header : bytes := lit "LANG     STAGE    ENG                      KOR                     " ++ [10%N].

Definition spec_line (s : spec) : bytes :=
  ls_line (l_id (s_lang s)) (c_stage (s_config s)) (l_english (s_lang s)) (l_korean (s_lang s)).
Lemma spec_line_row s : row_of s (spec_line s).
Proof.
  unfold row_of, spec_line, ls_line, pad_right.
  exists (repeat 0x20%N (8 - length (runes (l_id (s_lang s)))) ++ lit " "),
    (repeat 0x20%N (8 - length (runes (c_stage (s_config s)))) ++ lit " "),
    (repeat 0x20%N (24 - length (runes (l_english (s_lang s)))) ++ lit " "),
    (repeat 0x20%N (24 - length (runes (l_korean (s_lang s))))).
  split.
  { apply Forall_forall; intros b Hb.
    repeat (apply in_app_or in Hb; destruct Hb as [Hb|Hb]); try (apply repeat_spec in Hb; exact Hb);
      try (destruct Hb as [<-|[]]; reflexivity);
      repeat (apply in_app_or in Hb; destruct Hb as [Hb|Hb]); try (apply repeat_spec in Hb; exact Hb);
      try (destruct Hb as [<-|[]]; reflexivity). }
  repeat (split; [intros E; apply app_eq_nil in E; destruct E; discriminate|]).
  rewrite <- !app_assoc; reflexivity.
Qed.
Lemma blanks_text n : utf8_text (repeat 0x20%N n) /\ runes (repeat 0x20%N n) = repeat 0x20%N n.
Proof.
  induction n as [|n [IH1 IH2]]; [split; [apply utf8_text_nil|reflexivity]|].
  change (repeat 0x20%N (S n)) with ([0x20%N] ++ repeat 0x20%N n).
  assert (utf8_text [0x20%N]) as Hsp by exact (utf8_text_rune 0x20%N).
  split; [apply utf8_text_app; assumption|]; rewrite runes_app_text by exact Hsp; rewrite IH2; reflexivity.
Qed.
Lemma pad_text w s : utf8_text s -> (length (runes s) <= w)%nat -> utf8_text (pad_right w s) /\ length (runes (pad_right w s)) = w.
Proof.
  intros Hs Hl; unfold pad_right; destruct (blanks_text (w - length (runes s))) as [Hb Er].
  split; [apply utf8_text_app; assumption|]; rewrite runes_app_text by exact Hs; rewrite Er, app_length, repeat_length; lia.
Qed.
Lemma blank_after n (rest : bytes) : exists b rest', repeat 0x20%N n ++ lit " " ++ rest = b :: rest' /\ (b = 0x20%N \/ b = 10%N).
Proof. destruct n; cbn; do 2 eexists; split; try reflexivity; auto. Qed.
Lemma blank_end n : exists b rest', repeat 0x20%N n ++ [10%N] = b :: rest' /\ (b = 0x20%N \/ b = 10%N).
Proof. destruct n; cbn; do 2 eexists; split; try reflexivity; auto. Qed.
Lemma spec_line_aligned s :
  Forall (fun x => utf8_text (fst x) /\ (length (runes (fst x)) <= snd x)%nat)
    [(l_id (s_lang s), 8%nat); (c_stage (s_config s), 8%nat); (l_english (s_lang s), 24%nat); (l_korean (s_lang s), 24%nat)] ->
  aligned s (spec_line s).
Proof.
  rewrite Forall_forall; intros Hf.
  destruct (Hf (l_id (s_lang s), 8%nat)) as [U1 L1]; [cbn; tauto|]; destruct (Hf (c_stage (s_config s), 8%nat)) as [U2 L2]; [cbn; tauto|].
  destruct (Hf (l_english (s_lang s), 24%nat)) as [U3 L3]; [cbn; tauto|]; cbn [fst snd] in *.
  destruct (pad_text _ _ U1 L1) as [V1 N1], (pad_text _ _ U2 L2) as [V2 N2], (pad_text _ _ U3 L3) as [V3 N3].
  assert (utf8_text (lit " ")) as Hsp by exact (utf8_text_rune 0x20%N).
  assert (runes (lit " ") = [0x20%N]) as Esp by reflexivity.
  unfold aligned, at_column, spec_line, ls_line; repeat split.
  - exists [], (repeat 0x20%N (8 - length (runes (l_id (s_lang s)))) ++ lit " " ++ pad_right 8 (c_stage (s_config s)) ++ lit " " ++
      pad_right 24 (l_english (s_lang s)) ++ lit " " ++ pad_right 24 (l_korean (s_lang s)) ++ [10%N]).
    split; [unfold pad_right; rewrite <- !app_assoc; reflexivity|]; split; [reflexivity|apply blank_after].
  - exists (pad_right 8 (l_id (s_lang s)) ++ lit " "), (repeat 0x20%N (8 - length (runes (c_stage (s_config s)))) ++ lit " " ++
      pad_right 24 (l_english (s_lang s)) ++ lit " " ++ pad_right 24 (l_korean (s_lang s)) ++ [10%N]).
    split; [unfold pad_right; rewrite <- !app_assoc; reflexivity|]; split; [|apply blank_after].
    rewrite runes_app_text by exact V1; rewrite app_length, N1, Esp; reflexivity.
  - exists (pad_right 8 (l_id (s_lang s)) ++ lit " " ++ pad_right 8 (c_stage (s_config s)) ++ lit " "),
      (repeat 0x20%N (24 - length (runes (l_english (s_lang s)))) ++ lit " " ++ pad_right 24 (l_korean (s_lang s)) ++ [10%N]).
    split; [unfold pad_right; rewrite <- !app_assoc; reflexivity|]; split; [|apply blank_after].
    rewrite !runes_app_text by assumption; rewrite !app_length, N1, N2, Esp; reflexivity.
  - exists (pad_right 8 (l_id (s_lang s)) ++ lit " " ++ pad_right 8 (c_stage (s_config s)) ++ lit " " ++ pad_right 24 (l_english (s_lang s)) ++ lit " "),
      (repeat 0x20%N (24 - length (runes (l_korean (s_lang s)))) ++ [10%N]).
    split; [unfold pad_right; rewrite <- !app_assoc; reflexivity|]; split; [|apply blank_end].
    rewrite !runes_app_text by assumption; rewrite !app_length, N1, N2, N3, Esp; reflexivity.
Qed.

Lemma ls_lines_some ss : ls_lines (map Some ss) = (map spec_line ss, Ok tt).
Proof. induction ss as [|s ss IH]; [reflexivity|]; cbn [map ls_lines]; rewrite IH; reflexivity. Qed.
Lemma header_line : ls_line (lit "LANG") (lit "STAGE") (lit "ENG") (lit "KOR") = header.
Proof. vm_compute; reflexivity. Qed.

Lemma list_bundled_specs fs (c : bytes -> choices) (R : bytes -> spec -> Prop) langs specs :
  NoDup langs -> (forall lang, In lang langs -> lookup specs lang = None) ->
  (forall lang, In lang langs -> exists src s, lookup fs (specs_dir ++ lang ++ ext) = Some src /\
     parse_spec (c lang) src = Ok s /\ R lang s) ->
  exists specs' ss, list_bundled fs c specs langs = (specs', Ok (map Some ss)) /\ Forall2 R langs ss.
Proof.
  intros Hn; revert specs; induction Hn as [|lang langs Hni Hn IH]; intros specs Hs Hp.
  - exists specs, []; split; [reflexivity|constructor].
  - destruct (Hp lang (or_introl eq_refl)) as (src & s & Es & Ep & Hr).
    destruct (IH ((lang, s) :: specs)) as (specs' & ss & El & Hf).
    + intros l Hl; cbn [lookup]; destruct (beqb lang l) eqn:E; [apply beqb_eq in E; subst; contradiction|].
      apply Hs; right; exact Hl.
    + intros l Hl; apply Hp; right; exact Hl.
    + exists specs', (s :: ss); split; [|constructor; assumption].
      cbn [list_bundled]; unfold load_spec; rewrite (Hs lang (or_introl eq_refl)), Es, Ep, El; reflexivity.
Qed.

(** Without arguments: the header and then one row for each bundled language in ascending
    order, with the fields of its spec in columns. Nothing panics. *)
Theorem C60_bundled : forall disk c,
  (forall lang, choices_ok (c lang)) ->
  exists lines, ls_command bundled_files disk c [] = (header :: lines, Ok tt) /\
    Forall2 (fun lang line => exists src s,
      lookup bundled_files (specs_dir ++ lang ++ ext) = Some src /\ parse_spec (c lang) src = Ok s /\
      l_id (s_lang s) = lang /\ row_of s line /\ aligned s line) (list_langs bundled_files) lines.
Proof.
  intros disk c Hc; unfold ls_command; rewrite header_line; cbn [list_specs].
  destruct (list_bundled_specs bundled_files c (fun lang s => exists src,
      lookup bundled_files (specs_dir ++ lang ++ ext) = Some src /\ parse_spec (c lang) src = Ok s /\
      l_id (s_lang s) = lang /\ aligned s (spec_line s)) (list_langs bundled_files) []) as (specs' & ss & -> & Hf).
  - apply list_langs_nodup, bundled_flat.
  - reflexivity.
  - intros lang Hl; destruct (bundled_lang (c lang) lang (Hc lang) Hl) as (src & s0 & s & Es & _ & Ep & _ & _ & Ei & Ha).
    exists src, s; split; [exact Es|]; split; [exact Ep|]; exists src; repeat (split; [assumption|]).
    apply spec_line_aligned; exact Ha.
  - cbn [snd]; rewrite ls_lines_some; exists (map spec_line ss); split; [reflexivity|].
    induction Hf as [|lang s langs ss (src & E1 & E2 & E3 & E4) Hf IH]; constructor; [|exact IH].
    exists src, s; repeat (split; [assumption|]); split; [apply spec_line_row|exact E4].
Qed.
Print Assumptions C60_bundled.

(** With files: one row for each file that can be read and parsed, in the order of the
    arguments; the others are left out. *)
Inductive listed (disk : opened) (c : bytes -> choices) : list bytes -> list spec -> Prop :=
| listed_end : listed disk c [] []
| listed_row name names src s ss :
    disk name = Some src -> parse_spec (c name) src = Ok s -> listed disk c names ss -> listed disk c (name :: names) (s :: ss)
| listed_unread name names ss : disk name = None -> listed disk c names ss -> listed disk c (name :: names) ss
| listed_malformed name names src e ss :
    disk name = Some src -> parse_spec (c name) src = Err e -> listed disk c names ss -> listed disk c (name :: names) ss.
Theorem C60_files : forall fs disk c args,
  args <> [] ->
  (forall name src, In name args -> disk name = Some src -> returns (parse_spec (c name) src)) ->
  exists ss lines, listed disk c args ss /\ ls_command fs disk c args = (header :: lines, Ok tt) /\ Forall2 row_of ss lines.
Proof.
  intros fs disk c args Hne Hr.
  assert (exists ss, listed disk c args ss /\ list_named disk c args = Ok (map Some ss)) as (ss & Hl & El).
  { clear Hne; induction args as [|name args IH]; [exists []; split; [constructor|reflexivity]|].
    destruct IH as (ss & Hl & El); [intros n src Hn; apply Hr; right; exact Hn|].
    cbn [list_named]; destruct (disk name) as [src|] eqn:Ed; [|exists ss; split; [apply listed_unread; assumption|exact El]].
    destruct (Hr name src (or_introl eq_refl) Ed) as [(s & Ep)|(e & Ep)]; rewrite Ep, El.
    - exists (s :: ss); split; [eapply listed_row; eassumption|reflexivity].
    - exists ss; split; [eapply listed_malformed; eassumption|reflexivity]. }
  exists ss, (map spec_line ss); split; [exact Hl|]; split.
  - unfold ls_command; rewrite header_line; unfold list_specs; destruct args; [contradiction|].
    rewrite El, ls_lines_some; reflexivity.
  - clear; induction ss; constructor; [apply spec_line_row|assumption].
Qed.
Print Assumptions C60_files.

Definition ex_hsl (id : bytes) : bytes :=
  lit "lang:" ++ [10%N] ++ lit " id = """ ++ id ++ lit """" ++ [10%N] ++ lit " codes = ""xx"", ""xxx""" ++ [10%N] ++
  lit " english = ""X""" ++ [10%N] ++ lit " korean = ""엑스""" ++ [10%N] ++ lit " script = ""Latn""" ++ [10%N].
Definition ex_disk : opened := fun name =>
  if beqb name (lit "a.hsl") then Some (ex_hsl (lit "a")) else if beqb name (lit "b.hsl") then Some (lit "?") else
  if beqb name (lit "c.hsl") then Some (ex_hsl (lit "long-name")) else None.
Example C60_example :
  ls_command [] ex_disk (fun _ => choices0) [lit "c.hsl"; lit "b.hsl"; lit "d.hsl"; lit "a.hsl"] =
  ([header;
    lit "long-name          X                        엑스                      " ++ [10%N];
    lit "a                 X                        엑스                      " ++ [10%N]], Ok tt).
Proof. vm_compute. reflexivity. Qed.

(** ** C61 The manifest *)

Definition described (s : spec) (j : json_spec) : Prop :=
  j_id j = l_id (s_lang s) /\ (j_code2 j, j_code3 j) = l_codes (s_lang s) /\ j_english j = l_english (s_lang s) /\
  j_korean j = l_korean (s_lang s) /\ j_script j = l_script (s_lang s) /\ j_translit j = l_translit (s_lang s) /\
  j_authors j = c_authors (s_config s) /\ j_stage j = c_stage (s_config s) /\ j_test j = s_test s.

Definition keyed {A} (m : list (bytes * A)) : Prop := NoDup (map fst m).
Lemma in_remove {A} (m : list (bytes * A)) k x : In x (remove m k) <-> In x m /\ fst x <> k.
Proof.
  unfold remove; rewrite filter_In, negb_true_iff; split; intros [H1 H2]; (split; [exact H1|]).
  - intros E; rewrite E, (proj2 (beqb_eq k k) eq_refl) in H2; discriminate.
  - destruct (beqb (fst x) k) eqn:E; [apply beqb_eq in E; contradiction|reflexivity].
Qed.
Lemma remove_keyed {A} (m : list (bytes * A)) k : keyed m -> keyed (remove m k).
Proof.
  unfold keyed; induction m as [|[k' v] m IH]; cbn [map fst]; intros Hn; [constructor|].
  inversion Hn as [|? ? H1 H2]; subst; cbn [remove filter fst]; destruct (beqb k' k); cbn [negb]; [apply IH; exact H2|].
  cbn [map fst]; constructor; [|apply IH; exact H2].
  intros Hin; apply H1; apply in_map_iff in Hin; destruct Hin as (x & Ex & Hin); apply in_remove in Hin.
  apply in_map_iff; exists x; tauto.
Qed.
Lemma put_keyed {A} (m : list (bytes * A)) k v : keyed m -> keyed (put_key m k v).
Proof.
  intros Hm; unfold put_key, keyed; cbn [map fst]; constructor; [|apply remove_keyed; exact Hm].
  intros Hin; apply in_map_iff in Hin; destruct Hin as (x & Ex & Hin); apply in_remove in Hin; tauto.
Qed.
Lemma in_put {A} (m : list (bytes * A)) k v x : In x (put_key m k v) <-> x = (k, v) \/ (In x m /\ fst x <> k).
Proof. unfold put_key; cbn [In]; rewrite in_remove; intuition. Qed.
Lemma put_all_keys ts m : keyed m ->
  keyed (fold_left (fun m t => put_key m t tt) ts m) /\
  forall t, In t (map fst (fold_left (fun m t => put_key m t tt) ts m)) <-> In t (map fst m) \/ In t ts.
Proof.
  revert m; induction ts as [|a ts IH]; intros m Hm; cbn [fold_left]; [split; [exact Hm|cbn; tauto]|].
  destruct (IH (put_key m a tt) (put_keyed _ _ _ Hm)) as [H1 H2]; split; [exact H1|]; intros t; rewrite H2.
  assert (In t (map fst (put_key m a tt)) <-> t = a \/ In t (map fst m)) as ->.
  { rewrite !in_map_iff; split.
    - intros (x & <- & Hx); apply in_put in Hx; destruct Hx as [->|[Hx _]]; [left; reflexivity|right; exists x; auto].
    - intros [->|([k u] & <- & Hx)]; [exists (a, tt); split; [reflexivity|apply in_put; auto]|].
      destruct (beqb k a) eqn:E; [apply beqb_eq in E; subst k; exists (a, tt); split; [reflexivity|apply in_put; auto]|].
      exists (k, u); split; [reflexivity|]; apply in_put; right; split; [exact Hx|].
      cbn [fst]; intros ->; rewrite (proj2 (beqb_eq a a) eq_refl) in E; discriminate. }
  cbn [In]; intuition.
Qed.

Lemma manifest_loop_spec fs (c : bytes -> choices) (R : bytes -> spec -> Prop) langs cache0 specs ts :
  NoDup langs -> (forall lang, In lang langs -> lookup cache0 lang = None) ->
  (forall lang, In lang langs -> exists src s, lookup fs (specs_dir ++ lang ++ ext) = Some src /\
     parse_spec (c lang) src = Ok s /\ R lang s) ->
  keyed specs -> keyed ts -> (forall lang, In lang langs -> ~ In lang (map fst specs)) ->
  exists ss specs' ts', manifest_loop fs c cache0 langs specs ts = Ok (specs', ts') /\ Forall2 R langs ss /\
    keyed specs' /\ keyed ts' /\
    (forall x, In x specs' <-> In x specs \/ In x (combine langs (map json_of ss))) /\
    (forall t, In t (map fst ts') <-> In t (map fst ts) \/ exists s, In s ss /\ In t (l_translit (s_lang s))).
Proof.
  intros Hn; revert cache0 specs ts; induction Hn as [|lang langs Hni Hn IH]; intros cache0 specs ts Hs Hp K1 K2 Hfresh.
  - exists [], specs, ts; split; [reflexivity|]; split; [constructor|]; split; [exact K1|]; split; [exact K2|]; split.
    + cbn; tauto.
    + intros t; split; [auto|]; intros [H|(s & [] & _)]; exact H.
  - destruct (Hp lang (or_introl eq_refl)) as (src & s & Es & Ep & Hr).
    cbn [manifest_loop]; unfold load_spec; rewrite (Hs lang (or_introl eq_refl)), Es, Ep.
    destruct (put_all_keys (l_translit (s_lang s)) ts K2) as [K3 Hk].
    destruct (IH ((lang, s) :: cache0) (put_key specs lang (json_of s)) (fold_left (fun m t => put_key m t tt) (l_translit (s_lang s)) ts))
      as (ss & specs' & ts' & El & Hf & K4 & K5 & Hx & Ht).
    + intros l Hl; cbn [lookup]; destruct (beqb lang l) eqn:E; [apply beqb_eq in E; subst; contradiction|].
      apply Hs; right; exact Hl.
    + intros l Hl; apply Hp; right; exact Hl.
    + apply put_keyed; exact K1.
    + exact K3.
    + intros l Hl Hin; apply in_map_iff in Hin; destruct Hin as (x & <- & Hin); apply in_put in Hin.
      destruct Hin as [->|[Hin _]]; [contradiction|]; apply (Hfresh (fst x) (or_intror Hl)); apply in_map; exact Hin.
    + exists (s :: ss), specs', ts'; split; [exact El|]; split; [constructor; assumption|]; split; [exact K4|]; split; [exact K5|]; split.
      * intros x; rewrite Hx, in_put; cbn [map combine In]; split; [intuition|].
        intros [H|[H|H]]; [left; right; split; [exact H|]|left; left; auto|auto].
        intros E; apply (Hfresh lang (or_introl eq_refl)); rewrite <- E; apply in_map; exact H.
      * intros t; rewrite Ht, Hk; split.
        -- intros [[H|H]|(s' & H1 & H2)]; [auto|right; exists s; split; [left; reflexivity|exact H]|right; exists s'; split; [right|]; assumption].
        -- intros [H|(s' & [<-|H1] & H2)]; [auto|auto|right; exists s'; auto].
Qed.
Lemma Forall2_combine {A B C} (R : A -> B -> Prop) (f : B -> C) la lb a y :
  Forall2 R la lb -> In (a, y) (combine la (map f lb)) <-> exists b, In (a, b) (combine la lb) /\ y = f b.
Proof.
  induction 1 as [|x b la lb H Hf IH]; cbn [combine map In]; [split; [intros []|intros (b & [] & _)]|].
  rewrite IH; split.
  - intros [E|(b' & Hb & ->)]; [injection E as -> <-; exists b; auto|exists b'; auto].
  - intros (b' & [E|Hb] & ->); [injection E as -> ->; auto|right; exists b'; auto].
Qed.
Lemma combine_fst {A B} (R : A -> B -> Prop) la lb : Forall2 R la lb -> map fst (combine la lb) = la.
Proof. induction 1 as [|a b la lb H Hf IH]; [reflexivity|]; cbn; f_equal; exact IH. Qed.
Lemma combine_rel {A B} (R : A -> B -> Prop) la lb a b : Forall2 R la lb -> In (a, b) (combine la lb) -> R a b.
Proof. induction 1 as [|x y la lb H Hf IH]; cbn; [intros []|]; intros [E|Hin]; [injection E as -> ->; exact H|auto]. Qed.
Lemma Forall2_in_l {A B} (R : A -> B -> Prop) la lb a : Forall2 R la lb -> In a la -> exists b, In (a, b) (combine la lb) /\ In b lb /\ R a b.
Proof.
  induction 1 as [|x y la lb H Hf IH]; cbn; [intros []|]; intros [->|Hin]; [exists y; auto|].
  destruct (IH Hin) as (b & H1 & H2 & H3); exists b; auto.
Qed.
Lemma Forall2_in_r {A B} (R : A -> B -> Prop) la lb b : Forall2 R la lb -> In b lb -> exists a, In a la /\ R a b.
Proof.
  induction 1 as [|x y la lb H Hf IH]; cbn; [intros []|]; intros [->|Hin]; [exists x; auto|].
  destruct (IH Hin) as (a & H1 & H2); exists a; auto.
Qed.

(** The manifest describes every bundled language once, under its name, and lists every
    transliterator that some of them names once. That does not depend on the orders of the
    maps: [s0] is the spec as read in one fixed order. *)
Theorem C61_manifest : forall c order,
  (forall lang, choices_ok (c lang)) -> (forall l, Permutation l (order l)) ->
  exists specs translits, manifest bundled_files c order = Ok (specs, translits) /\
    Permutation (map fst specs) (list_langs bundled_files) /\ NoDup (map fst specs) /\
    (forall lang j, In (lang, j) specs -> j_id j = lang /\
       exists src s0, lookup bundled_files (specs_dir ++ lang ++ ext) = Some src /\
         parse_spec choices0 src = Ok s0 /\ described s0 j) /\
    NoDup translits /\
    (forall t, In t translits <-> exists lang src s0, lookup bundled_files (specs_dir ++ lang ++ ext) = Some src /\
       parse_spec choices0 src = Ok s0 /\ In t (l_translit (s_lang s0))).
Proof.
  intros c order Hc Ho; unfold manifest.
  destruct (manifest_loop_spec bundled_files c (fun lang s => l_id (s_lang s) = lang /\ exists src s0,
      lookup bundled_files (specs_dir ++ lang ++ ext) = Some src /\ parse_spec choices0 src = Ok s0 /\ same_but_order s0 s)
      (list_langs bundled_files) [] [] []) as (ss & specs & ts & -> & Hf & K1 & K2 & Hx & Ht).
  - apply list_langs_nodup, bundled_flat.
  - reflexivity.
  - intros lang Hl; destruct (bundled_lang (c lang) lang (Hc lang) Hl) as (src & s0 & s & Es & E0 & Ep & Hs & _ & Ei & _).
    exists src, s; split; [exact Es|]; split; [exact Ep|]; split; [exact Ei|]; exists src, s0; auto.
  - constructor.
  - constructor.
  - intros lang _ [].
  - assert (forall lang j, In (lang, j) specs -> exists s, In (lang, s) (combine (list_langs bundled_files) ss) /\ j = json_of s) as Hin.
    { intros lang j Hin; apply Hx in Hin; destruct Hin as [[]|Hin]; apply (Forall2_combine _ _ _ _ _ _ Hf) in Hin; exact Hin. }
    cbn [bind]; exists specs, (map fst (order ts)); split; [reflexivity|].
    split.
    { apply NoDup_Permutation; [exact K1|apply list_langs_nodup, bundled_flat|].
      intros lang; rewrite in_map_iff; split.
      - intros ([l j] & <- & H); destruct (Hin _ _ H) as (s & H1 & _); apply in_combine_l in H1; exact H1.
      - intros Hl; destruct (Forall2_in_l _ _ _ _ Hf Hl) as (s & H1 & _).
        exists (lang, json_of s); split; [reflexivity|]; apply Hx; right; apply (Forall2_combine _ _ _ _ _ _ Hf); exists s; auto. }
    split; [exact K1|]; split.
    { intros lang j H; destruct (Hin _ _ H) as (s & H1 & ->).
      destruct (combine_rel _ _ _ _ _ Hf H1) as (Ei & src & s0 & E1 & E2 & [E3 _]); split; [exact Ei|]; exists src, s0.
      split; [exact E1|]; split; [exact E2|]; rewrite E3; unfold described, json_of; cbn.
      destruct (l_codes (s_lang s0)); repeat split. }
    split.
    { eapply Permutation_NoDup; [apply Permutation_map, Ho|exact K2]. }
    intros t; split.
    + intros H; assert (In t (map fst ts)) as H' by (eapply Permutation_in; [apply Permutation_sym, Permutation_map, Ho|exact H]).
      apply Ht in H'; destruct H' as [[]|(s & H1 & H2)].
      destruct (Forall2_in_r _ _ _ _ Hf H1) as (lang & _ & _ & src & s0 & E1 & E2 & [E3 _]).
      exists lang, src, s0; split; [exact E1|]; split; [exact E2|]; rewrite E3 in H2; exact H2.
    + intros (lang & src & s0 & E1 & E2 & H2).
      eapply Permutation_in; [apply Permutation_map, Ho|]; apply Ht; right.
      assert (In lang (list_langs bundled_files)) as Hl.
      { apply (list_langs_in _ _ bundled_flat); exists src; apply lookup_in; exact E1. }
      destruct (Forall2_in_l _ _ _ _ Hf Hl) as (s & _ & H3 & _ & src' & s0' & E1' & E2' & [E3 _]).
      exists s; split; [exact H3|]; rewrite E3; cbn; congruence.
Qed.
Print Assumptions C61_manifest.

Definition ex_hsl2 (id translit : bytes) : bytes :=
  ex_hsl id ++ lit " translit = """ ++ translit ++ lit """" ++ [10%N] ++ lit "config:" ++ [10%N] ++ lit " stage = ""draft""" ++ [10%N] ++
  lit "test:" ++ [10%N] ++ lit " ""x"" -> ""엑""" ++ [10%N].
Example C61_example :
  map_res (fun m => (map (fun e => (fst e, j_stage (snd e), j_code3 (snd e), j_test (snd e))) (fst m), snd m))
    (manifest [(lit "specs/b.hsl", ex_hsl2 (lit "b") (lit "t")); (lit "specs/a.hsl", ex_hsl2 (lit "a") (lit "u"));
               (lit "specs/c.hsl", ex_hsl2 (lit "c") (lit "t")); (lit "specs/README", [])] (fun _ => choices0) (@rev _)) =
  let test := [(lit "x", lit "엑")] in
  Ok ([(lit "c", lit "draft", lit "xxx", test); (lit "b", lit "draft", lit "xxx", test); (lit "a", lit "draft", lit "xxx", test)],
      [lit "u"; lit "t"]).
Proof. vm_compute. reflexivity. Qed.

(** ** C62 The command dev *)

Section SameRun.
  Context {W : Type} (width : bytes -> Z) (run run' : W -> bytes -> W * tracer * res returned).
  Hypothesis same : forall w word, run w word = run' w word.
  Lemma same_step st st' : cli_step width run st st' -> cli_step width run' st st'.
  Proof.
    assert (forall st word, cli_word width run st word = cli_word width run' st word) as Hw.
    { intros s word; unfold cli_word; rewrite same; reflexivity. }
    intros H; destruct H as [r r' c w out err Hc Hr|word next w out err|st word st' Hc Hr|st word Hc Hr];
      [apply step_reader; assumption|apply step_meet|eapply step_run; [exact Hc|]|eapply step_loop; [exact Hc|]];
      rewrite <- Hw; exact Hr.
  Qed.
  Lemma same_execution n st st' : execution width run n st st' -> execution width run' n st st'.
  Proof. induction 1; [constructor|]; econstructor; [eassumption|apply same_step; assumption]. Qed.
End SameRun.
Lemma same_prints {W} width (run run' : W -> bytes -> W * tracer * res returned) st lines e :
  (forall w word, run w word = run' w word) -> always_prints width run st lines e -> always_prints width run' st lines e.
Proof.
  intros Hs [(bound & Hb) Hp]; assert (forall w word, run' w word = run w word) as Hs' by (intros; symmetry; apply Hs).
  assert (forall st, stuck width run st <-> stuck width run' st) as Hst.
  { intros s; split; intros H st' Hx; apply (H st'); [apply (same_step width run' run Hs')|apply (same_step width run run' Hs)]; exact Hx. }
  split.
  - exists bound; intros n st' Hx; apply (Hb n st'), (same_execution width run' run Hs'); exact Hx.
  - intros n st' Hx; apply (same_execution width run' run Hs') in Hx; destruct (Hp n st' Hx) as (H1 & H2 & H3).
    rewrite <- Hst; auto.
Qed.

(** For any file: it is an error of the command that it cannot be read or is malformed;
    otherwise there is one line for each word typed, as the spec of the file without
    transliterators gives it, under every schedule. *)
Theorem C62_dev : forall W (H : hangul_lib) disk c verbose name width (w : W) stdin,
  (disk name = None -> dev_hangulizer (W := W) H disk c verbose name = Ok None) /\
  (forall src e, disk name = Some src -> parse_spec c src = Err e -> dev_hangulizer (W := W) H disk c verbose name = Ok None) /\
  (forall src s, disk name = Some src -> parse_spec c src = Ok s ->
     exists run, dev_hangulizer H disk c verbose name = Ok (Some run) /\
       (forall words lines e, typed stdin words -> session (run_hangulizer H s [] false) w words lines e ->
          always_prints width run (cli_start w [] stdin) lines e)).
Proof.
  intros W H disk c verbose name width w stdin; unfold dev_hangulizer.
  split; [intros ->; reflexivity|]; split; [intros src e -> ->; reflexivity|].
  intros src s -> Hp; rewrite Hp; eexists; split; [reflexivity|]; intros words lines e Ht Hs.
  apply (proj2 (C47_input W width _ w stdin) words); [exact Ht|].
  assert (forall (w : W) x, exists tr, run_hangulizer H s [] verbose w x =
            (fst (fst (run_hangulizer H s [] false w x)), tr, snd (run_hangulizer H s [] false w x))) as Hsame.
  { intros v x; unfold run_hangulizer; destruct verbose; [|destruct (forward H s [] false v x) as [[a b] r]; eexists; reflexivity].
    destruct (forward H s [] true v x) as [[a1 b1] r1] eqn:E1; destruct (forward H s [] false v x) as [[a b] r] eqn:E2.
    destruct (C03_transparent W H c src s [] v x a1 a b1 b r1 r Hp E1 E2) as [-> ->]; eexists; reflexivity. }
  clear Ht; induction Hs as [w|w word words w1 tr line lines e E Hs IH|w word words w1 tr out e E|w word words w1 tr p E];
    [constructor| | |]; destruct (Hsame w word) as (tr' & E'); rewrite E in E'; cbn [fst snd] in E'.
  - eapply session_line; eassumption.
  - eapply session_error; eassumption.
  - eapply session_panic; eassumption.
Qed.
Print Assumptions C62_dev.

(** A spec that names a transliterator cannot be developed with it: every word is an error. *)
Theorem C62_translit : forall W (H : hangul_lib) disk c verbose name src s sc rest width (w : W) stdin word words,
  disk name = Some src -> parse_spec c src = Ok s -> l_translit (s_lang s) = sc :: rest -> typed stdin (word :: words) ->
  exists run, dev_hangulizer H disk c verbose name = Ok (Some run) /\
    always_prints width run (cli_start w [] stdin) [] (ExitError (ErrTranslitNotImported sc)).
Proof.
  intros W H disk c verbose name src s sc rest width w stdin word words Hd Hp Hl Ht.
  destruct (C62_dev W H disk c verbose name width w stdin) as (_ & _ & Hdev).
  destruct (Hdev src s Hd Hp) as (run & E & Hrun); exists run; split; [exact E|]; eapply Hrun; [exact Ht|].
  eapply session_error; unfold run_hangulizer, forward; rewrite Hl; cbn [transliterate lookup]; reflexivity.
Qed.
Print Assumptions C62_translit.

(** On the file of a bundled language without transliterators, dev prints what the command
    for that language prints. *)
Theorem C62_bundled_partial : forall W (H : hangul_lib) c c' (ts : list (translit W)) verbose lang src disk name,
  choices_ok c -> choices_ok c' -> lookup bundled_files (specs_dir ++ lang ++ ext) = Some src -> disk name = Some src ->
  (forall s, parse_spec c src = Ok s -> l_translit (s_lang s) = []) ->
  exists run run', cli_hangulizer H bundled_files c ts verbose lang = Ok (Some run) /\
    dev_hangulizer H disk c' verbose name = Ok (Some run') /\
    forall width w stdin lines e,
      always_prints width run (cli_start w [] stdin) lines e <-> always_prints width run' (cli_start w [] stdin) lines e.
Proof.
  intros W H c c' ts verbose lang src disk name Hc Hc' Hs Hd Ht.
  destruct (file_ok_parses src c (bundled_file_ok _ _ Hs) Hc) as (s0 & s & E0 & Ep & Ho & Hu & _).
  destruct (file_ok_parses src c' (bundled_file_ok _ _ Hs) Hc') as (s0' & s' & E0' & Ep' & Ho' & _ & _).
  rewrite E0 in E0'; apply ok_inj in E0'; subst s0'.
  specialize (Ht s Ep); assert (l_translit (s_lang s0) = []) as Ht0 by (destruct Ho as [Ho _]; rewrite Ho in Ht; exact Ht).
  unfold cli_hangulizer, dev_hangulizer, load_spec; cbn [lookup]; rewrite Hs, Hd, Ep, Ep'; cbn [snd].
  do 2 eexists; split; [reflexivity|]; split; [reflexivity|].
  set (reg := fst (install tl_scheme ts [])).
  assert (forall w word, run_hangulizer H s reg verbose w word = run_hangulizer H s' [] verbose w word) as Hrun.
  { intros w word; unfold run_hangulizer.
    rewrite (forward_order H s0 s reg verbose w word Ho Hu), (forward_order H s0 s' [] verbose w word Ho' Hu).
    assert (forward H s0 reg verbose w word = forward H s0 [] verbose w word) as ->; [|reflexivity].
    unfold forward; rewrite Ht0; reflexivity. }
  intros width w stdin lines e; split; apply same_prints; [exact Hrun|]; intros; symmetry; apply Hrun.
Qed.
Print Assumptions C62_bundled_partial.

(** A spec on the disk, typed at. *)
Definition ex_dev : opened := fun name =>
  if beqb name (lit "x.hsl") then Some (ex_hsl (lit "x") ++ lit "transcribe:" ++ [10%N] ++ lit " ""a"" -> ""ㅏ""" ++ [10%N]) else None.
Example C62_example : exists s run,
  parse_spec choices0 (match ex_dev (lit "x.hsl") with Some src => src | None => [] end) = Ok s /\
  dev_hangulizer (W := unit) go_hangul ex_dev choices0 true (lit "x.hsl") = Ok (Some run) /\
  typed (lit "a" ++ [10%N] ++ lit "!" ++ [10%N]) [lit "a"; lit "!"] /\
  session (run_hangulizer go_hangul s [] false) tt [lit "a"; lit "!"] [lit "아"; lit "!"] ExitOk.
Proof.
  destruct (parse_spec choices0 (match ex_dev (lit "x.hsl") with Some src => src | None => [] end)) as [s| | | | |] eqn:E;
    try (vm_compute in E; discriminate).
  exists s; eexists; split; [reflexivity|]; split.
  { unfold dev_hangulizer; destruct (ex_dev (lit "x.hsl")) as [src|] eqn:Ed; [|discriminate]; rewrite E; reflexivity. }
  split.
  - apply (typed_word (lit "a") (lit "a") (lit "!" ++ [10%N])); [vm_compute; intros [H|[]]; discriminate|discriminate|apply trimmed_ascii; reflexivity|].
    apply (typed_word (lit "!") (lit "!") []); [vm_compute; intros [H|[]]; discriminate|discriminate|apply trimmed_ascii; reflexivity|].
    constructor; intros [].
  - vm_compute in E; apply ok_inj in E; subst s.
    eapply session_line; [vm_compute; reflexivity|]; eapply session_line; [vm_compute; reflexivity|]; constructor.
Qed.

(** Japanese, with a transliterator that changes nothing: the command writes the word back,
    dev writes nothing. *)
Definition ex_furigana : translit unit := {| tl_scheme := lit "furigana"; tl_run := fun w word => (w, Ok word) |}.
Theorem C62_same_refuted : exists lang src disk name run run' stdin,
  lookup bundled_files (specs_dir ++ lang ++ ext) = Some src /\ disk name = Some src /\
  cli_hangulizer go_hangul bundled_files choices0 [ex_furigana] false lang = Ok (Some run) /\
  dev_hangulizer go_hangul disk choices0 false name = Ok (Some run') /\
  forall width, always_prints width run (cli_start tt [] stdin) [lit "!"] ExitOk /\
    always_prints width run' (cli_start tt [] stdin) [] (ExitError (ErrTranslitNotImported (lit "furigana"))).
Proof.
  assert (exists src s, lookup bundled_files (specs_dir ++ lit "jpn" ++ ext) = Some src /\ parse_spec choices0 src = Ok s /\
            l_translit (s_lang s) = [lit "furigana"] /\
            snd (run_hangulizer go_hangul s (fst (install tl_scheme [ex_furigana] [])) false tt (lit "!")) = Ok (lit "!", None))
    as (src & s & Es & Ep & El & Er).
  { assert (match lookup bundled_files (specs_dir ++ lit "jpn" ++ ext) with
            | Some src => match parse_spec choices0 src with
                          | Ok s => (l_translit (s_lang s),
                                     snd (run_hangulizer go_hangul s (fst (install tl_scheme [ex_furigana] [])) false tt (lit "!")))
                          | _ => ([], Hang)
                          end
            | None => ([], Hang)
            end = ([lit "furigana"], Ok (lit "!", None))) as E by (vm_compute; reflexivity).
    destruct (lookup bundled_files _) as [src|]; [|discriminate].
    destruct (parse_spec choices0 src) as [s| | | | |] eqn:Ep; try discriminate; exists src, s; repeat split; try exact Ep; congruence. }
  assert (typed (lit "!" ++ [10%N]) [lit "!"]) as Ht.
  { apply (typed_word (lit "!") (lit "!") []); [vm_compute; intros [H|[]]; discriminate|discriminate|apply trimmed_ascii; reflexivity|].
    constructor; intros []. }
  pose (disk := (fun _ => Some src) : opened).
  destruct (C62_translit unit go_hangul disk choices0 false [] src s (lit "furigana") [] (fun _ => 0) tt _ _ _ eq_refl Ep El Ht)
    as (run' & Er' & _).
  exists (lit "jpn"), src, disk, []; do 2 eexists; exists (lit "!" ++ [10%N]).
  split; [exact Es|]; split; [reflexivity|]; split.
  { unfold cli_hangulizer, load_spec; cbn [lookup]; rewrite Es, Ep; reflexivity. }
  split; [exact Er'|]; intros width; split.
  - apply (proj2 (C47_input unit width _ tt _) _ _ _ Ht).
    destruct (run_hangulizer go_hangul s (fst (install tl_scheme [ex_furigana] [])) false tt (lit "!")) as [[w tr] r] eqn:E.
    cbn [snd] in Er; subst r; eapply session_line; [exact E|constructor].
  - destruct (C62_translit unit go_hangul disk choices0 false [] src s (lit "furigana") [] width tt _ _ _ eq_refl Ep El Ht)
      as (run2 & Er2 & Hp); assert (run2 = run') as <- by congruence; exact Hp.
Qed.
Print Assumptions C62_same_refuted.
