(** C79: what the events of the steps Rewrite and Transcribe show. *)
From Coq Require Import String Lia.
From Verif Require Import GoBase Utf8 Replacer Hre Subword Rule Scripts Spec Jamo Procedure SpecOrder ProcFacts PropTrace.
Open Scope Z_scope.

(** ** What each rule makes *)

(** A word with spans replaced, given in order from [off] on *)
Fixpoint splice (w : bytes) (off : Z) (repls : list replacement) : bytes :=
  match repls with
  | [] => skipn (Z.to_nat off) w
  | x :: t => firstn (Z.to_nat (rp_start x - off)) (skipn (Z.to_nat off) w) ++ rp_word x ++ splice w (rp_stop x) t
  end.
(** The words after the first rule, after the second, … *)
Inductive rewriting : list rule -> bytes -> list bytes -> Prop :=
| rewriting_nil w : rewriting [] w []
| rewriting_cons r rules w repls ws : replacements r w = Ok repls ->
    rewriting rules (splice w 0 repls) ws -> rewriting (r :: rules) w (splice w 0 repls :: ws).
(** When transcribing, rules see NUL for what was written before. *)
Definition hide (x : replacement) : replacement :=
  {| rp_start := rp_start x; rp_stop := rp_stop x; rp_word := map (fun _ => 0%N) (rp_word x) |}.
Inductive transcribing : list rule -> bytes -> bytes -> list bytes -> Prop :=
| transcribing_nil seen w : transcribing [] seen w []
| transcribing_cons r rules seen w repls ws : replacements r seen = Ok repls ->
    transcribing rules (splice seen 0 (map hide repls)) (splice w 0 repls) ws ->
    transcribing (r :: rules) seen w (splice w 0 repls :: ws).

(** The parts of the word after the rule number [k]; a part without a column stays. *)
Fixpoint row (k : nat) (sws : list subword) (cols : list (option (list bytes))) : list bytes :=
  match sws, cols with
  | sw :: sws', c :: cols' => match c with Some ws => nth k ws [] | None => sw_word sw end :: row k sws' cols'
  | _, _ => []
  end.
Definition dotted (w : bytes) : bytes := map (fun b => if (b =? 0)%N then 0x2E%N else b) w.
Definition rule_event (step : step_name) (sws : list subword) (cols : list (option (list bytes))) (kr : nat * rule) : trace :=
  {| t_step := step; t_word := dotted (concat (row (fst kr) sws cols)); t_why := []; t_rule := Some (snd kr) |}.
Definition rule_events (step : step_name) (rules : list rule) (sws : list subword) (cols : list (option (list bytes))) : list trace :=
  if existsb is_some cols then map (rule_event step sws cols) (combine (seq 0 (length rules)) rules) else [].

(** ** Replacers *)
Lemma slice_sub {A} (l : list A) i j x : slice l i j = Ok x -> x = firstn (Z.to_nat (j - i)) (skipn (Z.to_nat i) l).
Proof. unfold slice; destruct (_ && _); [|discriminate]; intros E; injection E as <-; reflexivity. Qed.
Lemma commit_loop_splice repls r off w l : commit_loop repls r off = Ok (w, l) -> w = splice (rr_word r) off repls.
Proof.
  revert off w l; induction repls as [|x t IH]; intros off w l; cbn [commit_loop splice].
  - destruct (slice (rr_word r) off (len (rr_word r))) as [a| | | | |] eqn:E1; cbn [bind]; try discriminate.
    destruct (slice (rr_levels r) off (len (rr_levels r))) as [b| | | | |]; cbn [bind]; try discriminate.
    intros E; injection E as <- <-; apply slice_sub in E1; rewrite E1; apply firstn_all2; rewrite skipn_length; unfold len; lia.
  - destruct (slice (rr_word r) off (rp_start x)) as [a| | | | |] eqn:E1; cbn [bind]; try discriminate.
    destruct (slice (rr_levels r) off (rp_start x)) as [b| | | | |]; cbn [bind]; try discriminate.
    destruct (commit_loop t r (rp_stop x)) as [[w1 l1]| | | | |] eqn:E2; cbn [bind]; try discriminate.
    intros E; injection E as <- <-; rewrite (IH _ _ _ E2); apply slice_sub in E1; rewrite E1; reflexivity.
Qed.
Lemma string_splice rep repls rep1 w : rr_repls rep = [] -> replacer_string (replace_by rep repls) = Ok (rep1, w) ->
  w = splice (rr_word rep) 0 repls /\ rr_word rep1 = w /\ rr_repls rep1 = [].
Proof.
  intros Hr; unfold replacer_string, commit, replace_by; cbn [rr_repls rr_word]; rewrite Hr; cbn [app].
  destruct (commit_loop _ _ _) as [[w1 l1]| | | | |] eqn:E; cbn [bind]; try discriminate.
  intros E'; injection E' as <- <-; apply commit_loop_splice in E; cbn [rr_word rr_repls] in *; auto.
Qed.

(** ** Records *)
Definition cell (recs : records) (k i : nat) : option bytes :=
  match nth_error recs k with
  | Some (Some x) => match nth_error (st_subwords x) i with Some o => o | None => None end
  | _ => None
  end.
Lemma set_nth_at {A} (l : list A) i x t : set_nth l i x = Some t ->
  length t = length l /\ forall j, nth_error t j = if Nat.eqb j i then Some x else nth_error l j.
Proof.
  revert i t; induction l as [|y l IH]; intros [|i] t; cbn [set_nth]; try discriminate.
  - intros E; injection E as <-; split; [reflexivity|]; intros [|j]; reflexivity.
  - destruct (set_nth l i x) as [t'|] eqn:E; [|discriminate]; intros E'; injection E' as <-; destruct (IH _ _ E) as [H1 H2].
    split; [cbn; lia|]; intros [|j]; [reflexivity|exact (H2 j)].
Qed.
Lemma set_index_at {A} (l : list A) i x t : set_index l i x = Ok t ->
  length t = length l /\ forall j, nth_error t j = if Nat.eqb j (Z.to_nat i) then Some x else nth_error l j.
Proof.
  unfold set_index; destruct (i <? 0); [discriminate|]; destruct (set_nth l (Z.to_nat i) x) as [t'|] eqn:E; [|discriminate].
  intros E'; injection E' as <-; apply set_nth_at; exact E.
Qed.
Lemma nth_error_repeat_none {A} n j : nth_error (repeat (@None A) n) j = Some None \/ nth_error (repeat (@None A) n) j = None.
Proof. revert j; induction n as [|n IH]; intros [|j]; cbn; auto. Qed.
Lemma record_cells nsub recs k i word r recs' : rule_id r = Z.of_nat k -> (k <= length recs)%nat ->
  record_subword true nsub recs (Z.of_nat i) word r = Ok recs' ->
  length recs' = Nat.max (length recs) (S k) /\
  forall k' i', cell recs' k' i' = if Nat.eqb k' k && Nat.eqb i' i then Some word else cell recs k' i'.
Proof.
  intros Hid Hk; unfold record_subword; cbn [negb]; rewrite Hid.
  set (recs1 := if _ <? _ then _ else _).
  assert (length recs1 = Nat.max (length recs) (S k) /\ forall k' i', cell recs1 k' i' = cell recs k' i') as [Hl Hc].
  { unfold recs1, len; destruct (Z.of_nat (length recs) <? Z.of_nat k + 1) eqn:E.
    - split; [rewrite app_length, repeat_length; lia|]; intros k' i'; unfold cell.
      destruct (Nat.lt_ge_cases k' (length recs)) as [Hlt|Hge]; [rewrite nth_error_app1 by exact Hlt; reflexivity|].
      rewrite nth_error_app2 by exact Hge; rewrite (proj2 (nth_error_None recs k')) by exact Hge.
      destruct (nth_error_repeat_none (A := strecord) (Z.to_nat (Z.of_nat k + 1 - Z.of_nat (length recs))) (k' - length recs)) as [-> | ->]; reflexivity.
    - split; [lia|reflexivity]. }
  clearbody recs1; destruct (index recs1 (Z.of_nat k)) as [cur| | | | |] eqn:Ei; cbn [bind]; try discriminate.
  assert (nth_error recs1 k = Some cur) as Hcur.
  { unfold index in Ei; rewrite Nat2Z.id in Ei; destruct (0 <=? Z.of_nat k); [|discriminate].
    destruct (nth_error recs1 k); [congruence|discriminate]. }
  destruct (set_index (st_subwords _) (Z.of_nat i) (Some word)) as [sws| | | | |] eqn:Es; cbn [bind]; try discriminate.
  intros Er; apply set_index_at in Es, Er; rewrite Nat2Z.id in Es, Er; destruct Es as [_ Es], Er as [Hl' Er].
  split; [congruence|]; intros k' i'; rewrite <- Hc; unfold cell; rewrite Er.
  destruct (Nat.eqb_spec k' k) as [->|Hne]; [|reflexivity]; cbn [andb st_subwords]; rewrite Es.
  destruct (Nat.eqb_spec i' i) as [->|Hni]; [reflexivity|]; rewrite Hcur; destruct cur as [x|]; [reflexivity|].
  cbn [st_subwords]; destruct (nth_error_repeat_none (A := bytes) nsub i') as [-> | ->]; reflexivity.
Qed.

(** What the rules from the number [k] on record of one part *)
Definition recorded (k i : nat) (ws : list bytes) (recs recs' : records) : Prop :=
  length recs' = Nat.max (length recs) (k + length ws) /\
  forall k' i', cell recs' k' i' =
    if Nat.eqb i' i && Nat.leb k k' then match nth_error ws (k' - k) with Some w => Some w | None => cell recs k' i' end
    else cell recs k' i'.
Lemma recorded_nil k i recs : (k <= length recs)%nat -> recorded k i [] recs recs.
Proof.
  intros Hk; split; [cbn; lia|]; intros k' i'; destruct (Nat.eqb i' i && Nat.leb k k'); [|reflexivity].
  destruct (k' - k)%nat; reflexivity.
Qed.
Lemma recorded_cons nsub k i word r recs recs1 ws recs' : rule_id r = Z.of_nat k -> (k <= length recs)%nat ->
  record_subword true nsub recs (Z.of_nat i) word r = Ok recs1 -> recorded (S k) i ws recs1 recs' -> recorded k i (word :: ws) recs recs'.
Proof.
  intros Hid Hk Er [Hl Hc]; destruct (record_cells _ _ _ _ _ _ _ Hid Hk Er) as [Hl1 Hc1].
  split; [cbn [length]; lia|]; intros k' i'; rewrite Hc, Hc1.
  destruct (Nat.eqb_spec i' i) as [->|Hni]; [|rewrite andb_false_r; reflexivity]; cbn [andb].
  destruct (Nat.leb_spec (S k) k') as [Hlt|Hge].
  - assert (Nat.leb k k' = true) as -> by (apply Nat.leb_le; lia); replace (k' - k)%nat with (S (k' - S k)) by lia; cbn [nth_error].
    destruct (nth_error ws (k' - S k)); [reflexivity|]; destruct (Nat.eqb_spec k' k); [lia|reflexivity].
  - destruct (Nat.eqb_spec k' k) as [->|Hne]; cbn [andb].
    + rewrite Nat.leb_refl, Nat.sub_diag; reflexivity.
    + destruct (Nat.leb_spec k k'); [lia|reflexivity].
Qed.
Lemma rewriting_length rules w ws : rewriting rules w ws -> length ws = length rules.
Proof. induction 1; cbn; congruence. Qed.
Lemma transcribing_length rules seen w ws : transcribing rules seen w ws -> length ws = length rules.
Proof. induction 1; cbn; congruence. Qed.

Lemma rewrite_rules_recorded nsub rules0 k rules i word rep recs rep' recs' : numbered rules0 -> skipn k rules0 = rules ->
  rr_repls rep = [] -> rr_word rep = word -> (k <= length recs)%nat ->
  rewrite_rules true nsub rules (Z.of_nat i) word rep recs = Ok (rep', recs') ->
  exists ws, rewriting rules word ws /\ recorded k i ws recs recs'.
Proof.
  intros Hnum; revert k word rep recs; induction rules as [|r rules IH]; intros k word rep recs Hk Hr Hw Hl; cbn [rewrite_rules].
  - intros E; injection E as <- <-; exists []; split; [constructor|apply recorded_nil; exact Hl].
  - destruct (replacements r word) as [repls| | | | |] eqn:Ep; cbn [bind]; try discriminate.
    destruct (replacer_string (replace_by rep repls)) as [[rep1 word1]| | | | |] eqn:Es; cbn [bind]; try discriminate.
    destruct (record_subword true nsub recs (Z.of_nat i) word1 r) as [recs1| | | | |] eqn:Er; cbn [bind]; try discriminate.
    destruct (string_splice _ _ _ _ Hr Es) as (E1 & E2 & E3); rewrite Hw in E1.
    pose proof (Hnum _ _ (nth_error_skip _ _ _ _ Hk)) as Hid; destruct (record_cells _ _ _ _ _ _ _ Hid Hl Er) as [Hl1 _].
    intros E; destruct (IH (S k) word1 rep1 recs1 (skipn_next _ _ _ _ Hk) E3 E2 ltac:(lia) E) as (ws & H1 & H2).
    exists (word1 :: ws); split; [|eapply recorded_cons; eassumption].
    rewrite E1 in *; constructor; assumption.
Qed.
Lemma hide_mask repls : map mask repls = map hide repls.
Proof.
  apply map_ext; intros x; unfold mask, hide; f_equal; induction (rp_word x) as [|b w IH]; [reflexivity|].
  cbn [length repeat map]; rewrite IH; reflexivity.
Qed.
Lemma transcribe_rules_recorded nsub rules0 k rules i seen rep dummy recs rep' recs' : numbered rules0 -> skipn k rules0 = rules ->
  rr_repls rep = [] -> rr_repls dummy = [] -> rr_word dummy = seen -> (k <= length recs)%nat ->
  transcribe_rules true nsub rules (Z.of_nat i) seen rep dummy recs = Ok (rep', recs') ->
  exists ws, transcribing rules seen (rr_word rep) ws /\ recorded k i ws recs recs'.
Proof.
  intros Hnum; revert k seen rep dummy recs; induction rules as [|r rules IH]; intros k seen rep dummy recs Hk Hr Hd Hw Hl; cbn [transcribe_rules].
  - intros E; injection E as <- <-; exists []; split; [constructor|apply recorded_nil; exact Hl].
  - destruct (replacements r seen) as [repls| | | | |] eqn:Ep; cbn [bind]; try discriminate.
    destruct (replacer_string (replace_by dummy (map mask repls))) as [[dum1 word1]| | | | |] eqn:Ed; cbn [bind]; try discriminate.
    destruct (replacer_string (replace_by rep repls)) as [[rep1 shown]| | | | |] eqn:Es; cbn [bind]; try discriminate.
    destruct (record_subword true nsub recs (Z.of_nat i) shown r) as [recs1| | | | |] eqn:Er; cbn [bind]; try discriminate.
    destruct (string_splice _ _ _ _ Hr Es) as (E1 & E2 & E3); destruct (string_splice _ _ _ _ Hd Ed) as (D1 & D2 & D3); rewrite Hw, hide_mask in D1.
    pose proof (Hnum _ _ (nth_error_skip _ _ _ _ Hk)) as Hid; destruct (record_cells _ _ _ _ _ _ _ Hid Hl Er) as [Hl1 _].
    intros E; destruct (IH (S k) word1 rep1 dum1 recs1 (skipn_next _ _ _ _ Hk) E3 D3 D2 ltac:(lia) E) as (ws & H1 & H2).
    exists (shown :: ws); split; [|eapply recorded_cons; eassumption].
    rewrite E2, E1, D1 in H1; rewrite E1; constructor; assumption.
Qed.

(** All parts up to now *)
Definition table (n : nat) (cols : list (option (list bytes))) (recs : records) : Prop :=
  Forall (fun c => forall ws, c = Some ws -> length ws = n) cols /\
  length recs = (if existsb is_some cols then n else 0%nat) /\
  forall k i, cell recs k i = match nth_error cols i with Some (Some ws) => nth_error ws k | _ => None end.
Lemma table_snoc n cols ws recs recs' : length ws = n -> table n cols recs -> recorded 0 (length cols) ws recs recs' -> table n (cols ++ [Some ws]) recs'.
Proof.
  intros Hn (Hf & Hl & Hc) [Hl' Hc']; split; [|split].
  - apply Forall_app; split; [exact Hf|]; constructor; [intros ws' E; congruence|constructor].
  - rewrite existsb_app; cbn [existsb is_some]; rewrite orb_true_r; rewrite Hl', Hl; destruct (existsb is_some cols); cbn; lia.
  - intros k i; rewrite Hc', Hc; destruct (Nat.eqb_spec i (length cols)) as [->|Hne]; cbn [andb Nat.leb].
    + rewrite Nat.sub_0_r, nth_error_app2, Nat.sub_diag by lia; cbn [nth_error].
      rewrite (proj2 (nth_error_None cols (length cols))) by lia; destruct (nth_error ws k); reflexivity.
    + destruct (Nat.lt_ge_cases i (length cols)) as [Hlt|Hge]; [rewrite nth_error_app1 by exact Hlt; reflexivity|].
      rewrite (proj2 (nth_error_None cols i)), (proj2 (nth_error_None (cols ++ [Some ws]) i)); [reflexivity|rewrite app_length; cbn; lia|lia].
Qed.
Lemma table_skip n cols recs : table n cols recs -> table n (cols ++ [None]) recs.
Proof.
  intros (Hf & Hl & Hc); split; [|split].
  - apply Forall_app; split; [exact Hf|]; constructor; [discriminate|constructor].
  - rewrite existsb_app; cbn [existsb is_some]; rewrite orb_false_r; exact Hl.
  - intros k i; rewrite Hc; destruct (Nat.lt_ge_cases i (length cols)) as [Hlt|Hge]; [rewrite nth_error_app1 by exact Hlt; reflexivity|].
    rewrite (proj2 (nth_error_None cols i)), nth_error_app2 by lia; destruct (i - length cols)%nat as [|[|j]]; reflexivity.
Qed.

Lemma rewrite_loop_table nsub rules i sws buf recs buf' recs' cols : numbered rules -> i = length cols -> table (length rules) cols recs ->
  rewrite_loop true nsub rules (Z.of_nat i) sws buf recs = Ok (buf', recs') ->
  exists more, Forall2 (fun sw c => exists ws, c = Some ws /\ rewriting rules (sw_word sw) ws) sws more /\
    table (length rules) (cols ++ more) recs'.
Proof.
  intros Hnum; revert i buf recs cols; induction sws as [|sw sws IH]; intros i buf recs cols Hi Ht; cbn [rewrite_loop].
  - intros E; injection E as <- <-; exists []; rewrite app_nil_r; split; [constructor|exact Ht].
  - destruct (rewrite_rules true nsub rules (Z.of_nat i) (sw_word sw) _ recs) as [[rep recs1]| | | | |] eqn:E1; cbn [bind]; try discriminate.
    destruct (replacer_subwords rep) as [[r2 out]| | | | |]; cbn [bind]; try discriminate.
    destruct (rewrite_rules_recorded nsub rules 0 rules i (sw_word sw) (new_replacer (sw_word sw) (sw_level sw) 1) _ _ _ Hnum eq_refl eq_refl eq_refl (Nat.le_0_l _) E1) as (ws & H1 & H2).
    replace (Z.of_nat i + 1) with (Z.of_nat (S i)) by lia; intros E; subst i.
    pose proof (table_snoc _ _ _ _ _ (rewriting_length _ _ _ H1) Ht H2) as Ht'.
    destruct (IH (S (length cols)) _ recs1 (cols ++ [Some ws]) ltac:(rewrite app_length; cbn; lia) Ht' E) as (more & H3 & H4).
    exists (Some ws :: more); rewrite <- app_assoc in H4; split; [constructor; [eauto|exact H3]|exact H4].
Qed.
Lemma transcribe_loop_table nsub rules i sws buf recs buf' recs' cols : numbered rules -> i = length cols -> table (length rules) cols recs ->
  transcribe_loop true nsub rules (Z.of_nat i) sws buf recs = Ok (buf', recs') ->
  exists more, Forall2 (fun sw c => (sw_level sw = 0 /\ c = None) \/
      (sw_level sw <> 0 /\ exists ws, c = Some ws /\ transcribing rules (sw_word sw) (sw_word sw) ws)) sws more /\
    table (length rules) (cols ++ more) recs'.
Proof.
  intros Hnum; revert i buf recs cols; induction sws as [|sw sws IH]; intros i buf recs cols Hi Ht; cbn [transcribe_loop].
  - intros E; injection E as <- <-; exists []; rewrite app_nil_r; split; [constructor|exact Ht].
  - replace (Z.of_nat i + 1) with (Z.of_nat (S i)) by lia; destruct (Z.eqb_spec (sw_level sw) 0) as [H0|H0].
    + intros E; subst i; destruct (IH (S (length cols)) _ recs (cols ++ [None]) ltac:(rewrite app_length; cbn; lia) (table_skip _ _ _ Ht) E) as (more & H3 & H4).
      exists (None :: more); rewrite <- app_assoc in H4; split; [constructor; [auto|exact H3]|exact H4].
    + destruct (transcribe_rules true nsub rules (Z.of_nat i) (sw_word sw) _ _ recs) as [[rep recs1]| | | | |] eqn:E1; cbn [bind]; try discriminate.
      destruct (replacer_subwords rep) as [[r2 out]| | | | |]; cbn [bind]; try discriminate.
      destruct (transcribe_rules_recorded nsub rules 0 rules i (sw_word sw) (new_replacer (sw_word sw) (sw_level sw) 2) (new_replacer (sw_word sw) 0 0) _ _ _ Hnum eq_refl eq_refl eq_refl eq_refl (Nat.le_0_l _) E1) as (ws & H1 & H2).
      intros E; subst i; pose proof (table_snoc _ _ _ _ _ (transcribing_length _ _ _ _ H1) Ht H2) as Ht'.
      destruct (IH (S (length cols)) _ recs1 (cols ++ [Some ws]) ltac:(rewrite app_length; cbn; lia) Ht' E) as (more & H3 & H4).
      exists (Some ws :: more); rewrite <- app_assoc in H4; split; [constructor; [right; eauto|exact H3]|exact H4].
Qed.

(** ** Commit *)
Inductive kept : list subword -> list (option (list bytes)) -> list subword -> Prop :=
| kept_nil : kept [] [] []
| kept_cons sw sws c cols x cur : (c = None -> x = sw) -> kept sws cols cur -> kept (sw :: sws) (c :: cols) (x :: cur).
Definition at_row (k : nat) (c : option (list bytes)) : option bytes := option_map (fun ws => nth k ws []) c.
Lemma overlay_row k sws cols cur : kept sws cols cur ->
  map sw_word (overlay cur (map (at_row k) cols)) = row k sws cols /\ kept sws cols (overlay cur (map (at_row k) cols)).
Proof.
  induction 1 as [|sw sws c cols x cur Hc H [IH1 IH2]]; [split; constructor|]; destruct c as [ws|]; cbn [map at_row option_map overlay row sw_word].
  - split; [f_equal; exact IH1|constructor; [discriminate|exact IH2]].
  - rewrite (Hc eq_refl); split; [f_equal; exact IH1|constructor; [auto|exact IH2]].
Qed.
Lemma dotted_replace w : replace_byte 0 (lit ".") w = dotted w.
Proof.
  unfold replace_byte, dotted; induction w as [|b w IH]; [reflexivity|]; cbn [flat_map map]; rewrite <- IH; destruct (b =? 0)%N; reflexivity.
Qed.
Lemma commit_table step sws cols l : forall k rules cur tr tr',
  map st_rule l = rules -> existsb is_some cols = true ->
  (forall j x, nth_error l j = Some x -> st_subwords x = map (at_row (k + j)) cols) -> kept sws cols cur ->
  commit_records tr step cur (map Some l) = Ok tr' ->
  tr' = fold_left emit (map (rule_event step sws cols) (combine (seq k (length rules)) rules)) tr.
Proof.
  induction l as [|x l IH]; intros k rules cur tr tr' <- He Hx Hk; cbn [map commit_records length seq combine fold_left].
  - intros E; injection E as <-; reflexivity.
  - rewrite (Hx 0%nat x eq_refl), Nat.add_0_r.
    assert (existsb is_some (map (at_row k) cols) = true) as ->.
    { apply existsb_exists in He; destruct He as (c & Hin & Hs); apply existsb_exists; exists (at_row k c); split; [apply in_map; exact Hin|].
      destruct c; [reflexivity|discriminate]. }
    destruct (overlay_row k _ _ _ Hk) as [Hrow Hk']; unfold builder_string; rewrite dotted_replace, Hrow.
    apply (IH (S k) _ _ _ _ eq_refl He); [|exact Hk'].
    intros j y Hj; rewrite (Hx (S j) y Hj); f_equal; f_equal; lia.
Qed.
Lemma kept_start sws cols : length sws = length cols -> kept sws cols sws.
Proof. revert cols; induction sws as [|sw sws IH]; intros [|c cols] E; try discriminate; constructor; [reflexivity|apply IH; injection E; auto]. Qed.
Lemma nth_error_ext {A} (a b : list A) : (forall i, nth_error a i = nth_error b i) -> a = b.
Proof.
  revert b; induction a as [|x a IH]; intros [|y b] H; [reflexivity|discriminate (H 0%nat)|discriminate (H 0%nat)|].
  pose proof (H 0%nat) as H0; injection H0 as ->; f_equal; apply IH; intros i; exact (H (S i)).
Qed.
Lemma trace_table step rules sws cols recs t tr' : recs_wf (length sws) rules recs -> length sws = length cols -> table (length rules) cols recs ->
  trace_commit (Some t) step sws recs = Ok tr' -> tr' = fold_left emit (rule_events step rules sws cols) (Some t).
Proof.
  intros (l & -> & Hl & Hle & Hn) Hlen (Hf & Hrl & Hc); unfold trace_commit, rule_events; rewrite map_length in Hrl.
  destruct (existsb is_some cols) eqn:He.
  - rewrite Hrl, firstn_all in Hl; apply (commit_table step sws cols l 0 rules sws); [exact Hl|exact He| |apply kept_start; exact Hlen].
    intros j x Hj; apply nth_error_ext; intros i.
    specialize (Hc j i); unfold cell in Hc; rewrite nth_error_map, Hj in Hc; cbn [option_map] in Hc; rewrite nth_error_map.
    assert (length (st_subwords x) = length cols) as Hx by (rewrite Forall_forall in Hn; rewrite (Hn x (nth_error_In _ _ Hj)); exact Hlen).
    destruct (nth_error (st_subwords x) i) as [o|] eqn:Ei.
    + destruct (nth_error cols i) as [c|] eqn:Ec; cbn [option_map]; [|apply nth_error_None in Ec; assert (i < length (st_subwords x))%nat by (apply nth_error_Some; congruence); lia].
      rewrite Hc; destruct c as [ws|]; cbn [at_row option_map]; [|reflexivity].
      rewrite Forall_forall in Hf; assert (j < length ws)%nat as Hj' by (rewrite (Hf _ (nth_error_In _ _ Ec) ws eq_refl), <- Hrl; apply nth_error_Some; congruence).
      rewrite (nth_error_nth' ws [] Hj'); reflexivity.
    + destruct (nth_error cols i) as [c|] eqn:Ec; cbn [option_map]; [|reflexivity].
      apply nth_error_None in Ei; assert (i < length cols)%nat by (apply nth_error_Some; congruence); lia.
  - destruct l; [|discriminate]; cbn [map commit_records]; intros E; injection E as <-; reflexivity.
Qed.

(** ** C79 *)
Theorem C79_rewrite : forall c src s t sws tr' out, parse_spec c src = Ok s -> rewrite s (Some t) sws = Ok (tr', out) ->
  exists cols, Forall2 (fun sw col => exists ws, col = Some ws /\ rewriting (s_rewrite s) (sw_word sw) ws) sws cols /\
    tr' = fold_left emit (rule_events SRewrite (s_rewrite s) sws cols) (Some t).
Proof.
  intros c src s t sws tr' out Hp; pose proof (proj1 (proj1 (parse_spec_rules _ _ _ Hp))) as Hnum; unfold rewrite.
  destruct (rewrite_loop _ _ _ _ _ _ _) as [[buf recs]| | | | |] eqn:E; cbn [bind]; try discriminate; cbn [is_some] in E.
  destruct (trace_commit (Some t) SRewrite sws recs) as [tr1| | | | |] eqn:Et; cbn [bind]; try discriminate; intros E'; injection E' as <- <-.
  destruct (rewrite_loop_table (length sws) (s_rewrite s) 0 sws [] [] buf recs [] Hnum eq_refl) as (cols & H1 & H2).
  { split; [constructor|split; [reflexivity|]]; intros [|k] [|i]; reflexivity. }
  { exact E. }
  exists cols; split; [exact H1|]; assert (length sws = length cols) as Hlen by (clear - H1; induction H1; cbn; congruence).
  destruct (rewrite_loop_trace (length sws) (s_rewrite s) Hnum 0 sws [] [] [] (recs_wf_nil _ _) (le_n _)) as [_ Hwf].
  apply (trace_table SRewrite _ _ _ recs); [exact (Hwf _ _ E)|exact Hlen|exact H2|exact Et].
Qed.
Print Assumptions C79_rewrite.
Theorem C79_transcribe : forall c src s t sws tr' out, parse_spec c src = Ok s -> transcribe s (Some t) sws = Ok (tr', out) ->
  exists cols, Forall2 (fun sw col => (sw_level sw = 0 /\ col = None) \/
      (sw_level sw <> 0 /\ exists ws, col = Some ws /\ transcribing (s_transcribe s) (sw_word sw) (sw_word sw) ws)) sws cols /\
    tr' = fold_left emit (rule_events STranscribe (s_transcribe s) sws cols) (Some t).
Proof.
  intros c src s t sws tr' out Hp; pose proof (proj2 (proj1 (parse_spec_rules _ _ _ Hp))) as Hnum; unfold transcribe.
  destruct (transcribe_loop _ _ _ _ _ _ _) as [[buf recs]| | | | |] eqn:E; cbn [bind]; try discriminate; cbn [is_some] in E.
  destruct (trace_commit (Some t) STranscribe sws recs) as [tr1| | | | |] eqn:Et; cbn [bind]; try discriminate; intros E'; injection E' as <- <-.
  destruct (transcribe_loop_table (length sws) (s_transcribe s) 0 sws [] [] buf recs [] Hnum eq_refl) as (cols & H1 & H2).
  { split; [constructor|split; [reflexivity|]]; intros [|k] [|i]; reflexivity. }
  { exact E. }
  exists cols; split; [exact H1|]; assert (length sws = length cols) as Hlen by (clear - H1; induction H1; cbn; congruence).
  destruct (transcribe_loop_trace (length sws) (s_transcribe s) Hnum 0 sws [] [] [] (recs_wf_nil _ _) (le_n _)) as [_ Hwf].
  apply (trace_table STranscribe _ _ _ recs); [exact (Hwf _ _ E)|exact Hlen|exact H2|exact Et].
Qed.
Print Assumptions C79_transcribe.

(** *** The whole log *)

(** Events that do not change the word are left out. *)
Fixpoint changes (prev : bytes) (l : list trace) : list trace :=
  match l with
  | [] => []
  | e :: l' => if beqb prev (t_word e) then changes prev l' else e :: changes (t_word e) l'
  end.
Lemma emit_changes l : forall prev evs, exists last, fold_left emit l (Some (prev, evs)) = Some (last, rev (changes prev l) ++ evs).
Proof.
  induction l as [|e l IH]; intros prev evs; cbn [fold_left changes emit]; [eexists; reflexivity|].
  destruct (beqb prev (t_word e)); [apply IH|]; destruct (IH (t_word e) (e :: evs)) as (last & ->).
  exists last; cbn [rev]; rewrite <- app_assoc; reflexivity.
Qed.
Definition word_event (step : step_name) (word why : bytes) : trace := {| t_step := step; t_word := word; t_why := why; t_rule := None |}.
(** The transliterators of a language, one after the other *)
Inductive transliterating {W} (reg : list (bytes * translit W)) : list bytes -> W -> bytes -> list trace -> W -> bytes -> Prop :=
| transliterating_nil w word : transliterating reg [] w word [] w word
| transliterating_cons scheme schemes t w word w1 word1 evs w' word' : lookup reg scheme = Some t -> tl_run t w word = (w1, Ok word1) ->
    transliterating reg schemes w1 word1 evs w' word' ->
    transliterating reg (scheme :: schemes) w word (word_event STransliterate word1 (tl_scheme t) :: evs) w' word'.
Lemma transliterate_events {W} (reg : list (bytes * translit W)) schemes : forall w t word w' tr word',
  transliterate schemes reg w (Some t) word = (w', tr, Ok word') ->
  exists evs, transliterating reg schemes w word evs w' word' /\ tr = fold_left emit evs (Some t).
Proof.
  induction schemes as [|scheme schemes IH]; intros w t word w' tr word'; cbn [transliterate].
  - intros E; injection E as <- <- <-; exists []; split; [constructor|reflexivity].
  - destruct (lookup reg scheme) as [x|] eqn:El; [|discriminate]; destruct (tl_run x w word) as [w1 r] eqn:Er.
    destruct r as [word1| | | | |]; try discriminate; unfold trace_word; set (e := {| t_step := STransliterate |}).
    intros E; destruct (emit (Some t) e) as [t1|] eqn:Ee; [|unfold emit in Ee; destruct t as [p l]; destruct (beqb p (t_word e)); discriminate].
    destruct (IH _ _ _ _ _ _ E) as (evs & H1 & H2); exists (e :: evs); split; [econstructor; eassumption|].
    cbn [fold_left]; rewrite Ee; exact H2.
Qed.
Lemma emit_some t e : exists t', emit (Some t) e = Some t'.
Proof. destruct t as [p l]; unfold emit; destruct (beqb p (t_word e)); eexists; reflexivity. Qed.
Lemma rewrite_untraced c src s t sws tr out : parse_spec c src = Ok s -> rewrite s (Some t) sws = Ok (tr, out) -> rewrite s None sws = Ok (None, out).
Proof.
  intros Hp; pose proof (proj1 (proj1 (parse_spec_rules _ _ _ Hp))) as Hnum; unfold rewrite; cbn [is_some].
  destruct (rewrite_loop_trace (length sws) (s_rewrite s) Hnum 0 sws [] [] [] (recs_wf_nil _ _) (le_n _)) as [E _].
  change (Z.of_nat 0) with 0 in E.
  destruct (rewrite_loop true _ _ _ _ _ _) as [[b1 r1]| | | | |]; cbn [bind]; try discriminate.
  destruct (rewrite_loop false _ _ _ _ _ _) as [[b2 r2]| | | | |]; cbn [map_res fst] in E; try discriminate; injection E as <-.
  cbn [bind]; destruct (trace_commit (Some t) SRewrite sws r1); cbn [bind]; try discriminate; intros E; injection E as <- <-; reflexivity.
Qed.
Lemma transcribe_untraced c src s t sws tr out : parse_spec c src = Ok s -> transcribe s (Some t) sws = Ok (tr, out) -> transcribe s None sws = Ok (None, out).
Proof.
  intros Hp; pose proof (proj2 (proj1 (parse_spec_rules _ _ _ Hp))) as Hnum; unfold transcribe; cbn [is_some].
  destruct (transcribe_loop_trace (length sws) (s_transcribe s) Hnum 0 sws [] [] [] (recs_wf_nil _ _) (le_n _)) as [E _].
  change (Z.of_nat 0) with 0 in E.
  destruct (transcribe_loop true _ _ _ _ _ _) as [[b1 r1]| | | | |]; cbn [bind]; try discriminate.
  destruct (transcribe_loop false _ _ _ _ _ _) as [[b2 r2]| | | | |]; cbn [map_res fst] in E; try discriminate; injection E as <-.
  cbn [bind]; destruct (trace_commit (Some t) STranscribe sws r1); cbn [bind]; try discriminate; intros E; injection E as <- <-; reflexivity.
Qed.

Theorem C79_log : forall W (H : hangul_lib) c src s (reg : list (bytes * translit W)) w word w' tr out,
  parse_spec c src = Ok s -> forward H s reg true w word = (w', tr, Ok out) ->
  exists prev evs tevs word1 word2 word3 sws cols sws1 cols1 sws2 word4,
    tr = Some (prev, evs) /\
    transliterating reg (l_translit (s_lang s)) w word tevs w' word1 /\
    word2 = replacer_replace (s_normReplacer s) word1 /\ normalize s None word1 = (None, word3) /\
    partition s word3 = Ok sws /\
    Forall2 (fun sw col => exists ws, col = Some ws /\ rewriting (s_rewrite s) (sw_word sw) ws) sws cols /\
    rewrite s None sws = Ok (None, sws1) /\
    Forall2 (fun sw col => (sw_level sw = 0 /\ col = None) \/
      (sw_level sw <> 0 /\ exists ws, col = Some ws /\ transcribing (s_transcribe s) (sw_word sw) (sw_word sw) ws)) sws1 cols1 /\
    transcribe s None sws1 = Ok (None, sws2) /\ syllabify H None sws2 = (None, word4) /\ localize s None word4 = (None, out) /\
    rev evs = changes [] ([word_event SInput word []] ++ tevs ++
      [word_event SNormalize word2 []; word_event SNormalize word3 (l_script (s_lang s))] ++
      rule_events SRewrite (s_rewrite s) sws cols ++ rule_events STranscribe (s_transcribe s) sws1 cols1 ++
      [word_event SSyllabify word4 []; word_event SLocalize out (l_script (s_lang s))]).
Proof.
  intros W H c src s reg w word w' tr out Hp; unfold forward, trace_word, new_tracer; cbv iota.
  set (e0 := {| t_step := SInput |}); destruct (emit _ e0) as [t0|] eqn:E0; [|unfold emit in E0; destruct (beqb _ _) in E0; discriminate E0].
  destruct (transliterate (l_translit (s_lang s)) reg w (Some t0) word) as [[w1 tr1] r] eqn:Et; destruct r as [word1| | | | |]; try discriminate.
  destruct (transliterate_events _ _ _ _ _ _ _ _ Et) as (tevs & Ht & Etr1).
  assert (exists t1, tr1 = Some t1) as (t1 & ->).
  { rewrite Etr1; destruct t0 as [p0 l0]; destruct (emit_changes tevs p0 l0) as (last & ->); eexists; reflexivity. }
  unfold after_translit, normalize; set (word2 := replacer_replace (s_normReplacer s) word1); set (word3 := encode (map (norm_rune s) (runes word2))).
  unfold trace_word; set (e1 := {| t_step := SNormalize; t_word := word2 |}); set (e2 := {| t_step := SNormalize; t_word := word3 |}).
  destruct (emit_some t1 e1) as (t2 & E2); rewrite E2; destruct (emit_some t2 e2) as (t3 & E3); rewrite E3.
  destruct (partition s word3) as [sws| | | | |] eqn:Ep; cbn [bind]; try discriminate.
  destruct (rewrite s (Some t3) sws) as [[tr4 sws1]| | | | |] eqn:Er; cbn [bind]; try discriminate.
  destruct (C79_rewrite _ _ _ _ _ _ _ Hp Er) as (cols & Hc & E4).
  assert (exists t4, tr4 = Some t4) as (t4 & ->).
  { rewrite E4; destruct t3 as [p0 l0]; destruct (emit_changes (rule_events SRewrite (s_rewrite s) sws cols) p0 l0) as (last & ->); eexists; reflexivity. }
  destruct (transcribe s (Some t4) sws1) as [[tr5 sws2]| | | | |] eqn:Etc; cbn [bind]; try discriminate.
  destruct (C79_transcribe _ _ _ _ _ _ _ Hp Etc) as (cols1 & Hc1 & E5).
  assert (exists t5, tr5 = Some t5) as (t5 & ->).
  { rewrite E5; destruct t4 as [p0 l0]; destruct (emit_changes (rule_events STranscribe (s_transcribe s) sws1 cols1) p0 l0) as (last & ->); eexists; reflexivity. }
  unfold syllabify, localize, trace_word; set (word4 := syllabify_loop H sws2 []); set (e6 := {| t_step := SSyllabify |}).
  destruct (emit_some t5 e6) as (t6 & E6); rewrite E6; set (e7 := {| t_step := SLocalize |}).
  intros E; injection E as <- <- <-.
  set (all := [e0] ++ tevs ++ [e1; e2] ++ rule_events SRewrite (s_rewrite s) sws cols ++ rule_events STranscribe (s_transcribe s) sws1 cols1 ++ [e6; e7]).
  assert (emit (Some t6) e7 = fold_left emit all (Some ([], []))) as Eall.
  { unfold all; rewrite !fold_left_app; cbn [fold_left]; assert (emit (Some ([], [])) e0 = Some t0) as -> by exact E0; rewrite <- Etr1, E2, E3, <- E4, <- E5, E6; reflexivity. }
  destruct (emit_changes all [] []) as (prev & Ech); rewrite app_nil_r in Ech.
  exists prev, (rev (changes [] all)), tevs, word1, word2, word3, sws, cols, sws1, cols1, sws2, word4.
  split; [exact (eq_trans Eall Ech)|]; split; [exact Ht|]; split; [reflexivity|]; split; [reflexivity|]; split; [exact Ep|]; split; [exact Hc|].
  split; [exact (rewrite_untraced _ _ _ _ _ _ _ Hp Er)|]; split; [exact Hc1|]; split; [exact (transcribe_untraced _ _ _ _ _ _ _ Hp Etc)|].
  split; [reflexivity|]; split; [reflexivity|]; rewrite rev_involutive; reflexivity.
Qed.
Print Assumptions C79_log.

(** Two parts are rewritten; the digits between them are not of the language. *)
Example C79_example :
  parse_spec choices0 ex_src = Ok ex_spec /\
  (let '(_, tr, _) := forward go_hangul ex_spec [(lit "up", up)] true 0%nat (lit "abc1ab") in
   match tr with Some (_, evs) => map (fun e => (t_step e, t_word e, option_map rule_id (t_rule e))) (rev evs) | None => [] end) =
  [(SInput, lit "abc1ab", None); (STransliterate, lit "abc1abd", None);
   (SRewrite, lit "cc1cd", Some 0); (SRewrite, lit "dd1dd", Some 1);
   (STranscribe, lit "가가1가가", Some 0)].
Proof. vm_compute; auto. Qed.
