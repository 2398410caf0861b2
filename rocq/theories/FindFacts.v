(** Pattern.Find. *)
From Verif Require Import GoBase Utf8 Utf8Facts Regex RegexSpec RegexFacts CaptureFacts RegexParse Hre.
Open Scope Z_scope.

(** ** What one run of Find does, for any pattern *)

(** The raw match of line 186 after adding the offset. *)
Definition raw (p : pattern) (word : bytes) (off : Z) : list Z :=
  shift off (find_submatch_index (p_re p) (skipn (Z.to_nat off) word)).

Inductive scan (p : pattern) (word : bytes) : Z -> list (list Z) -> Prop :=
| scan_end off : len word <= off -> scan p word off []
| scan_none off : 0 <= off < len word -> raw p word off = [] -> scan p word off []
| scan_hit off start stop core ms :
    0 <= off < len word -> 10 <= len (raw p word off) ->
    pick_start_stop (raw p word off) = Ok (start, stop) -> stop <> start ->
    negatives_allow p word (raw p word off) = Ok true ->
    slice (raw p word off) 6 (len (raw p word off) - 4) = Ok core ->
    scan p word stop ms -> scan p word off ((start :: stop :: core) :: ms)
| scan_miss off start stop ms :
    0 <= off < len word -> 10 <= len (raw p word off) ->
    pick_start_stop (raw p word off) = Ok (start, stop) -> stop <> start ->
    negatives_allow p word (raw p word off) = Ok false ->
    scan p word stop ms -> scan p word off ms.

Lemma slice_tail {A} (s : list A) i r : slice s i (len s) = Ok r -> 0 <= i <= len s /\ r = skipn (Z.to_nat i) s.
Proof.
  unfold slice; destruct ((0 <=? i) && (i <=? len s) && (len s <=? len s)) eqn:E; [|discriminate].
  intros H; injection H as <-; split; [lia|].
  apply firstn_all2; rewrite skipn_length; unfold len in *; lia.
Qed.

Lemma find_loop_scan fuel p word n off acc ms :
  n < 0 -> find_loop fuel p word n off acc = Ok ms -> exists tl, ms = rev acc ++ tl /\ scan p word off tl.
Proof.
  intros Hn; revert off acc ms; induction fuel as [|fuel IH]; intros off acc ms H; [discriminate|].
  cbn [find_loop] in H.
  destruct ((off <? len word) && ((n <? 0) || (len acc <? n))) eqn:E.
  - destruct (slice word off (len word)) as [rest| | | | |] eqn:Es; cbn [bind] in H; try discriminate.
    apply slice_tail in Es; destruct Es as [Ho ->].
    change (shift off (find_submatch_index (p_re p) (skipn (Z.to_nat off) word))) with (raw p word off) in H.
    destruct (len (raw p word off) =? 0) eqn:E0.
    + injection H as <-; exists []; split; [symmetry; apply app_nil_r|].
      apply scan_none; [lia|]; destruct (raw p word off); [reflexivity|unfold len in E0; cbn in E0; lia].
    + destruct (len (raw p word off) <? 10) eqn:E10; [discriminate|].
      destruct (pick_start_stop (raw p word off)) as [[start stop]| | | | |] eqn:Ep; cbn [bind] in H; try discriminate.
      destruct (stop - start =? 0) eqn:Ez; [discriminate|].
      destruct (negatives_allow p word (raw p word off)) as [ok| | | | |] eqn:Ea; cbn [bind] in H; try discriminate.
      destruct ok.
      * destruct (slice (raw p word off) 6 (len (raw p word off) - 4)) as [core| | | | |] eqn:Ec;
          cbn [bind] in H; try discriminate.
        apply IH in H; destruct H as (tl & -> & Hs); exists ((start :: stop :: core) :: tl); split.
        -- cbn [rev]; rewrite <- app_assoc; reflexivity.
        -- eapply scan_hit; try eassumption; lia.
      * apply IH in H; destruct H as (tl & -> & Hs); exists tl; split; [reflexivity|].
        eapply scan_miss; try eassumption; lia.
  - injection H as <-; exists []; split; [symmetry; apply app_nil_r|].
    apply scan_end; lia.
Qed.

Lemma find_scan p word n ms : n < 0 -> find p word n = Ok ms -> scan p word 0 ms.
Proof.
  unfold find; intros Hn H.
  destruct (find_loop _ p word n 0 []) as [ms'| | | | |] eqn:E; try discriminate.
  injection H as ->; apply find_loop_scan in E; [|exact Hn]; destruct E as (tl & -> & Hs); exact Hs.
Qed.

(** ** Limiting the number of matches *)
Lemma find_loop_more fuel fuel' p word n off acc :
  (fuel <= fuel')%nat -> find_loop fuel p word n off acc <> NoFuel ->
  find_loop fuel' p word n off acc = find_loop fuel p word n off acc.
Proof.
  revert fuel' off acc; induction fuel as [|fuel IH]; intros fuel' off acc Hle H; [contradiction|].
  destruct fuel' as [|fuel']; [lia|]; cbn [find_loop] in *.
  destruct ((off <? len word) && ((n <? 0) || (len acc <? n))); [|reflexivity].
  destruct (slice word off (len word)); cbn [bind] in *; try reflexivity.
  destruct (len _ =? 0); [reflexivity|]; destruct (len _ <? 10); [reflexivity|].
  destruct (pick_start_stop _) as [[start stop]| | | | |]; cbn [bind] in *; try reflexivity.
  destruct (stop - start =? 0); [reflexivity|].
  destruct (negatives_allow _ _ _) as [[|]| | | | |]; cbn [bind] in *; try reflexivity.
  - destruct (slice _ 6 _); cbn [bind] in *; try reflexivity; apply IH; [lia|exact H].
  - apply IH; [lia|exact H].
Qed.

Lemma find_loop_limit fuel p word off acc tl n :
  0 <= n -> len acc <= n ->
  find_loop fuel p word (-1) off acc = Ok (rev acc ++ tl) ->
  find_loop fuel p word n off acc = Ok (rev acc ++ firstn (Z.to_nat (n - len acc)) tl).
Proof.
  intros Hn; revert off acc tl; induction fuel as [|fuel IH]; intros off acc tl Hacc H; [discriminate|].
  cbn [find_loop] in *; change (-1 <? 0) with true in H; cbn [orb] in H; rewrite andb_true_r in H.
  assert (n <? 0 = false) as -> by lia; cbn [orb].
  destruct (off <? len word) eqn:E; cbn [andb].
  - destruct (len acc <? n) eqn:El.
    + destruct (slice word off (len word)) as [rest| | | | |] eqn:Es; cbn [bind] in *; try discriminate.
      destruct (len _ =? 0).
      { injection H as H; rewrite <- (app_nil_r (rev acc)) in H at 1; apply app_inv_head in H; subst tl.
        rewrite firstn_nil, app_nil_r; reflexivity. }
      destruct (len _ <? 10); [discriminate|].
      destruct (pick_start_stop _) as [[start stop]| | | | |]; cbn [bind] in *; try discriminate.
      destruct (stop - start =? 0); [discriminate|].
      destruct (negatives_allow _ _ _) as [[|]| | | | |]; cbn [bind] in *; try discriminate.
      * destruct (slice _ 6 _) as [core| | | | |]; cbn [bind] in *; try discriminate.
        assert (find_loop fuel p word (-1) stop ((start :: stop :: core) :: acc) = Ok (rev acc ++ tl)) as H' by exact H.
        destruct (find_loop_scan fuel p word (-1) stop ((start :: stop :: core) :: acc) (rev acc ++ tl)
                    ltac:(lia) H) as (tl' & Etl & _).
        cbn [rev] in Etl; rewrite <- app_assoc in Etl; apply app_inv_head in Etl; subst tl.
        cbn [app] in H; assert (len ((start :: stop :: core) :: acc) = len acc + 1) as Elen
          by (unfold len; cbn [length]; lia).
        rewrite (IH stop ((start :: stop :: core) :: acc) tl').
        -- rewrite Elen; cbn [rev]; rewrite <- app_assoc; do 2 f_equal.
           replace (Z.to_nat (n - len acc)) with (S (Z.to_nat (n - (len acc + 1)))) by lia; reflexivity.
        -- lia.
        -- cbn [rev]; rewrite <- app_assoc; exact H.
      * apply IH; [exact Hacc|exact H].
    + assert (n - len acc = 0) as -> by lia; cbn [Z.to_nat firstn]; rewrite app_nil_r; reflexivity.
  - injection H as H; rewrite <- (app_nil_r (rev acc)) in H at 1; apply app_inv_head in H; subst tl.
    rewrite firstn_nil, app_nil_r; reflexivity.
Qed.

Lemma find_limit p word n ms :
  0 <= n -> find p word (-1) = Ok ms -> find p word n = Ok (firstn (Z.to_nat n) ms).
Proof.
  unfold find; intros Hn H; change (Z.to_nat (-1)) with 0%nat in H; rewrite Nat.add_0_r in H.
  destruct (find_loop (S (length word)) p word (-1) 0 []) as [ms'| | | | |] eqn:E; try discriminate.
  injection H as ->.
  pose proof (find_loop_limit (S (length word)) p word 0 [] ms n Hn ltac:(unfold len; cbn; lia) E) as H.
  cbn [rev app] in H; change (len (@nil (list Z))) with 0 in H; rewrite Z.sub_0_r in H.
  rewrite (find_loop_more (S (length word))); [rewrite H; reflexivity|lia|rewrite H; discriminate].
Qed.
Lemma find_negative p word n : n < 0 -> find p word n = find p word (-1).
Proof.
  intros Hn; unfold find; replace (Z.to_nat n) with 0%nat by lia; change (Z.to_nat (-1)) with 0%nat.
  assert (forall fuel off acc, find_loop fuel p word n off acc = find_loop fuel p word (-1) off acc) as ->;
    [|reflexivity].
  intros fuel; induction fuel as [|fuel IH]; intros off acc; [reflexivity|]; cbn [find_loop].
  assert (n <? 0 = true) as -> by lia; change (-1 <? 0) with true; cbn [orb].
  destruct (off <? len word); cbn [andb]; [|reflexivity].
  destruct (slice word off (len word)); cbn [bind]; try reflexivity.
  destruct (len _ =? 0); [reflexivity|]; destruct (len _ <? 10); [reflexivity|].
  destruct (pick_start_stop _) as [[start stop]| | | | |]; cbn [bind]; try reflexivity.
  destruct (stop - start =? 0); [reflexivity|].
  destruct (negatives_allow _ _ _) as [[|]| | | | |]; cbn [bind]; try reflexivity.
  - destruct (slice _ 6 _); cbn [bind]; try reflexivity; apply IH.
  - apply IH.
Qed.

(** ** The index array *)
Definition cap_at (c : caps) (i : nat) : Z * Z :=
  match cap_lookup c i with
  | Some (a, b) => (Z.of_nat a, Z.of_nat b)
  | None => (-1, -1)
  end.
Lemma cap_array_length c i n : length (cap_array c i n) = (2 * n)%nat.
Proof.
  revert i; induction n as [|n IH]; intros i; [reflexivity|]; cbn [cap_array].
  destruct (cap_lookup c i) as [[a b]|]; cbn [app length]; rewrite IH; lia.
Qed.
Lemma cap_array_nth c i n k :
  (k < n)%nat ->
  nth_error (cap_array c i n) (2 * k) = Some (fst (cap_at c (i + k))) /\
  nth_error (cap_array c i n) (2 * k + 1) = Some (snd (cap_at c (i + k))).
Proof.
  revert i k; induction n as [|n IH]; intros i k Hk; [lia|]; cbn [cap_array].
  destruct k as [|k].
  - rewrite Nat.add_0_r; unfold cap_at; destruct (cap_lookup c i) as [[a b]|]; split; reflexivity.
  - replace (2 * S k)%nat with (S (S (2 * k))) by lia.
    replace (S (S (2 * k)) + 1)%nat with (S (S (2 * k + 1))) by lia.
    replace (i + S k)%nat with (S i + k)%nat by lia.
    destruct (cap_lookup c i) as [[a b]|]; cbn [app nth_error]; apply IH; lia.
Qed.

Lemma len_map {A B} (f : A -> B) l : len (map f l) = len l.
Proof. unfold len; rewrite map_length; reflexivity. Qed.

(** Group [i] of the raw match (0 is the whole match). *)
Definition group_at (ab : nat * nat) (c : caps) (i : nat) : Z * Z :=
  match i with
  | O => (Z.of_nat (fst ab), Z.of_nat (snd ab))
  | _ => cap_at c i
  end.
Definition off_by (off x : Z) : Z := if x =? -1 then x else x + off.

Section Raw.
  Context (p : pattern) (word : bytes) (off : Z) (a b : nat) (c : caps).
  Hypothesis Hsearch : search (prog (p_re p)) (glyphs (skipn (Z.to_nat off) word)) 0 = Some (a, b, c).

  Lemma raw_hit : raw p word off =
    shift off (Z.of_nat a :: Z.of_nat b :: cap_array c 1 (numcap (p_re p))).
  Proof. unfold raw, find_submatch_index; rewrite Hsearch; reflexivity. Qed.
  Lemma raw_len : len (raw p word off) = 2 * Z.of_nat (numcap (p_re p)) + 2.
  Proof.
    rewrite raw_hit; unfold shift; rewrite len_map; unfold len; cbn [length]; rewrite cap_array_length; lia.
  Qed.
  Lemma raw_index k : (k <= numcap (p_re p))%nat ->
    index (raw p word off) (2 * Z.of_nat k) = Ok (off_by off (fst (group_at (a, b) c k))) /\
    index (raw p word off) (2 * Z.of_nat k + 1) = Ok (off_by off (snd (group_at (a, b) c k))).
  Proof.
    intros Hk; rewrite raw_hit; unfold index, shift.
    replace (0 <=? 2 * Z.of_nat k) with true by lia.
    replace (0 <=? 2 * Z.of_nat k + 1) with true by lia.
    replace (Z.to_nat (2 * Z.of_nat k)) with (2 * k)%nat by lia.
    replace (Z.to_nat (2 * Z.of_nat k + 1)) with (2 * k + 1)%nat by lia.
    rewrite !nth_error_map; destruct k as [|k]; [split; reflexivity|].
    replace (2 * S k)%nat with (S (S (2 * k))) by lia.
    replace (S (S (2 * k)) + 1)%nat with (S (S (2 * k + 1))) by lia.
    cbn [nth_error]; destruct (cap_array_nth c 1 (numcap (p_re p)) k ltac:(lia)) as [E1 E2].
    rewrite E1, E2; cbn [option_map]; change (1 + k)%nat with (S k); split; reflexivity.
  Qed.
End Raw.

Lemma raw_miss p word off :
  search (prog (p_re p)) (glyphs (skipn (Z.to_nat off) word)) 0 = None -> raw p word off = [].
Proof. intros H; unfold raw, find_submatch_index; rewrite H; reflexivity. Qed.

(** ** Well grouped expressions *)

(** The alternatives of an expression and the sequence of items of each. *)
Definition branches (r : re) : list re := match r with RAlt l => l | _ => [r] end.
Definition items (r : re) : list re :=
  match r with RCat l => l | REmpty => [] | _ => [r] end.

Definition mentions (is_ : list nat) (l : list re) : bool :=
  existsb (fun e => existsb (Nat.eqb (fst e)) is_) (flat_map recaps l).

(** Removes the two leading groups 1 and 2, if they are there. *)
Definition strip_left (l : list re) : list re * list re :=
  match l with
  | RCap 1 x :: RCap 2 y :: rest => ([x; y], rest)
  | _ => ([], l)
  end.
(** Removes the two trailing groups [n - 1] and [n], if they are there. *)
Definition strip_right (n : nat) (l : list re) : list re * list re :=
  match rev l with
  | RCap j y :: RCap i x :: rest =>
    if (j =? n)%nat && (S i =? n)%nat then ([x; y], rev rest) else ([], l)
  | _ => ([], l)
  end.

(** The items of a branch before, in and after the part that is reported. *)
Definition left_items (r : re) : list re :=
  match fst (strip_left (items r)) with [] => [] | _ => firstn 2 (items r) end.
Definition core_items (n : nat) (r : re) : list re := snd (strip_right n (snd (strip_left (items r)))).
Definition right_items (n : nat) (r : re) : list re :=
  let l := snd (strip_left (items r)) in
  match fst (strip_right n l) with [] => [] | _ => skipn (length l - 2) l end.

(** The groups 1, 2, [n - 1] and [n] are nowhere else. *)
Definition branch_groups (n : nat) (r : re) : bool :=
  let '(lhs, l1) := strip_left (items r) in
  let '(rhs, mid) := strip_right n l1 in
  negb (mentions [1; 2; n - 1; n]%nat (lhs ++ mid ++ rhs)).
Definition branch_ok (n : nat) (r : re) : bool :=
  branch_groups n r && negb (nullable (simplify (RCat (core_items n r)))).

Definition grouped (r : re) (n : nat) : bool :=
  (4 <=? n)%nat && forallb (branch_groups n) (branches r).
Definition well_grouped (r : re) (n : nat) : bool :=
  (4 <=? n)%nat && forallb (branch_ok n) (branches r).
Lemma well_grouped_grouped r n : well_grouped r n = true -> grouped r n = true.
Proof.
  unfold well_grouped, grouped; intros H; apply andb_true_iff in H; destruct H as [H1 H2].
  apply andb_true_iff; split; [exact H1|]; rewrite forallb_forall in *; intros x Hx; specialize (H2 x Hx).
  unfold branch_ok in H2; apply andb_true_iff in H2; apply H2.
Qed.

Definition safe_pattern (p : pattern) : bool :=
  well_grouped (tree (p_re p)) (numcap (p_re p)).

(** A pattern made by NewPattern runs the program of its tree. *)
Definition compiled (p : pattern) : Prop := prog (p_re p) = simplify (tree (p_re p)).

Lemma new_pattern_compiled e m v p : new_pattern e m v = Ok p -> compiled p.
Proof.
  unfold new_pattern; destruct e as [|ch e]; [discriminate|].
  destruct (expand_vars _ _) as [re0 used].
  destruct (expand_lookaround re0) as [[[[[re1 na] nb] wa] wb]| | | | |]; cbn [bind]; try discriminate.
  unfold compile_re at 1; destruct (parse_re _) as [[r n]| | | | |]; cbn [bind]; try discriminate.
  destruct (compile_opt na) as [x1| | | | |]; cbn [bind]; try discriminate.
  destruct (compile_opt nb) as [x2| | | | |]; cbn [bind]; try discriminate.
  intros E; assert (forall (x y : pattern), Ok x = Ok y -> x = y) as Hinj by (intros x y H; injection H; auto).
  apply Hinj in E; subst p; reflexivity.
Qed.

Lemma runs_items r s p c s' p' c' :
  runs (simplify r) s p c s' p' c' -> runs_seq (items r) s p c s' p' c'.
Proof.
  intros H; destruct r; cbn [items]; try (econstructor; [exact H|constructor]).
  - inversion H; subst; constructor.
  - apply runs_cat; exact H.
Qed.
Lemma runs_branches r s p c s' p' c' :
  runs (simplify r) s p c s' p' c' -> exists r', In r' (branches r) /\ runs (simplify r') s p c s' p' c'.
Proof.
  intros H; destruct r; try (eexists; split; [left; reflexivity|exact H]).
  apply runs_alt in H; exact H.
Qed.

(** Groups that an expression does not mention keep their captures. *)
Lemma lookup_app new c i :
  (forall e, In e new -> fst e <> i) -> cap_lookup (new ++ c) i = cap_lookup c i.
Proof.
  induction new as [|[j ab] new IH]; intros H; [reflexivity|]; cbn [app cap_lookup].
  destruct (Nat.eqb_spec j i) as [->|_]; [exfalso; apply (H (i, ab)); [left; reflexivity|reflexivity]|].
  apply IH; intros e He; apply H; right; exact He.
Qed.
Lemma mentions_false is_ l i r e :
  mentions is_ l = false -> In i is_ -> In r l -> In e (recaps r) -> fst e <> i.
Proof.
  intros Hm Hi Hr He E.
  assert (mentions is_ l = true) as H; [|congruence].
  apply existsb_exists; exists e; split; [apply in_flat_map; exists r; split; assumption|].
  apply existsb_exists; exists i; split; [exact Hi|apply Nat.eqb_eq; exact E].
Qed.
Lemma mentions_app is_ a b : mentions is_ (a ++ b) = mentions is_ a || mentions is_ b.
Proof. unfold mentions; rewrite flat_map_app, existsb_app; reflexivity. Qed.

Lemma runs_unmentioned is_ r i s p c s' p' c' :
  mentions is_ [r] = false -> In i is_ -> runs (simplify r) s p c s' p' c' ->
  cap_lookup c' i = cap_lookup c i.
Proof.
  intros Hm Hi H; destruct (runs_caps _ _ _ _ _ _ _ H) as (new & -> & Hn).
  apply lookup_app; intros [j [a b]] He; rewrite Forall_forall in Hn.
  destruct (Hn _ He) as (x & u & v & w & c0 & c1 & Hin & _).
  apply xcaps_simplify in Hin; destruct Hin as (r' & Hin & _).
  eapply (mentions_false is_ [r] i r (j, r')); [exact Hm|exact Hi|left; reflexivity|exact Hin].
Qed.
Lemma seq_unmentioned is_ l i s p c s' p' c' :
  mentions is_ l = false -> In i is_ -> runs_seq l s p c s' p' c' ->
  cap_lookup c' i = cap_lookup c i.
Proof.
  intros Hm Hi H; induction H as [s p c|r l s p c s1 p1 c1 s2 p2 c2 H1 H2 IH]; [reflexivity|].
  change (r :: l) with ([r] ++ l) in Hm; rewrite mentions_app in Hm; apply orb_false_iff in Hm.
  rewrite IH by tauto; eapply runs_unmentioned; [apply Hm|exact Hi|exact H1].
Qed.
Lemma seq_consumes l s p c s' p' c' :
  runs_seq l s p c s' p' c' -> exists u, s = u ++ s' /\ p' = (p + gwidth u)%nat.
Proof. intros H; apply runs_cat in H; eapply runs_consumes; exact H. Qed.

(** The shape of a match of a well grouped branch: before, core, after. *)
Lemma branch_shape n r s p s' p' c' :
  branch_groups n r = true -> (4 <= n)%nat -> runs (simplify r) s p [] s' p' c' ->
  exists u v w, s = u ++ v ++ w ++ s' /\ p' = (p + gwidth u + gwidth v + gwidth w)%nat /\
    (nullable (simplify (RCat (core_items n r))) = false -> v <> []) /\
    match cap_lookup c' 2 with
    | Some (_, e) => e = (p + gwidth u)%nat
    | None => u = []
    end /\
    match cap_lookup c' (n - 1) with
    | Some (e, _) => e = (p + gwidth u + gwidth v)%nat
    | None => w = []
    end /\
    exists c1 c2,
      runs_seq (left_items r) s p [] (v ++ w ++ s') (p + gwidth u) c1 /\
      runs_seq (core_items n r) (v ++ w ++ s') (p + gwidth u) c1 (w ++ s') (p + gwidth u + gwidth v) c2 /\
      runs_seq (right_items n r) (w ++ s') (p + gwidth u + gwidth v) c2 s' p' c'.
Proof.
  intros Hok Hn H; apply runs_items in H; unfold branch_groups in Hok.
  unfold left_items, core_items, right_items.
  destruct (strip_left (items r)) as [lhs l1] eqn:El; cbn [fst snd].
  destruct (strip_right n l1) as [rhs mid] eqn:Er; cbn [fst snd].
  rename Hok into Hm; apply negb_true_iff in Hm.
  rewrite !mentions_app in Hm; apply orb_false_iff in Hm; destruct Hm as [Hml Hm].
  apply orb_false_iff in Hm; destruct Hm as [Hmm Hmr].
  (* the leading groups *)
  assert (exists s1 p1 c1 u, s = u ++ s1 /\ p1 = (p + gwidth u)%nat /\ runs_seq l1 s1 p1 c1 s' p' c' /\
    match cap_lookup c1 2 with Some (_, e) => e = p1 | None => u = [] end /\
    cap_lookup c1 (n - 1) = None /\
    runs_seq match lhs with [] => [] | _ => firstn 2 (items r) end s p [] s1 p1 c1)
    as (s1 & p1 & c1 & u & Es & Ep1 & H1 & Hc2 & Hcn & Hleft).
  { unfold strip_left in El; destruct (items r) as [|r1 l] eqn:Ei.
    { injection El as <- <-; exists s, p, [], []; rewrite gwidth_nil, Nat.add_0_r; repeat split; [exact H|constructor]. }
    assert (([], r1 :: l) = (lhs, l1) ->
      exists s1 p1 c1 u, s = u ++ s1 /\ p1 = (p + gwidth u)%nat /\ runs_seq l1 s1 p1 c1 s' p' c' /\
      match cap_lookup c1 2 with Some (_, e) => e = p1 | None => u = [] end /\
      cap_lookup c1 (n - 1) = None /\
      runs_seq match lhs with [] => [] | _ => firstn 2 (r1 :: l) end s p [] s1 p1 c1) as Hplain.
    { intros E; injection E as <- <-; exists s, p, [], []; rewrite gwidth_nil, Nat.add_0_r; repeat split; [exact H|constructor]. }
    destruct r1 as [| | | | | | | |[|[|i1]] x1| | | | | |]; try (apply Hplain; exact El).
    destruct l as [|r2 l]; try (apply Hplain; exact El).
    destruct r2 as [| | | | | | | |[|[|[|i2]]] x2| | | | | |]; try (apply Hplain; exact El).
    injection El as <- <-.
    inversion H as [|q1 q2 t0 d0 e0 s1 p1 c1 t2 d2 e2 Ha Hb]; subst; clear H.
    inversion Hb as [|q1 q2 t0 d0 e0 s2 p2 c2 t2 d2 e2 Hb' Hc]; subst; clear Hb.
    assert (runs_seq [RCap 1 x1; RCap 2 x2] s p [] s2 p2 c2) as Hleft
      by (econstructor; [exact Ha|econstructor; [exact Hb'|constructor]]).
    cbn [simplify] in Ha, Hb'.
    inversion Ha as [| | | |i0 x0 a0 a1 a2 a3 a4 c1' Ha'| | | | |]; subst.
    inversion Hb' as [| | | |i0 x0 a0 a1 a2 a3 a4 c2' Hb''| | | | |]; subst.
    destruct (runs_consumes _ _ _ _ _ _ _ Ha') as (u1 & -> & ->).
    destruct (runs_consumes _ _ _ _ _ _ _ Hb'') as (u2 & -> & ->).
    exists s2, (p + gwidth u1 + gwidth u2)%nat, ((2%nat, ((p + gwidth u1)%nat, (p + gwidth u1 + gwidth u2)%nat)) :: c2'),
      (u1 ++ u2).
    change [x1; x2] with ([x1] ++ [x2]) in Hml; rewrite mentions_app in Hml; apply orb_false_iff in Hml.
    split; [apply app_assoc|]; split; [rewrite gwidth_app; lia|]; split; [exact Hc|].
    split; [reflexivity|]; split; [|exact Hleft]; cbn [cap_lookup].
    destruct (Nat.eqb_spec 2 (n - 1)) as [E|_]; [lia|].
    rewrite (runs_unmentioned [1; 2; n - 1; n]%nat x2 (n - 1) _ _ _ _ _ _ (proj2 Hml) ltac:(cbn; tauto) Hb'').
    cbn [cap_lookup]; destruct (Nat.eqb_spec 1 (n - 1)) as [E|_]; [lia|].
    rewrite (runs_unmentioned [1; 2; n - 1; n]%nat x1 (n - 1) _ _ _ _ _ _ (proj1 Hml) ltac:(cbn; tauto) Ha').
    reflexivity. }
  (* the trailing groups *)
  assert (exists s2 p2 c2 w, s2 = w ++ s' /\ p' = (p2 + gwidth w)%nat /\ runs_seq mid s1 p1 c1 s2 p2 c2 /\
    cap_lookup c' 2 = cap_lookup c2 2 /\
    match cap_lookup c' (n - 1) with Some (e, _) => e = p2 | None => w = [] end /\
    runs_seq match rhs with [] => [] | _ => skipn (length l1 - 2) l1 end s2 p2 c2 s' p' c')
    as (s2 & p2 & c2 & w & Es2 & Ep' & H2 & Hc2' & Hcn' & Hright).
  { unfold strip_right in Er.
    assert (([], l1) = (rhs, mid) ->
      exists s2 p2 c2 w, s2 = w ++ s' /\ p' = (p2 + gwidth w)%nat /\ runs_seq mid s1 p1 c1 s2 p2 c2 /\
      cap_lookup c' 2 = cap_lookup c2 2 /\
      match cap_lookup c' (n - 1) with Some (e, _) => e = p2 | None => w = [] end /\
      runs_seq match rhs with [] => [] | _ => skipn (length l1 - 2) l1 end s2 p2 c2 s' p' c') as Hplain.
    { intros E; injection E as <- <-; exists s', p', c', []; rewrite gwidth_nil, Nat.add_0_r.
      repeat split; [exact H1| |constructor].
      rewrite (seq_unmentioned [1; 2; n - 1; n]%nat l1 (n - 1) _ _ _ _ _ _ Hmm ltac:(cbn; tauto) H1), Hcn.
      reflexivity. }
    destruct (rev l1) as [|r1 l] eqn:Erev; [apply Hplain; exact Er|].
    destruct r1 as [| | | | | | | |j y| | | | | |]; try (apply Hplain; exact Er).
    destruct l as [|r2 l]; try (apply Hplain; exact Er).
    destruct r2 as [| | | | | | | |i x| | | | | |]; try (apply Hplain; exact Er).
    destruct ((j =? n)%nat && (S i =? n)%nat) eqn:E; [|apply Hplain; exact Er].
    apply andb_true_iff in E; destruct E as [Ej Ei]; apply Nat.eqb_eq in Ej; apply Nat.eqb_eq in Ei.
    injection Er as <- <-.
    assert (l1 = rev l ++ [RCap i x; RCap j y]) as El1.
    { rewrite <- (rev_involutive l1), Erev; cbn [rev]; rewrite <- app_assoc; reflexivity. }
    assert (skipn (length l1 - 2) l1 = [RCap i x; RCap j y]) as Esk.
    { rewrite El1, app_length; cbn [length]; replace (length (rev l) + 2 - 2)%nat with (length (rev l)) by lia.
      rewrite skipn_app, skipn_all, Nat.sub_diag; reflexivity. }
    rewrite Esk; clear Esk.
    rewrite El1 in H1; apply runs_seq_app in H1; destruct H1 as (s2 & p2 & c2 & H1 & Hx).
    pose proof Hx as Hright.
    inversion Hx as [|q1 q2 t0 d0 e0 s3 p3 c3 t2 d2 e2 Ha Hb]; subst; clear Hx.
    inversion Hb as [|q1 q2 t0 d0 e0 s4 p4 c4 t2 d2 e2 Hb' Hc]; subst; clear Hb.
    inversion Hc; subst; clear Hc.
    cbn [simplify] in Ha, Hb'.
    inversion Ha as [| | | |i0 x0 a0 a1 a2 a3 a4 c3' Ha'| | | | |]; subst.
    inversion Hb' as [| | | |i0 x0 a0 a1 a2 a3 a4 c4' Hb''| | | | |]; subst.
    destruct (runs_consumes _ _ _ _ _ _ _ Ha') as (u1 & -> & ->).
    destruct (runs_consumes _ _ _ _ _ _ _ Hb'') as (u2 & -> & ->).
    change [x; y] with ([x] ++ [y]) in Hmr; rewrite mentions_app in Hmr; apply orb_false_iff in Hmr.
    destruct Hmr as [Hmx Hmy].
    replace (S i - 1)%nat with i in * by lia.
    exists (u1 ++ u2 ++ s'), p2, c2, (u1 ++ u2); split; [apply app_assoc|].
    split; [rewrite gwidth_app; lia|]; split; [exact H1|].
    cbn [cap_lookup].
    destruct (Nat.eqb_spec (S i) 2) as [E|_]; [lia|].
    destruct (Nat.eqb_spec (S i) i) as [E|_]; [lia|].
    rewrite (runs_unmentioned _ y 2 _ _ _ _ _ _ Hmy ltac:(cbn; tauto) Hb'').
    rewrite (runs_unmentioned _ y i _ _ _ _ _ _ Hmy ltac:(cbn; tauto) Hb'').
    cbn [cap_lookup].
    destruct (Nat.eqb_spec i 2) as [E|_]; [lia|].
    rewrite Nat.eqb_refl.
    rewrite (runs_unmentioned _ x 2 _ _ _ _ _ _ Hmx ltac:(cbn; tauto) Ha').
    split; [reflexivity|]; split; [reflexivity|].
    exact Hright. }
  apply runs_cat in H2; destruct (runs_consumes _ _ _ _ _ _ _ H2) as (v & Ev & Ep2).
  assert (nullable (simplify (RCat mid)) = false -> v <> []) as Hv.
  { intros Hnull; destruct (runs_nullable _ _ _ _ _ _ _ H2 Hnull) as (v' & Hv & Ev').
    assert (v' = v) as -> by (apply (app_inv_tail s2); rewrite <- Ev, <- Ev'; reflexivity); exact Hv. }
  apply runs_cat in H2.
  exists u, v, w; subst s s1 s2 p2 p1 p'; split; [reflexivity|]; split; [reflexivity|]; split; [exact Hv|].
  split.
  - rewrite Hc2', (seq_unmentioned [1; 2; n - 1; n]%nat mid 2 _ _ _ _ _ _ Hmm ltac:(cbn; tauto) H2); exact Hc2.
  - split; [exact Hcn'|]; exists c1, c2; split; [exact Hleft|]; split; [exact H2|exact Hright].
Qed.

Definition boundary (word : bytes) (i : Z) : Prop :=
  exists u v, glyphs word = u ++ v /\ i = Z.of_nat (gwidth u).

Lemma boundary_skipn word u v : glyphs word = u ++ v -> glyphs (skipn (gwidth u) word) = v.
Proof. apply glyphs_split. Qed.
Lemma boundary_le word i : boundary word i -> 0 <= i <= len word.
Proof.
  intros (u & v & H & ->); unfold len; rewrite <- gwidth_glyphs, H, gwidth_app; lia.
Qed.
Lemma off_by_nat off (x : nat) : off_by off (Z.of_nat x) = Z.of_nat x + off.
Proof. unfold off_by; destruct (Z.of_nat x =? -1) eqn:E; [lia|reflexivity]. Qed.

(** The matches found from [lo] on. *)
Inductive ordered (word : bytes) : Z -> list (list Z) -> Prop :=
| ordered_nil lo : ordered word lo []
| ordered_cons lo start stop core ms :
    lo <= start < stop -> boundary word start -> boundary word stop ->
    ordered word stop ms -> ordered word lo ((start :: stop :: core) :: ms).

Lemma ordered_weaken word lo lo' ms : lo' <= lo -> ordered word lo ms -> ordered word lo' ms.
Proof. intros H; destruct 1; constructor; auto; lia. Qed.

Section Grouped.
  Context (p : pattern) (word : bytes).
  Hypothesis Hcomp : compiled p.
  Hypothesis Hgroup : grouped (tree (p_re p)) (numcap (p_re p)) = true.

  Lemma grouped_numcap : (4 <= numcap (p_re p))%nat.
  Proof. unfold grouped in Hgroup; apply andb_true_iff in Hgroup; lia. Qed.

  Lemma grouped_pick_at off a b c :
    0 <= off ->
    search (prog (p_re p)) (glyphs (skipn (Z.to_nat off) word)) 0 = Some (a, b, c) ->
    exists u v w, glyphs (skipn (Z.to_nat off) word) = u ++ v ++ w /\
      pick_start_stop (raw p word off)
      = Ok (off + Z.of_nat (gwidth u), off + Z.of_nat (gwidth u) + Z.of_nat (gwidth v)) /\
      exists r u0 u1 w1 w2 c1 c2, u = u0 ++ u1 /\ w = w1 ++ w2 /\ In r (branches (tree (p_re p))) /\
        (nullable (simplify (RCat (core_items (numcap (p_re p)) r))) = false -> v <> []) /\
        runs_seq (left_items r) (u1 ++ v ++ w) (gwidth u0) [] (v ++ w) (gwidth u) c1 /\
        runs_seq (core_items (numcap (p_re p)) r) (v ++ w) (gwidth u) c1 w (gwidth u + gwidth v) c2 /\
        runs_seq (right_items (numcap (p_re p)) r) w (gwidth u + gwidth v) c2
                 w2 (gwidth u + gwidth v + gwidth w1) c /\
        a = gwidth u0.
  Proof.
    intros Hoff Hs; pose proof grouped_numcap as Hn.
    pose proof (raw_index p word off a b c Hs 2 ltac:(lia)) as [_ H5].
    pose proof (raw_index p word off a b c Hs 0 ltac:(lia)) as [H0 H1].
    pose proof (raw_index p word off a b c Hs (numcap (p_re p) - 1) ltac:(lia)) as [H4 _].
    pose proof (raw_len p word off a b c Hs) as Hlen.
    destruct (search_sound _ _ _ _ _ _ Hs) as (u0 & v0 & s' & Es & Ea & Eb & Hr).
    rewrite Hcomp in Hr; apply runs_branches in Hr; destruct Hr as (r & Hin & Hr).
    unfold grouped in Hgroup; apply andb_true_iff in Hgroup; destruct Hgroup as [_ Hall].
    rewrite forallb_forall in Hall; specialize (Hall _ Hin).
    destruct (branch_shape _ _ _ _ _ _ _ Hall Hn Hr) as (u & v & w & Ev & Ep & Hv & Hc2 & Hcn & Hparts).
    assert (v0 = u ++ v ++ w) as Ev0.
    { apply (app_inv_tail s'); rewrite Ev, <- !app_assoc; reflexivity. }
    exists (u0 ++ u), v, (w ++ s'); split; [rewrite Es, Ev0, <- !app_assoc; reflexivity|].
    split.
    2:{ destruct Hparts as (c1 & c2 & P1 & P2 & P3); exists r, u0, u, w, s', c1, c2.
        split; [reflexivity|]; split; [reflexivity|]; split; [exact Hin|]; split; [exact Hv|].
        rewrite !Nat.add_0_l in *; rewrite gwidth_app; subst a v0; rewrite <- !app_assoc in *.
        split; [exact P1|]; split; [exact P2|]; rewrite Ep in P3; split; [exact P3|reflexivity]. }
    change (2 * Z.of_nat 2 + 1) with 5 in H5; change (2 * Z.of_nat 0) with 0 in H0.
    change (2 * Z.of_nat 0 + 1) with 1 in H1.
    replace (2 * Z.of_nat (numcap (p_re p) - 1)) with (len (raw p word off) - 4) in H4 by lia.
    unfold pick_start_stop; rewrite H5, H4, H0, H1; cbn [bind].
    assert (group_at (a, b) c 2 = cap_at c 2) as -> by reflexivity.
    assert (group_at (a, b) c (numcap (p_re p) - 1) = cap_at c (numcap (p_re p) - 1)) as ->.
    { destruct (numcap (p_re p) - 1)%nat eqn:E; [lia|reflexivity]. }
    cbn [group_at fst snd]; unfold cap_at.
    rewrite gwidth_app.
    destruct (cap_lookup c 2) as [[g1 g2]|]; destruct (cap_lookup c (numcap (p_re p) - 1)) as [[h1 h2]|];
      cbn [fst snd]; rewrite ?off_by_nat; subst; try change (off_by off (-1)) with (-1);
      rewrite ?Z.eqb_refl; rewrite ?gwidth_nil in *;
      repeat match goal with |- context [?x =? -1] => destruct (x =? -1) eqn:?; [lia|] end;
      cbn [bind]; do 2 f_equal; lia.
  Qed.

  Lemma grouped_pick off a b c :
    0 <= off ->
    search (prog (p_re p)) (glyphs (skipn (Z.to_nat off) word)) 0 = Some (a, b, c) ->
    exists u v w, glyphs (skipn (Z.to_nat off) word) = u ++ v ++ w /\
      pick_start_stop (raw p word off)
      = Ok (off + Z.of_nat (gwidth u), off + Z.of_nat (gwidth u) + Z.of_nat (gwidth v)) /\
      exists r u0 u1 w1 w2 c1 c2, u = u0 ++ u1 /\ w = w1 ++ w2 /\ In r (branches (tree (p_re p))) /\
        (nullable (simplify (RCat (core_items (numcap (p_re p)) r))) = false -> v <> []) /\
        runs_seq (left_items r) (u1 ++ v ++ w) (gwidth u0) [] (v ++ w) (gwidth u) c1 /\
        runs_seq (core_items (numcap (p_re p)) r) (v ++ w) (gwidth u) c1 w (gwidth u + gwidth v) c2 /\
        runs_seq (right_items (numcap (p_re p)) r) w (gwidth u + gwidth v) c2
                 w2 (gwidth u + gwidth v + gwidth w1) c.
  Proof.
    intros Hoff Hs; destruct (grouped_pick_at off a b c Hoff Hs)
      as (u & v & w & Eg & Ep & r & u0 & u1 & w1 & w2 & c1 & c2 & E1 & E2 & Hin & Hv & R1 & R2 & R3 & _).
    exists u, v, w; split; [exact Eg|]; split; [exact Ep|]; exists r, u0, u1, w1, w2, c1, c2; auto 8.
  Qed.

  Lemma negatives_total off a b c :
    search (prog (p_re p)) (glyphs (skipn (Z.to_nat off) word)) 0 = Some (a, b, c) ->
    exists ok, negatives_allow p word (raw p word off) = Ok ok.
  Proof.
    intros Hs; pose proof grouped_numcap as Hn.
    pose proof (raw_index p word off a b c Hs 2 ltac:(lia)) as [_ H5].
    pose proof (raw_index p word off a b c Hs (numcap (p_re p) - 1) ltac:(lia)) as [H4 _].
    pose proof (raw_len p word off a b c Hs) as Hlen.
    change (2 * Z.of_nat 2 + 1) with 5 in H5.
    replace (2 * Z.of_nat (numcap (p_re p) - 1)) with (len (raw p word off) - 4) in H4 by lia.
    unfold negatives_allow; rewrite H4, H5; cbn [bind].
    destruct (p_negA p) as [ea|]; cbn [bind].
    - destruct (negb _); cbn [bind]; [|eexists; reflexivity].
      destruct (p_negB p); eexists; reflexivity.
    - destruct (p_negB p); eexists; reflexivity.
  Qed.

  (** Whether some alternative may match nothing. *)
  Definition solid : Prop := forall r, In r (branches (tree (p_re p))) ->
    nullable (simplify (RCat (core_items (numcap (p_re p)) r))) = false.

  (** Some alternative matches nothing, somewhere. *)
  Definition emptied : Prop := exists r pre post, In r (branches (tree (p_re p))) /\
    rmatch (RCat (core_items (numcap (p_re p)) r)) pre [] post.
  Lemma emptied_not_solid : emptied -> ~ solid.
  Proof.
    intros (r & pre & post & Hin & Hm) Hs; specialize (Hs r Hin).
    pose (p0 := length pre); assert (at_start pre p0) as Ha.
    { unfold p0; destruct pre; split; intros; try reflexivity; discriminate. }
    pose (s' := map (fun x : rune => (x, 1%nat)) post).
    assert (wide s') as Hw by (unfold s', wide; apply Forall_map, Forall_forall; intros; cbn; lia).
    assert (runes_of s' = post) as Er.
    { unfold s', runes_of; rewrite map_map; cbn [fst]; apply map_id. }
    destruct (proj2 (means_simplify (RCat (core_items (numcap (p_re p)) r))) [] s' p0 pre Hw Ha
                ltac:(rewrite Er; exact Hm) []) as (c' & Hr).
    destruct (runs_nullable _ _ _ _ _ _ _ Hr Hs) as (v & Hv & E); cbn [app] in E.
    symmetry in E; apply app_self_nil in E; contradiction.
  Qed.

  Lemma find_loop_grouped n fuel off acc :
    boundary word off -> (Z.to_nat (len word - off) < fuel)%nat ->
    (exists ms, find_loop fuel p word n off acc = Ok (rev acc ++ ms) /\ ordered word off ms) \/
    (find_loop fuel p word n off acc = Panic PZeroWidth /\ emptied).
  Proof.
    revert off acc; induction fuel as [|fuel IH]; intros off acc Hb Hf; [lia|].
    pose proof (boundary_le _ _ Hb) as Hle; cbn [find_loop].
    destruct ((off <? len word) && ((n <? 0) || (len acc <? n))) eqn:E.
    2:{ left; exists []; rewrite app_nil_r; split; [reflexivity|constructor]. }
    assert (slice word off (len word) = Ok (skipn (Z.to_nat off) word)) as ->.
    { unfold slice; replace ((0 <=? off) && (off <=? len word) && (len word <=? len word)) with true by lia.
      f_equal; apply firstn_all2; rewrite skipn_length; unfold len in *; lia. }
    cbn [bind].
    change (shift off (find_submatch_index (p_re p) (skipn (Z.to_nat off) word))) with (raw p word off).
    destruct (search (prog (p_re p)) (glyphs (skipn (Z.to_nat off) word)) 0) as [[[a b] c]|] eqn:Es.
    2:{ rewrite (raw_miss _ _ _ Es); left; exists []; rewrite app_nil_r; split; [reflexivity|constructor]. }
    pose proof grouped_numcap as Hn; pose proof (raw_len p word off a b c Es) as Hlen.
    replace (len (raw p word off) =? 0) with false by lia.
    replace (len (raw p word off) <? 10) with false by lia.
    destruct (grouped_pick off a b c ltac:(lia) Es)
      as (u & v & w & Eg & -> & r & u0' & u1' & w1' & w2' & c1' & c2' & _ & _ & Hin & _ & _ & Hrun & _); cbn [bind].
    destruct v as [|g v].
    { right; rewrite gwidth_nil; match goal with |- context [?x =? 0] => replace (x =? 0) with true by lia end.
      split; [reflexivity|]; exists r, (runes_of u), (runes_of w); split; [exact Hin|].
      cbn [app] in Hrun; rewrite gwidth_nil, Nat.add_0_r in Hrun; apply runs_cat in Hrun.
      pose proof (glyphs_width_pos (skipn (Z.to_nat off) word)) as Hw; rewrite Eg in Hw; apply wide_app in Hw.
      cbn [app] in Hw; destruct Hw as [Hwu Hww].
      eapply (proj1 (means_simplify _) []); [exact Hww| |exact Hrun].
      refine (at_start_app [] 0 u _ Hwu); split; reflexivity. }
    assert (0 < gwidth (g :: v))%nat as Hvp.
    { apply gwidth_pos; [|discriminate]; pose proof (glyphs_width_pos (skipn (Z.to_nat off) word)) as Hw.
      rewrite Eg in Hw; apply Forall_app in Hw; destruct Hw as [_ Hw]; apply Forall_app in Hw; apply Hw. }
    remember (g :: v) as v0 eqn:Ev0; clear g v Ev0 Hrun; rename v0 into v.
    match goal with |- context [?x =? 0] => replace (x =? 0) with false by lia end.
    destruct Hb as (u0 & v0 & Ew & Eoff).
    pose proof (boundary_skipn _ _ _ Ew) as Ev0; rewrite Eoff, Nat2Z.id in Eg; rewrite Ev0 in Eg; subst v0.
    assert (boundary word (off + Z.of_nat (gwidth u))) as Hb1.
    { exists (u0 ++ u), (v ++ w); split; [rewrite Ew, <- app_assoc; reflexivity|rewrite gwidth_app; lia]. }
    assert (boundary word (off + Z.of_nat (gwidth u) + Z.of_nat (gwidth v))) as Hb2.
    { exists (u0 ++ u ++ v), w; split; [rewrite Ew, <- !app_assoc; reflexivity|rewrite !gwidth_app; lia]. }
    pose proof (boundary_le _ _ Hb2) as Hle2.
    destruct (negatives_total off a b c Es) as (ok & ->); cbn [bind]; destruct ok.
    - assert (exists core, slice (raw p word off) 6 (len (raw p word off) - 4) = Ok core) as (core & ->).
      { unfold slice; match goal with |- context [if ?x then _ else _] => replace x with true by lia end.
        eexists; reflexivity. }
      cbn [bind].
      destruct (IH (off + Z.of_nat (gwidth u) + Z.of_nat (gwidth v))
                   ((off + Z.of_nat (gwidth u) :: off + Z.of_nat (gwidth u) + Z.of_nat (gwidth v) :: core) :: acc)
                   Hb2 ltac:(lia)) as [(ms & -> & Hms)|[-> Hz]]; [|right; split; [reflexivity|exact Hz]].
      left; exists ((off + Z.of_nat (gwidth u) :: off + Z.of_nat (gwidth u) + Z.of_nat (gwidth v) :: core) :: ms).
      split; [cbn [rev]; rewrite <- app_assoc; reflexivity|].
      constructor; [lia|exact Hb1|exact Hb2|exact Hms].
    - destruct (IH (off + Z.of_nat (gwidth u) + Z.of_nat (gwidth v)) acc Hb2 ltac:(lia))
        as [(ms & -> & Hms)|[-> Hz]]; [|right; split; [reflexivity|exact Hz]].
      left; exists ms; split; [reflexivity|]; eapply ordered_weaken; [|exact Hms]; lia.
  Qed.

  Lemma find_grouped n :
    (exists ms, find p word n = Ok ms /\ ordered word 0 ms) \/ (find p word n = Panic PZeroWidth /\ emptied).
  Proof.
    assert (boundary word 0) as Hb by (exists [], (glyphs word); split; [reflexivity|rewrite gwidth_nil; reflexivity]).
    destruct (find_loop_grouped n (S (length word + Z.to_nat n)) 0 [] Hb ltac:(unfold len; lia))
      as [(ms & E & Hms)|[E Hz]]; unfold find; rewrite E; [left; exists ms; auto|right; auto].
  Qed.
End Grouped.

Lemma well_grouped_solid p : well_grouped (tree (p_re p)) (numcap (p_re p)) = true -> solid p.
Proof.
  unfold well_grouped; intros H r Hin; apply andb_true_iff in H; destruct H as [_ H].
  rewrite forallb_forall in H; specialize (H r Hin); unfold branch_ok in H.
  apply andb_true_iff in H; destruct H as [_ H]; apply negb_true_iff in H; exact H.
Qed.

Section Safe.
  Context (p : pattern) (word : bytes).
  Hypothesis Hcomp : compiled p.
  Hypothesis Hsafe : safe_pattern p = true.

  Lemma safe_numcap : (4 <= numcap (p_re p))%nat.
  Proof. unfold safe_pattern, well_grouped in Hsafe; apply andb_true_iff in Hsafe; lia. Qed.

  Lemma safe_pick off a b c :
    0 <= off ->
    search (prog (p_re p)) (glyphs (skipn (Z.to_nat off) word)) 0 = Some (a, b, c) ->
    exists u v w, glyphs (skipn (Z.to_nat off) word) = u ++ v ++ w /\ v <> [] /\
      pick_start_stop (raw p word off)
      = Ok (off + Z.of_nat (gwidth u), off + Z.of_nat (gwidth u) + Z.of_nat (gwidth v)) /\
      exists r u0 u1 w1 w2 c1 c2, u = u0 ++ u1 /\ w = w1 ++ w2 /\ In r (branches (tree (p_re p))) /\
        runs_seq (left_items r) (u1 ++ v ++ w) (gwidth u0) [] (v ++ w) (gwidth u) c1 /\
        runs_seq (core_items (numcap (p_re p)) r) (v ++ w) (gwidth u) c1 w (gwidth u + gwidth v) c2 /\
        runs_seq (right_items (numcap (p_re p)) r) w (gwidth u + gwidth v) c2
                 w2 (gwidth u + gwidth v + gwidth w1) c.
  Proof.
    intros Hoff Hs; destruct (grouped_pick p word Hcomp (well_grouped_grouped _ _ Hsafe) off a b c Hoff Hs)
      as (u & v & w & Eg & Ep & r & u0 & u1 & w1 & w2 & c1 & c2 & E1 & E2 & Hin & Hv & Hrest).
    exists u, v, w; split; [exact Eg|]; split; [apply Hv, (well_grouped_solid p Hsafe r Hin)|]; split; [exact Ep|].
    exists r, u0, u1, w1, w2, c1, c2; split; [exact E1|]; split; [exact E2|]; split; [exact Hin|exact Hrest].
  Qed.

  Lemma find_safe n : exists ms, find p word n = Ok ms /\ ordered word 0 ms.
  Proof.
    destruct (find_grouped p word Hcomp (well_grouped_grouped _ _ Hsafe) n) as [H|[_ H]]; [exact H|].
    exfalso; apply (emptied_not_solid p H), well_grouped_solid; exact Hsafe.
  Qed.
End Safe.
