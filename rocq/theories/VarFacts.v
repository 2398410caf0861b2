(** Variables: finding them in an expression, expanding them in a pattern and splitting a
    replacement at them. *)
From Coq Require Import String.
From Verif Require Import GoBase Utf8 Utf8Facts Replacer Regex RegexSpec RegexFacts CaptureFacts RegexParse
  ParseFacts ReplaceFacts Hre FindFacts HslInv SourceFacts PatternFacts SrcFacts.
Open Scope N_scope.

(** ** Searching for a variable *)
Definition not_newline : list (N * N) := [(0, 9); (11, 1114111)].
Lemma var_prog : prog reVar =
  XCat (XSet [(0x3C, 0x3C)])
    (XCat (XCap 1 (XCat (XSet not_newline) (XStar false (XSet not_newline)))) (XSet [(0x3E, 0x3E)])).
Proof. vm_compute; reflexivity. Qed.
Lemma in_not_newline r : is_scalar r = true -> r <> 10 -> in_set not_newline r = true.
Proof.
  unfold in_set, not_newline, is_scalar; cbn [existsb fst snd]; unfold rune in *; lia.
Qed.

(** Names: not empty, on one line and without angle brackets. *)
Definition name_char (r : rune) : Prop := r <> 0x3C /\ r <> 0x3E /\ r <> 10.
Definition name_ok (n : list rune) : Prop := n <> [] /\ Forall name_char n /\ scalars n.
Definition no_var (t : list rune) : Prop := Forall (fun r => r <> 0x3C) t.
Definition var_text (n : list rune) : list rune := 0x3C :: n ++ [0x3E].

Lemma name_loop {A} (k : text -> nat -> caps -> option A) n rest x m p c :
  Forall name_char n -> scalars n -> (length n <= length m)%nat ->
  (forall r s p c, r <> 0x3E -> k (gl r :: s) p c = None) ->
  k (gl 0x3E :: rest) (p + gwidth (map gl n))%nat c = Some x ->
  mt_loop false (XSet not_newline) k m (map gl n ++ gl 0x3E :: rest) p c = Some x.
Proof.
  intros Hn Hs Hm Hk Hx; revert m p Hm Hx; induction n as [|r n IH]; intros m p Hm Hx.
  - cbn [map app] in *; rewrite gwidth_nil, Nat.add_0_r in Hx.
    destruct m as [|g m]; cbn [mt_loop]; [exact Hx|rewrite Hx; reflexivity].
  - apply Forall_cons_iff in Hn; destruct Hn as [Hr Hn]; apply Forall_cons_iff in Hs; destruct Hs as [Hsr Hs].
    destruct m as [|g m]; [cbn in Hm; lia|]; cbn [map app mt_loop].
    rewrite Hk by apply Hr; cbn [mt gl]; rewrite in_not_newline by (try apply Hr; exact Hsr).
    pose proof (encode_rune_length r) as Hl.
    destruct (Nat.leb_spec (p + length (encode_rune r))%nat p); [lia|].
    apply IH; [exact Hn|exact Hs|cbn in Hm; lia|].
    cbn [map] in Hx; rewrite gwidth_cons in Hx; cbn [gl snd] in Hx; rewrite Nat.add_assoc in Hx; exact Hx.
Qed.

Lemma mt_var n rest p :
  name_ok n ->
  mt (prog reVar) (map gl (var_text n) ++ rest) p [] (fun _ p' c => Some (p', c)) =
  Some ((p + length (encode (var_text n)))%nat, [(1%nat, (p + 1, p + 1 + length (encode n))%nat)]).
Proof.
  intros (Hne & Hn & Hs); rewrite var_prog; unfold var_text; rewrite map_cons, map_app; cbn [map].
  remember (XStar false (XSet not_newline)) as st eqn:Est.
  rewrite <- app_comm_cons, <- app_assoc; cbn [app].
  cbn [mt gl]; rewrite one_in; destruct n as [|r n]; [contradiction|clear Hne].
  apply Forall_cons_iff in Hn; destruct Hn as [Hr Hn]; apply Forall_cons_iff in Hs; destruct Hs as [Hsr Hs].
  cbn [map app mt gl]; rewrite in_not_newline by (try apply Hr; exact Hsr).
  rewrite Est, mt_star.
  assert (length (encode (0x3C :: r :: n ++ [0x3E])) = (2 + length (encode (r :: n)))%nat) as ->.
  { change (0x3C :: r :: n ++ [0x3E]) with ([0x3C] ++ (r :: n) ++ [0x3E]).
    rewrite !encode_app, !app_length; change (encode [0x3C]) with [0x3C]; change (encode [0x3E]) with [0x3E].
    cbn [length]; lia. }
  eapply (name_loop _ n rest _ (map gl n ++ gl 0x3E :: rest)); [exact Hn|exact Hs| | |].
  - rewrite app_length, map_length; lia.
  - intros d s p0 c Hd; cbn [gl]; unfold in_set; cbn [existsb fst snd].
    destruct (N.leb_spec 0x3E d); cbn [andb orb]; [|reflexivity].
    destruct (N.leb_spec d 0x3E); cbn [andb orb]; [unfold rune in *; lia|reflexivity].
  - cbn [gl]; rewrite one_in, gwidth_gl.
    assert (length (encode (r :: n)) = length (encode_rune r) + length (encode n))%nat as ->.
    { change (r :: n) with ([r] ++ n); rewrite encode_app, app_length; cbn [encode flat_map]; rewrite app_nil_r; lia. }
    change (length (encode_rune 0x3C)) with 1%nat; change (length (encode_rune 0x3E)) with 1%nat.
    f_equal; f_equal; [lia|f_equal; f_equal; f_equal; lia].
Qed.
Lemma mt_not_var r s p k : r <> 0x3C -> mt (A:=nat * caps) (prog reVar) (gl r :: s) p [] k = None.
Proof.
  intros Hr; rewrite var_prog; cbn [mt gl]; unfold in_set; cbn [existsb fst snd].
  destruct (N.leb_spec 0x3C r); cbn [andb orb]; [|reflexivity].
  destruct (N.leb_spec r 0x3C); cbn [andb orb]; [unfold rune in *; lia|reflexivity].
Qed.

Lemma search_var t n rest p :
  no_var t -> name_ok n ->
  search (prog reVar) (map gl t ++ map gl (var_text n) ++ rest) p =
  Some ((p + length (encode t))%nat, (p + length (encode t) + length (encode (var_text n)))%nat,
        [(1%nat, (p + length (encode t) + 1, p + length (encode t) + 1 + length (encode n))%nat)]).
Proof.
  intros Ht Hn; revert p; induction Ht as [|r t Hr Ht IH]; intros p.
  - cbn [map app encode flat_map length]; rewrite Nat.add_0_r.
    pose proof (mt_var n rest p Hn) as H.
    destruct (map gl (var_text n) ++ rest) as [|g l] eqn:E; [discriminate|].
    cbn [search]; rewrite H; reflexivity.
  - cbn [map app search]; rewrite mt_not_var by exact Hr; cbn [gl]; rewrite IH.
    assert (length (encode (r :: t)) = length (encode_rune r) + length (encode t))%nat as ->.
    { change (r :: t) with ([r] ++ t); rewrite encode_app, app_length; cbn [encode flat_map]; rewrite app_nil_r; lia. }
    f_equal; f_equal; [f_equal; lia|f_equal; f_equal; f_equal; lia].
Qed.
Lemma search_no_var t p : no_var t -> search (prog reVar) (map gl t) p = None.
Proof.
  intros Ht; revert p; induction Ht as [|r t Hr Ht IH]; intros p; cbn [map search].
  - rewrite var_prog; reflexivity.
  - rewrite mt_not_var by exact Hr; cbn [gl]; apply IH.
Qed.

(** ** Texts with variables *)
Definition vtext (l : list (list rune * list rune)) (t : list rune) : list rune :=
  flat_map (fun '(t, n) => t ++ var_text n) l ++ t.
Definition vtext_ok (l : list (list rune * list rune)) (t : list rune) : Prop :=
  Forall (fun '(t, n) => no_var t /\ scalars t /\ name_ok n) l /\ no_var t /\ scalars t.

Lemma var_text_scalars n : name_ok n -> scalars (var_text n).
Proof.
  intros (_ & _ & Hs); unfold var_text; constructor; [reflexivity|].
  apply scalars_app; split; [exact Hs|constructor; [reflexivity|constructor]].
Qed.
Lemma vtext_scalars l t : vtext_ok l t -> scalars (vtext l t).
Proof.
  intros (Hl & _ & Ht); unfold vtext; apply scalars_app; split; [|exact Ht].
  induction Hl as [|[x n] l (_ & Hx & Hn) Hl IH]; [constructor|]; cbn [flat_map].
  rewrite !scalars_app; auto using var_text_scalars.
Qed.

Lemma trim_left_none f (rs : list rune) : match rs with [] => True | r :: _ => f r = false end -> trim_left_r f rs = rs.
Proof. destruct rs as [|r rs]; [reflexivity|]; cbn; intros ->; reflexivity. Qed.
Lemma encode_bytes (P : N -> Prop) rs :
  Forall (fun r => r < 0x80 -> P r) rs -> (forall b, 0x80 <= b -> P b) -> Forall P (encode rs).
Proof.
  intros H Hh; induction H as [|r rs Hr Hrs IH]; [constructor|].
  change (r :: rs) with ([r] ++ rs); rewrite encode_app; apply Forall_app; split; [|exact IH].
  cbn [encode flat_map]; rewrite app_nil_r.
  destruct (N.ltb_spec r 0x80) as [Hlt|Hge].
  - rewrite encode_ascii by exact Hlt; constructor; [apply Hr; exact Hlt|constructor].
  - eapply Forall_impl; [|apply encode_high; exact Hge]; exact Hh.
Qed.
Lemma trim_name n : name_ok n -> trim_bytes (lit "<>") (encode (var_text n)) = encode n.
Proof.
  intros (Hne & Hn & Hs); unfold var_text; change (0x3C :: n ++ [0x3E]) with ([0x3C] ++ n ++ [0x3E]).
  rewrite !encode_app; change (encode [0x3C]) with [0x3C]; change (encode [0x3E]) with [0x3E].
  assert (Forall (fun b => nmem b (lit "<>") = false) (encode n)) as Hb.
  { apply encode_bytes.
    - eapply Forall_impl; [|exact Hn]; intros r (H1 & H2 & _) _; unfold nmem; cbn [existsb lit].
      change (lit "<>") with [0x3C; 0x3E]; cbn [existsb].
      destruct (N.eqb_spec r 0x3C); [contradiction|]; destruct (N.eqb_spec r 0x3E); [contradiction|reflexivity].
    - intros b Hb; unfold nmem; change (lit "<>") with [0x3C; 0x3E]; cbn [existsb].
      destruct (N.eqb_spec b 0x3C); [lia|]; destruct (N.eqb_spec b 0x3E); [lia|reflexivity]. }
  assert (encode n <> []) as He.
  { destruct n as [|r n]; [contradiction|]; intros H; apply (f_equal (@length _)) in H; cbn [encode flat_map] in H.
    rewrite app_length in H; pose proof (encode_rune_length r); cbn in H; lia. }
  unfold trim_bytes, trim_right_r; cbn [app trim_left_r].
  replace (nmem 0x3C (lit "<>")) with true by reflexivity.
  rewrite (trim_left_none _ (encode n ++ [0x3E])).
  2:{ destruct (encode n) as [|b x]; [contradiction|]; apply Forall_cons_iff in Hb; apply Hb. }
  rewrite rev_app_distr; cbn [rev app trim_left_r].
  replace (nmem 0x3E (lit "<>")) with true by reflexivity.
  rewrite trim_left_none; [apply rev_involutive|].
  apply Forall_rev in Hb; destruct (rev (encode n)) as [|b x]; [exact I|].
  apply Forall_cons_iff in Hb; apply Hb.
Qed.

Definition values (vars : vars_map) (n : list rune) : list bytes :=
  match lookup vars (encode n) with Some vals => vals | None => [] end.
Lemma get_var_name vars n : name_ok n -> get_var (encode (var_text n)) vars = values vars n.
Proof. intros H; unfold get_var, values; rewrite trim_name by exact H; reflexivity. Qed.

Lemma var_no_begin : has_begin (prog reVar) = false.
Proof. rewrite var_prog; reflexivity. Qed.
Lemma var_text_width n : (0 < length (encode (var_text n)))%nat.
Proof.
  unfold var_text; change (0x3C :: n ++ [0x3E]) with ([0x3C] ++ n ++ [0x3E]); rewrite encode_app, app_length.
  change (encode [0x3C]) with [0x3C]; cbn; lia.
Qed.

(** Expanding the variables of a text puts their groups in place of them. *)
Lemma expand_all vars l t used : vtext_ok l t ->
  replace_all_func reVar
    (fun used varExpr => let vals := get_var varExpr vars in (used ++ [vals], var_group vals)) used (encode (vtext l t))
  = (used ++ map (fun '(_, n) => values vars n) l,
     flat_map (fun '(t, n) => encode t ++ var_group (values vars n)) l ++ encode t).
Proof.
  intros (Hl & Ht & Hst); revert used; induction Hl as [|[x n] l (Hx & Hsx & Hn) Hl IH]; intros used;
    rewrite replace_unroll by exact var_no_begin.
  - unfold vtext; cbn [flat_map map app]; rewrite glyphs_encode by exact Hst.
    rewrite search_no_var by exact Ht; rewrite app_nil_r; reflexivity.
  - assert (vtext ((x, n) :: l) t = x ++ var_text n ++ vtext l t) as E.
    { unfold vtext; cbn [flat_map]; rewrite <- !app_assoc; reflexivity. }
    rewrite E; rewrite glyphs_encode.
    2:{ rewrite !scalars_app; repeat split; [exact Hsx|apply var_text_scalars; exact Hn|].
        apply vtext_scalars; repeat split; assumption. }
    rewrite !map_app, search_var by assumption; cbn [Nat.add].
    destruct (Nat.leb_spec (length (encode x) + length (encode (var_text n))) (length (encode x))) as [Hle|_];
      [pose proof (var_text_width n); lia|].
    cbv zeta; rewrite sub_encode, get_var_name by exact Hn.
    assert (skipn (length (encode x) + length (encode (var_text n))) (encode (x ++ var_text n ++ vtext l t))
            = encode (vtext l t)) as ->.
    { rewrite <- app_length, <- encode_app, app_assoc; apply skipn_encode. }
    rewrite IH, firstn_encode; cbn [flat_map map]; rewrite <- !app_assoc; reflexivity.
Qed.
Theorem expand_vars_text vars l t : vtext_ok l t ->
  expand_vars (encode (vtext l t)) vars =
  (flat_map (fun '(t, n) => encode t ++ var_group (values vars n)) l ++ encode t,
   map (fun '(_, n) => values vars n) l).
Proof. intros H; unfold expand_vars; rewrite expand_all by exact H; reflexivity. Qed.

(** Splitting a replacement at its variables. *)
Lemma plain_part_move d ms expr vars off : (d <= length expr)%nat ->
  split_parts (map (move d) ms) expr vars (off + d) = split_parts ms (skipn d expr) vars off.
Proof.
  intros Hd; revert off; induction ms as [|[[a b] c] ms IH]; intros off; cbn [map move split_parts].
  - rewrite skipn_add; f_equal; f_equal; lia.
  - assert (forall x y, sub expr (x + d) (y + d) = sub (skipn d expr) x y) as Hsub.
    { intros x y; unfold sub; rewrite skipn_add; replace (y + d - (x + d))%nat with (y - x)%nat by lia.
      f_equal; f_equal; lia. }
    rewrite !Hsub, IH; reflexivity.
Qed.
Theorem split_parts_text vars l t : vtext_ok l t ->
  split_parts (find_all_index reVar (encode (vtext l t))) (encode (vtext l t)) vars 0 =
  flat_map (fun '(t, n) => plain_part (encode t) ++ [ToVar (encode (var_text n)) (values vars n)]) l
  ++ plain_part (encode t).
Proof.
  intros (Hl & Ht & Hst); induction Hl as [|[x n] l (Hx & Hsx & Hn) Hl IH];
    rewrite find_all_unroll by exact var_no_begin.
  - unfold vtext; cbn [flat_map map app]; rewrite glyphs_encode by exact Hst.
    rewrite search_no_var by exact Ht; reflexivity.
  - assert (vtext ((x, n) :: l) t = x ++ var_text n ++ vtext l t) as E.
    { unfold vtext; cbn [flat_map]; rewrite <- !app_assoc; reflexivity. }
    rewrite E; rewrite glyphs_encode.
    2:{ rewrite !scalars_app; repeat split; [exact Hsx|apply var_text_scalars; exact Hn|].
        apply vtext_scalars; repeat split; assumption. }
    rewrite !map_app, search_var by assumption; cbn [Nat.add].
    destruct (Nat.leb_spec (length (encode x) + length (encode (var_text n))) (length (encode x))) as [Hle|_];
      [pose proof (var_text_width n); lia|].
    cbn [split_parts]; rewrite sub_encode, get_var_name by exact Hn.
    assert (sub (encode (x ++ var_text n ++ vtext l t)) 0 (length (encode x)) = encode x) as ->.
    { unfold sub; cbn [skipn]; rewrite Nat.sub_0_r; apply firstn_encode. }
    assert (skipn (length (encode x) + length (encode (var_text n))) (encode (x ++ var_text n ++ vtext l t))
            = encode (vtext l t)) as Es.
    { rewrite <- app_length, <- encode_app, app_assoc; apply skipn_encode. }
    pose proof (fun ms => plain_part_move (length (encode x) + length (encode (var_text n))) ms
      (encode (x ++ var_text n ++ vtext l t)) vars 0) as M; cbn [Nat.add] in M; rewrite M.
    2:{ rewrite !encode_app, !app_length; lia. }
    rewrite Es, IH; cbn [flat_map]; rewrite <- !app_assoc; reflexivity.
Qed.
