(** How the text of an HRE expression becomes the regular expression that is searched. *)
From Coq Require Import String.
From Verif Require Import GoBase Utf8 Utf8Facts Replacer Regex RegexSpec RegexFacts CaptureFacts RegexParse
  ParseFacts ReplaceFacts Hre FindFacts HslInv.
Open Scope N_scope.

(** Texts are given by their characters: [txt "..."] of an ASCII literal. *)
Definition txt (s : string) : list rune := lit s.

(** ** Encoded texts *)
Definition gl (r : rune) : rune * nat := (r, length (encode_rune r)).
Lemma glyphs_encode rs : scalars rs -> glyphs (encode rs) = map gl rs.
Proof.
  intros H; rewrite <- (app_nil_r (encode rs)), glyphs_encode_app by exact H.
  rewrite glyphs_nil, app_nil_r; reflexivity.
Qed.
Lemma gwidth_gl rs : gwidth (map gl rs) = length (encode rs).
Proof.
  induction rs as [|r rs IH]; [reflexivity|]; cbn [map]; rewrite gwidth_cons, IH.
  cbn [encode flat_map gl snd]; rewrite app_length; reflexivity.
Qed.
Lemma runes_of_gl rs : runes_of (map gl rs) = rs.
Proof. unfold runes_of; rewrite map_map; cbn [gl fst]; apply map_id. Qed.
Lemma wide_gl rs : wide (map gl rs).
Proof.
  unfold wide; rewrite Forall_map; apply Forall_forall; intros r _; cbn [gl snd].
  pose proof (encode_rune_length r); lia.
Qed.
Lemma map_gl_split rs a b : map gl rs = a ++ b ->
  exists ra rb, rs = ra ++ rb /\ a = map gl ra /\ b = map gl rb.
Proof.
  revert rs; induction a as [|g a IH]; intros rs H.
  - exists [], rs; auto.
  - destruct rs as [|r rs]; [discriminate|]; cbn [map app] in H; injection H as <- H.
    destruct (IH _ H) as (ra & rb & -> & -> & ->); exists (r :: ra), rb; auto.
Qed.
Lemma scalars_app a b : scalars (a ++ b) <-> scalars a /\ scalars b.
Proof. apply Forall_app. Qed.

Lemma sub_encode a b c :
  sub (encode (a ++ b ++ c)) (length (encode a)) (length (encode a) + length (encode b)) = encode b.
Proof.
  unfold sub; rewrite !encode_app, skipn_app, skipn_all, Nat.sub_diag; cbn [app skipn].
  replace (length (encode a) + length (encode b) - length (encode a))%nat with (length (encode b)) by lia.
  rewrite firstn_app, firstn_all, Nat.sub_diag; cbn [firstn]; apply app_nil_r.
Qed.
Lemma skipn_encode a b : skipn (length (encode a)) (encode (a ++ b)) = encode b.
Proof. rewrite encode_app, skipn_app, skipn_all, Nat.sub_diag; reflexivity. Qed.
Lemma firstn_encode a b : firstn (length (encode a)) (encode (a ++ b)) = encode a.
Proof. rewrite encode_app, firstn_app, firstn_all, Nat.sub_diag; cbn [firstn]; apply app_nil_r. Qed.

Lemma encode_ascii r : r < 0x80 -> encode_rune r = [r].
Proof. intros H; unfold encode_rune; destruct (N.leb_spec r 0x7F); [reflexivity|lia]. Qed.
Lemma encode_high r : 0x80 <= r -> Forall (fun b => 0x80 <= b) (encode_rune r).
Proof.
  intros H; unfold encode_rune; destruct (N.leb_spec r 0x7F); [lia|].
  repeat match goal with |- context [if ?b then _ else _] => destruct b end; repeat constructor; lia.
Qed.
Lemma encode_ascii_text rs : Forall (fun r => r < 0x80) rs -> encode rs = rs.
Proof.
  induction 1 as [|r rs Hr H IH]; [reflexivity|]; cbn [encode flat_map].
  rewrite encode_ascii by exact Hr; cbn [app]; f_equal; exact IH.
Qed.
(** A byte-wise exchange of an ASCII character. *)
Lemma replace_byte_encode old new rs : old < 0x80 ->
  replace_byte old (encode new) (encode rs) = encode (flat_map (fun r => if r =? old then new else [r]) rs).
Proof.
  intros Ho; induction rs as [|r rs IH]; [reflexivity|].
  cbn [encode flat_map]; unfold replace_byte in *; rewrite flat_map_app.
  change (flat_map encode_rune) with encode; rewrite encode_app, IH; f_equal.
  destruct (N.ltb_spec r 0x80) as [Hr|Hr].
  - rewrite (encode_ascii r Hr); cbn [flat_map]; rewrite app_nil_r.
    destruct (r =? old); [reflexivity|]; cbn [encode flat_map]; rewrite (encode_ascii r Hr); reflexivity.
  - destruct (N.eqb_spec r old); [lia|]; cbn [encode flat_map]; rewrite app_nil_r.
    pose proof (encode_high r Hr) as Hh; induction Hh as [|b bs Hb Hh IHh]; [reflexivity|].
    cbn [flat_map]; destruct (N.eqb_spec b old); [lia|]; cbn [app]; f_equal; exact IHh.
Qed.

(** ** Edges *)

(** Replaces every maximal run of the character [c]: by [one] when it is a single
    character, by [many] otherwise. [k] characters of a run have been seen. *)
Section Edges.
  Context (c : rune) (one many : list rune).
  Definition flush (k : nat) : list rune := match k with O => [] | S O => one | _ => many end.
  Fixpoint swap_runs (k : nat) (rs : list rune) : list rune :=
    match rs with
    | [] => flush k
    | r :: rs' => if r =? c then swap_runs (S k) rs' else flush k ++ r :: swap_runs 0 rs'
    end.

  Lemma swap_runs_app k a d b : d <> c -> swap_runs k (a ++ d :: b) = swap_runs k a ++ d :: swap_runs 0 b.
  Proof.
    intros Hd; revert k; induction a as [|x a IH]; intros k; cbn [app swap_runs].
    - destruct (N.eqb_spec d c); [contradiction|reflexivity].
    - destruct (x =? c); [apply IH|]; rewrite IH, <- app_assoc; reflexivity.
  Qed.
  Lemma swap_runs_none a b : Forall (fun r => r <> c) a -> a <> [] -> swap_runs 0 (a ++ b) = a ++ swap_runs 0 b.
  Proof.
    intros H _; induction H as [|x a Hx H IH]; [reflexivity|]; cbn [app swap_runs].
    destruct (N.eqb_spec x c); [contradiction|]; cbn [flush app]; f_equal; exact IH.
  Qed.
  Lemma swap_runs_id a : Forall (fun r => r <> c) a -> swap_runs 0 a = a.
  Proof.
    intros H; induction H as [|x a Hx H IH]; [reflexivity|]; cbn [app swap_runs].
    destruct (N.eqb_spec x c); [contradiction|]; cbn [flush app]; f_equal; exact IH.
  Qed.
  Lemma swap_runs_repeat k n : swap_runs k (repeat c n) = flush (k + n).
  Proof.
    revert k; induction n as [|n IH]; intros k; cbn [repeat swap_runs]; [rewrite Nat.add_0_r; reflexivity|].
    rewrite N.eqb_refl, IH; f_equal; lia.
  Qed.
  Lemma swap_runs_run k n b : match b with [] => True | x :: _ => x <> c end ->
    swap_runs k (repeat c n ++ b) = flush (k + n) ++ swap_runs 0 b.
  Proof.
    intros Hb; destruct b as [|x b].
    - rewrite app_nil_r, swap_runs_repeat; cbn [swap_runs flush]; rewrite app_nil_r; reflexivity.
    - rewrite swap_runs_app by exact Hb; rewrite swap_runs_repeat; cbn [swap_runs].
      destruct (N.eqb_spec x c); [contradiction|reflexivity].
  Qed.

  (** Every text splits at the first run. *)
  Lemma first_run rs : Forall (fun r => r <> c) rs \/
    exists u n v, rs = u ++ repeat c (S n) ++ v /\ Forall (fun r => r <> c) u /\
      match v with [] => True | x :: _ => x <> c end.
  Proof.
    induction rs as [|r rs IH]; [left; constructor|].
    destruct (N.eqb_spec r c) as [->|Hr].
    - right; destruct IH as [H|(u & n & v & -> & Hu & Hv)].
      + exists [], O, rs; split; [reflexivity|]; split; [constructor|].
        destruct H; [exact I|assumption].
      + destruct u as [|x u].
        * exists [], (S n), v; split; [reflexivity|]; split; [constructor|exact Hv].
        * exists [], O, ((x :: u) ++ repeat c (S n) ++ v); split; [reflexivity|]; split; [constructor|].
          inversion Hu; assumption.
    - destruct IH as [H|(u & n & v & -> & Hu & Hv)]; [left; constructor; assumption|].
      right; exists (r :: u), n, v; split; [reflexivity|]; split; [constructor; assumption|exact Hv].
  Qed.

  Definition edge_fun (_ : unit) (e : bytes) : unit * bytes :=
    (tt, if beqb e [c] then encode one else encode many).

  Lemma replace_edges e rs :
    prog e = plus_c c -> c < 0x80 -> scalars rs ->
    snd (replace_all_func e edge_fun tt (encode rs)) = encode (swap_runs 0 rs).
  Proof.
    intros He Hc; remember (length rs) as j eqn:Ej; revert rs Ej.
    induction j as [j IH] using lt_wf_ind; intros rs Ej Hs.
    rewrite replace_unroll by (rewrite He; reflexivity); rewrite He, glyphs_encode by exact Hs.
    destruct (first_run rs) as [H|(u & n & v & -> & Hu & Hv)].
    - rewrite search_no_run; [rewrite swap_runs_id by exact H; reflexivity|].
      unfold no_c; rewrite Forall_map; exact H.
    - apply scalars_app in Hs; destruct Hs as [Hsu Hs]; apply scalars_app in Hs; destruct Hs as [Hsr Hsv].
      rewrite !map_app, search_run.
      + cbn [Nat.add]; rewrite !gwidth_gl.
        assert (length (encode (repeat c (S n))) = S n) as El.
        { rewrite encode_ascii_text; [apply repeat_length|].
          apply Forall_forall; intros x Hx; apply repeat_spec in Hx; subst x; exact Hc. }
        destruct (Nat.leb_spec (length (encode u) + length (encode (repeat c (S n)))) (length (encode u))); [lia|].
        rewrite (sub_encode u (repeat c (S n)) v); unfold edge_fun at 1.
        rewrite <- app_length, <- encode_app.
        rewrite (app_assoc u), skipn_encode, <- app_assoc, firstn_encode.
        rewrite app_length in Ej; rewrite app_length, repeat_length in Ej.
        destruct (replace_all_func e edge_fun tt (encode v)) as [st rest] eqn:Ev.
        assert (rest = encode (swap_runs 0 v)) as ->.
        { change rest with (snd (st, rest)); rewrite <- Ev; apply (IH (length v) ltac:(lia) v eq_refl Hsv). }
        cbn [snd].
        assert (swap_runs 0 (u ++ repeat c (S n) ++ v) = u ++ flush (S n) ++ swap_runs 0 v) as ->.
        { destruct u as [|x u].
          - cbn [app]; apply (swap_runs_run 0 (S n) v Hv).
          - rewrite swap_runs_none by (try exact Hu; discriminate).
            f_equal; apply (swap_runs_run 0 (S n) v Hv). }
        rewrite !encode_app; f_equal; f_equal.
        rewrite encode_ascii_text.
        2: { apply Forall_forall; intros x Hx; apply repeat_spec in Hx; subst x; exact Hc. }
        destruct n as [|n]; cbn [repeat].
        * rewrite (proj2 (beqb_eq [c] [c]) eq_refl); reflexivity.
        * assert (beqb (c :: c :: repeat c n) [c] = false) as -> by (apply beqb_neq; discriminate).
          reflexivity.
      + unfold no_c; rewrite Forall_map; exact Hu.
      + discriminate.
      + unfold all_c; rewrite Forall_map; apply Forall_forall; intros x Hx; apply repeat_spec in Hx; exact Hx.
      + destruct v; [exact I|exact Hv].
      + apply wide_gl.
  Qed.
End Edges.

(** What "^" and "$" stand for (assertions.go:205,214). *)
Definition left_edge : list rune := txt "(?:^|\s+|{})".
Definition right_edge : list rune := txt "(?:$|\s+|{})".
Definition edges (rs : list rune) : list rune :=
  swap_runs 0x24 right_edge (txt "$") 0 (swap_runs 0x5E left_edge (txt "^") 0 rs).

Lemma swap_scalars c one many k rs :
  scalars one -> scalars many -> scalars rs -> scalars (swap_runs c one many k rs).
Proof.
  intros H1 H2 H; revert k; induction H as [|r rs Hr H IH]; intros k; cbn [swap_runs].
  - destruct k as [|[|k]]; [constructor|exact H1|exact H2].
  - destruct (r =? c); [apply IH|]; apply scalars_app; split.
    + destruct k as [|[|k]]; [constructor|exact H1|exact H2].
    + constructor; [exact Hr|apply IH].
Qed.
Lemma scalars_b rs : forallb is_scalar rs = true -> scalars rs.
Proof. intros H; apply Forall_forall; intros r Hr; rewrite forallb_forall in H; apply H; exact Hr. Qed.

Lemma edges_scalars rs : scalars rs -> scalars (edges rs).
Proof.
  intros H; unfold edges; repeat (apply swap_scalars; [apply scalars_b; reflexivity..|]); exact H.
Qed.
Lemma expand_edges_text rs : scalars rs -> expand_edges (encode rs) = encode (edges rs).
Proof.
  intros H; unfold expand_edges, edges.
  assert (forall (f : unit -> bytes -> unit * bytes) c one many e s,
    (forall x y, f x y = edge_fun c one many x y) -> prog e = plus_c c -> c < 0x80 -> scalars s ->
    snd (replace_all_func e f tt (encode s)) = encode (swap_runs c one many 0 s)) as Hr.
  { intros f c one many e s Hf He Hc Hs; rewrite <- (replace_edges c one many e s He Hc Hs).
    unfold replace_all_func; generalize (find_all_index e (encode s)) as ms; generalize (encode s) as t.
    intros t ms; assert (forall ms st last, replace_matches ms f st t last =
      replace_matches ms (edge_fun c one many) st t last) as Hm; [|rewrite Hm; reflexivity].
    intros ms'; induction ms' as [|[[a b] cs] ms' IH]; intros st last; cbn [replace_matches]; [reflexivity|].
    rewrite Hf; destruct (edge_fun c one many st (sub t a b)); rewrite IH; reflexivity. }
  rewrite (Hr _ 0x5E left_edge (txt "^") reLeftEdge rs); [|intros x y|reflexivity|reflexivity|exact H].
  - apply (Hr _ 0x24 right_edge (txt "$") reRightEdge); [intros x y|reflexivity|reflexivity|].
    + unfold edge_fun; change (lit "$") with [0x24 : N]; reflexivity.
    + apply swap_scalars; [apply scalars_b; reflexivity..|exact H].
  - unfold edge_fun; change (lit "^") with [0x5E : N]; reflexivity.
Qed.
Lemma edges_app a d b : d <> 0x5E -> d <> 0x24 -> edges (a ++ d :: b) = edges a ++ d :: edges b.
Proof. intros H1 H2; unfold edges; rewrite swap_runs_app, swap_runs_app by assumption; reflexivity. Qed.

(** ** Lookahead *)
Definition not_close : list (N * N) := [(0, 124); (126, 1114111)].
Definition braced (i : nat) : rx :=
  XCat (XSet [(0x7B, 0x7B)])
    (XCat (XCap i (XCat (XSet not_close) (XStar true (XSet not_close)))) (XSet [(0x7D, 0x7D)])).
Lemma lookahead_prog : prog reLookahead =
  XCat (XAlt (braced 1) XEps) (XCat (XCap 2 (XStar true (XSet [(0x24, 0x24)]))) XEnd).
Proof. vm_compute; reflexivity. Qed.
Lemma lookbehind_prog : prog reLookbehind =
  XCat XBegin (XCat (XCap 1 (XStar true (XSet [(0x5E, 0x5E)]))) (XAlt (braced 2) XEps)).
Proof. vm_compute; reflexivity. Qed.
Lemma zerowidth_prog : prog reZeroWidth = braced 1.
Proof. vm_compute; reflexivity. Qed.

Lemma in_not_close r : in_set not_close r = true -> r <> 0x7D.
Proof. unfold in_set, not_close; cbn [existsb fst snd]; lia. Qed.
Lemma not_close_in r : is_scalar r = true -> r <> 0x7D -> in_set not_close r = true.
Proof. unfold in_set, not_close, is_scalar; cbn [existsb fst snd]; lia. Qed.
Lemma in_one c r : in_set [(c, c)] r = true -> r = c.
Proof. unfold in_set; cbn [existsb fst snd]; lia. Qed.
Lemma one_in c : in_set [(c, c)] c = true.
Proof. unfold in_set; cbn [existsb fst snd]; lia. Qed.

Lemma runs_star_set g R s p c s' p' c' :
  runs (XStar g (XSet R)) s p c s' p' c' ->
  exists u, s = u ++ s' /\ Forall (fun x => in_set R (fst x) = true) u /\ c' = c /\ p' = (p + gwidth u)%nat.
Proof.
  intros H; remember (XStar g (XSet R)) as X eqn:EX.
  induction H as
    [s p c|ranges ch w s p c H|s c|p c|i r s p c s' p' c' H IH
    |a b s p c s1 p1 c1 s2 p2 c2 H1 IH1 H2 IH2|a b s p c s' p' c' H IH|a b s p c s' p' c' H IH
    |g' r s p c|g' r s p c s1 p1 c1 s2 p2 c2 H1 IH1 Hlt H2 IH2]; try discriminate.
  - exists []; rewrite gwidth_nil, Nat.add_0_r; repeat split; constructor.
  - injection EX as -> ->; destruct (IH2 eq_refl) as (u & -> & Hu & -> & ->).
    apply runs_set_inv in H1; destruct H1 as (ch & w & -> & -> & -> & Hin).
    exists ((ch, w) :: u); split; [reflexivity|]; split; [constructor; assumption|]; split; [reflexivity|].
    rewrite gwidth_cons; cbn [snd]; lia.
Qed.
Lemma runs_star_set_intro g R u s p c :
  wide u -> Forall (fun x => in_set R (fst x) = true) u ->
  runs (XStar g (XSet R)) (u ++ s) p c s (p + gwidth u) c.
Proof.
  intros Hw; revert p; induction Hw as [|[ch w] u Hg Hw IH]; intros p H.
  - rewrite gwidth_nil, Nat.add_0_r; constructor.
  - inversion H as [|x y Hx Hy]; subst; cbn [snd fst] in *; rewrite gwidth_cons; cbn [snd app].
    eapply X_star_more; [constructor; exact Hx|lia|].
    replace (p + (w + gwidth u))%nat with (p + w + gwidth u)%nat by lia; apply IH; exact Hy.
Qed.

Lemma runs_braced i s p c s' p' c' :
  runs (braced i) s p c s' p' c' ->
  exists w1 look w2, s = (0x7B, w1) :: look ++ (0x7D, w2) :: s' /\ look <> [] /\
    Forall (fun x => fst x <> 0x7D) look /\ c' = (i, (p + w1, p + w1 + gwidth look)%nat) :: c /\
    p' = (p + w1 + gwidth look + w2)%nat.
Proof.
  intros H; inversion H as [| | | | |a b s0 p0 c0 s1 p1 c1 s2 p2 c2 H1 H2| | | |]; subst; clear H.
  apply runs_set_inv in H1; destruct H1 as (ch & w1 & -> & -> & <- & Hin); apply in_one in Hin; subst ch.
  inversion H2 as [| | | | |a b s0 p0 c0 s3 p3 c3 s4 p4 c4 H3 H4| | | |]; subst; clear H2.
  apply runs_set_inv in H4; destruct H4 as (ch & w2 & -> & -> & <- & Hin); apply in_one in Hin; subst ch.
  inversion H3 as [| | | |i0 r0 s0 p0 c0 s5 p5 c5 H5| | | | |]; subst; clear H3.
  inversion H5 as [| | | | |a b s0 p0 c0 s6 p6 c6 s7 p7 c7 H6 H7| | | |]; subst; clear H5.
  apply runs_set_inv in H6; destruct H6 as (ch & w & -> & -> & <- & Hin).
  apply runs_star_set in H7; destruct H7 as (u & -> & Hu & -> & ->).
  exists w1, ((ch, w) :: u), w2; split; [reflexivity|]; split; [discriminate|].
  split; [constructor; [apply in_not_close; exact Hin|]|].
  - eapply Forall_impl; [|exact Hu]; intros x Hx; apply in_not_close; exact Hx.
  - rewrite gwidth_cons; cbn [snd]; split; [f_equal; f_equal; f_equal; lia|lia].
Qed.
Lemma runs_braced_intro i w1 look w2 s p c :
  look <> [] -> wide look -> Forall (fun x => in_set not_close (fst x) = true) look ->
  runs (braced i) ((0x7B, w1) :: look ++ (0x7D, w2) :: s) p c s (p + w1 + gwidth look + w2)
    ((i, (p + w1, p + w1 + gwidth look)%nat) :: c).
Proof.
  intros Hn Hw Hl; eapply X_cat; [constructor; apply one_in|].
  eapply X_cat; [apply X_cap|constructor; apply one_in].
  destruct look as [|[ch w] look]; [congruence|]; inversion Hl; inversion Hw; subst; cbn [fst snd] in *.
  eapply X_cat; [constructor; assumption|].
  rewrite gwidth_cons; cbn [snd].
  replace (p + w1 + (w + gwidth look))%nat with (p + w1 + w + gwidth look)%nat by lia.
  apply runs_star_set_intro; assumption.
Qed.

(** What a lookahead and edge at the end of an expression look like. *)
Inductive tail : list rune -> Prop :=
| tail_edge n : tail (repeat 0x24 n)
| tail_look look n : look <> [] -> Forall (fun r => r <> 0x7D) look ->
    tail (0x7B :: look ++ 0x7D :: repeat 0x24 n).

Lemma all_repeat (c : rune) l : Forall (fun r => r = c) l -> l = repeat c (length l).
Proof. induction 1 as [|r l -> H IH]; [reflexivity|]; cbn; f_equal; exact IH. Qed.

Lemma braced_length look rest :
  length (encode (0x7B :: look ++ 0x7D :: rest)) = (length (encode look) + length (encode rest) + 2)%nat.
Proof.
  cbn [encode flat_map]; change (flat_map encode_rune) with encode; rewrite encode_app.
  cbn [encode flat_map]; change (flat_map encode_rune) with encode; rewrite !app_length.
  change (length (encode_rune 0x7B)) with 1%nat; change (length (encode_rune 0x7D)) with 1%nat; lia.
Qed.
Lemma lookahead_runs v p s' p' c' :
  runs (prog reLookahead) (map gl v) p [] s' p' c' ->
  s' = [] /\ p' = (p + length (encode v))%nat /\
  ((exists n, v = repeat 0x24 n /\ c' = [(2%nat, (p, p'))]) \/
   (exists look n, v = 0x7B :: look ++ 0x7D :: repeat 0x24 n /\ look <> [] /\
      Forall (fun r => r <> 0x7D) look /\
      c' = [(2%nat, (p + 2 + length (encode look), p')%nat);
            (1%nat, (p + 1, p + 1 + length (encode look))%nat)])).
Proof.
  intros H; rewrite lookahead_prog in H.
  inversion H as [| | | | |a b s0 p0 c0 s1 p1 c1 s2 p2 c2 H1 H2| | | |]; subst; clear H.
  inversion H2 as [| | | | |a b s0 p0 c0 s3 p3 c3 s4 p4 c4 H3 H4| | | |]; subst; clear H2.
  apply runs_end_inv in H4; destruct H4 as (-> & -> & -> & ->); split; [reflexivity|].
  inversion H3 as [| | | |i0 r0 s0 p0 c0 s5 p5 c5 H5| | | | |]; subst; clear H3.
  apply runs_star_set in H5; destruct H5 as (d & -> & Hd & -> & ->); rewrite app_nil_r in *.
  assert (forall rd, d = map gl rd -> rd = repeat 0x24 (length rd)) as Hrep.
  { intros rd ->; apply all_repeat; rewrite Forall_map in Hd; eapply Forall_impl; [|exact Hd].
    cbn; intros r Hr; apply in_one in Hr; exact Hr. }
  inversion H1 as [| | | | | |a b s0 p0 c0 s6 p6 c6 Hb|a b s0 p0 c0 s6 p6 c6 Hb| |]; subst; clear H1.
  - apply runs_braced in Hb; destruct Hb as (w1 & look & w2 & E & Hn & Hl & -> & ->).
    change (map gl v = [(0x7B, w1)] ++ look ++ [(0x7D, w2)] ++ d) in E.
    destruct (map_gl_split _ _ _ E) as (r1 & v1 & -> & E1 & E1').
    symmetry in E1'; destruct (map_gl_split _ _ _ E1') as (rl & v2 & -> & -> & E2'); symmetry in E2'.
    destruct (map_gl_split _ _ _ E2') as (r2 & rd & -> & E3 & E3').
    destruct r1 as [|x [|y r1]]; try discriminate; injection E1 as <- ->.
    destruct r2 as [|x [|y r2]]; try discriminate; injection E3 as <- ->.
    rewrite E3', !gwidth_gl; cbn [app].
    change (length (encode_rune 123)) with 1%nat; change (length (encode_rune 125)) with 1%nat.
    rewrite braced_length; split; [lia|].
    right; exists rl, (length rd); split; [rewrite <- (Hrep rd E3'); reflexivity|].
    split; [intros ->; apply Hn; reflexivity|].
    split; [rewrite Forall_map in Hl; exact Hl|].
    replace (p + 2 + length (encode rl))%nat with (p + 1 + length (encode rl) + 1)%nat by lia; reflexivity.
  - apply runs_eps_inv in Hb; destruct Hb as (<- & <- & <-).
    rewrite gwidth_gl; split; [reflexivity|]; left; exists (length v); split; [apply Hrep; reflexivity|reflexivity].
Qed.

(** Every expression has such an end, possibly empty; the first one is taken. *)
Definition tail_array (u v : list rune) (m : list Z) : Prop :=
  (exists n, v = repeat 0x24 n /\
     m = [len (encode u); len (encode (u ++ v)); -1; -1; len (encode u); len (encode (u ++ v))]%Z) \/
  (exists look n, v = 0x7B :: look ++ 0x7D :: repeat 0x24 n /\ look <> [] /\ Forall (fun r => r <> 0x7D) look /\
     m = [len (encode u); len (encode (u ++ v));
          len (encode u) + 1; len (encode u) + 1 + len (encode look);
          len (encode u) + 2 + len (encode look); len (encode (u ++ v))]%Z).

Lemma lookahead_found rs : scalars rs ->
  exists u v, rs = u ++ v /\ tail_array u v (find_submatch_index reLookahead (encode rs)) /\
    (forall u' v', rs = u' ++ v' -> tail v' -> (length (encode u) <= length (encode u'))%nat).
Proof.
  intros Hs; unfold find_submatch_index; rewrite glyphs_encode by exact Hs.
  assert (forall u' v', rs = u' ++ v' -> tail v' ->
    exists a b' c', search (prog reLookahead) (map gl rs) 0 = Some (a, b', c') /\
      (a <= length (encode u'))%nat) as Hleft.
  { intros u' v' E Ht.
    assert (exists p' c', runs (prog reLookahead) (map gl v') (0 + gwidth (map gl u')) [] [] p' c') as (p' & c' & Hr).
    { rewrite lookahead_prog; generalize (0 + gwidth (map gl u'))%nat as p; intros p.
      rewrite E in Hs; apply scalars_app in Hs; destruct Hs as [_ Hs].
      assert (forall n p c, exists p' c', runs (XCat (XCap 2 (XStar true (XSet [(36, 36)]))) XEnd)
          (map gl (repeat 0x24 n)) p c [] p' c') as Hd.
      { intros n p0 c0; do 2 eexists; eapply X_cat; [|apply X_end].
        rewrite <- (app_nil_r (map gl (repeat 36 n))); apply X_cap, runs_star_set_intro; [apply wide_gl|].
        rewrite Forall_map; apply Forall_forall; intros x Hx; apply repeat_spec in Hx; subst x; apply one_in. }
      destruct Ht as [n|look n Hn Hl].
      - destruct (Hd n p []) as (p' & c' & H); do 2 eexists; eapply X_cat; [apply X_altr, X_eps|exact H].
      - change (0x7B :: look ++ 0x7D :: repeat 0x24 n) with ([0x7B : rune] ++ look ++ (0x7D : rune) :: repeat (0x24 : rune) n) in Hs |- *.
        apply scalars_app in Hs; destruct Hs as [_ Hs]; apply scalars_app in Hs; destruct Hs as [Hsl _].
        rewrite !map_app; cbn [map app].
        destruct (Hd n (p + 1 + gwidth (map gl look) + 1)%nat
                    ((1%nat, (p + 1, p + 1 + gwidth (map gl look))%nat) :: [])) as (p' & c' & H).
        do 2 eexists; eapply X_cat; [apply X_altl|exact H].
        apply (runs_braced_intro 1 1 (map gl look) 1); [destruct look; [congruence|discriminate]|apply wide_gl|].
        rewrite Forall_map; apply Forall_forall; intros x Hx; cbn [gl fst].
        rewrite Forall_forall in Hl; unfold scalars in Hsl; rewrite Forall_forall in Hsl.
        apply not_close_in; [apply Hsl; exact Hx|apply Hl; exact Hx]. }
    destruct (search_leftmost (prog reLookahead) (map gl rs) 0 (map gl u') (map gl v') [] p' c') as (a & b' & c0 & Hse & Hle).
    - rewrite app_nil_r, E, map_app; reflexivity.
    - rewrite app_nil_r; exact Hr.
    - exists a, b', c0; split; [exact Hse|]; cbn [Nat.add] in Hle; rewrite gwidth_gl in Hle; exact Hle. }
  destruct (Hleft rs [] ltac:(rewrite app_nil_r; reflexivity) (tail_edge 0)) as (a & b & c & Hse & _).
  rewrite Hse.
  destruct (search_sound _ _ _ _ _ _ Hse) as (gu & gv & s' & E & -> & -> & Hr); cbn [Nat.add] in *.
  destruct (map_gl_split _ _ _ E) as (u & w & -> & -> & E'); symmetry in E'.
  destruct (map_gl_split _ _ _ E') as (v & w' & -> & -> & ->).
  rewrite <- map_app in Hr.
  apply lookahead_runs in Hr; destruct Hr as (Hs' & Hp & Hc).
  destruct w' as [|x w']; [|discriminate]; rewrite app_nil_r in *.
  exists u, v; split; [reflexivity|].
  rewrite !gwidth_gl in *.
  split.
  - change (numcap reLookahead) with 2%nat; unfold tail_array; rewrite encode_app; unfold len; rewrite app_length.
    destruct Hc as [(n & -> & ->)|(look & n & -> & Hn & Hl & ->)].
    + left; exists n; split; [reflexivity|]; cbn [cap_array cap_lookup Nat.eqb app]; rewrite ?Nat2Z.inj_add; reflexivity.
    + right; exists look, n; split; [reflexivity|]; split; [exact Hn|]; split; [exact Hl|].
      cbn [cap_array cap_lookup Nat.eqb app]; rewrite ?Nat2Z.inj_add; reflexivity.
  - intros u' v' E2 Ht; destruct (Hleft u' v' E2 Ht) as (a & b' & c' & Hs2 & Hle).
    rewrite Hse in Hs2; injection Hs2 as <- <- <-; exact Hle.
Qed.

(** ** The parts of an expression *)

(** A lookaround at one end: none, {x} or {~x}. *)
Inductive look := NoLook | Pos (x : list rune) | Neg (x : list rune).
Definition look_text (l : look) : list rune :=
  match l with
  | NoLook => []
  | Pos x => 0x7B :: x ++ [0x7D]
  | Neg x => 0x7B :: (0x7E :: x) ++ [0x7D]
  end.
Definition plain (x : list rune) : Prop := Forall (fun r => r <> 0x7B /\ r <> 0x7D) x.
Definition look_ok (l : look) : Prop :=
  match l with
  | NoLook => True
  | Pos x => x <> [] /\ hd 0 x <> 0x7E /\ plain x /\ scalars x
  | Neg x => plain x /\ scalars x
  end.

(** noCapture (util.go:47-49) *)
Definition nocap (rs : list rune) : list rune :=
  flat_map (fun r => if r =? 0x28 then txt "(?:" else [r]) rs.
Lemma no_capture_text rs : no_capture (encode rs) = encode (nocap rs).
Proof.
  unfold no_capture; change (lit "(?:") with (encode (txt "(?:")); apply replace_byte_encode; lia.
Qed.
Lemma nocap_app a b : nocap (a ++ b) = nocap a ++ nocap b.
Proof. apply flat_map_app. Qed.
Lemma nocap_repeat c n : c <> 0x28 -> nocap (repeat c n) = repeat c n.
Proof.
  intros H; induction n as [|n IH]; [reflexivity|]; cbn [repeat nocap flat_map].
  destruct (N.eqb_spec c 0x28); [contradiction|]; cbn [app]; f_equal; exact IH.
Qed.
Lemma nocap_scalars x : scalars x -> scalars (nocap x).
Proof.
  induction 1 as [|r x Hr H IH]; [constructor|]; cbn [nocap flat_map]; apply scalars_app; split; [|exact IH].
  destruct (r =? 0x28); [apply scalars_b; reflexivity|constructor; [exact Hr|constructor]].
Qed.
Lemma nocap_plain x : plain x -> plain (nocap x).
Proof.
  induction 1 as [|r x Hr H IH]; [constructor|]; cbn [nocap flat_map]; apply Forall_app; split; [|exact IH].
  destruct (r =? 0x28); [repeat constructor; discriminate|constructor; [exact Hr|constructor]].
Qed.

Definition neg_ahead (x : list rune) : list rune := txt "^(" ++ nocap x ++ txt ")".
Definition neg_behind (x : list rune) : list rune := txt "(" ++ nocap x ++ txt ")$".

(** dissolveLookaround for a lookaround next to an edge of [n] characters. *)
Definition dissolved (l : look) (edge : nat) (negf : list rune -> list rune) : res (list rune * list rune * Z * bool) :=
  match l with
  | NoLook => Ok ([], [], 0%Z, true)
  | Pos x => match edge with O => Ok (nocap x, [], 0%Z, true) | S _ => Ok ([], [], 0%Z, false) end
  | Neg x =>
    match edge with
    | S _ => Ok ([], [], 0%Z, true)
    | O => match parse_re (encode (negf x)) with
           | Ok (r, _) => Ok ([], negf x, max_width r, true)
           | Err _ => Ok ([], [], 0%Z, false)
           | Panic p => Panic p
           | Hang => Hang
           | NoFuel => NoFuel
           | Unmodelled => Unmodelled
           end
    end
  end.

Definition enc_dissolved (d : list rune * list rune * Z * bool) : bytes * bytes * Z * bool :=
  let '(a, b, w, ok) := d in (encode a, encode b, w, ok).
Lemma dissolve_text l (hasEdge : bool) edge fmt negf :
  look_ok l -> hasEdge = match edge with O => false | S _ => true end ->
  (forall x, fmt (encode (nocap x)) = encode (negf x)) ->
  dissolve_lookaround fmt (encode (nocap (match l with NoLook => [] | Pos x => x | Neg x => 0x7E :: x end)))
    hasEdge = bind (dissolved l edge negf) (fun d => Ok (enc_dissolved d)).
Proof.
  intros Hl -> Hf; destruct l as [|x|x]; [reflexivity| |].
  - destruct Hl as (Hn & Ht & Hp & Hs); destruct x as [|r x]; [congruence|]; cbn [hd] in Ht.
    unfold dissolve_lookaround.
    assert (exists b bs, encode (nocap (r :: x)) = b :: bs /\ (b =? 0x7E) = false) as (b & bs & E & Hb).
    { cbn [nocap flat_map]; destruct (r =? 0x28) eqn:E28.
      - do 2 eexists; split; [reflexivity|reflexivity].
      - cbn [app encode flat_map]; destruct (N.ltb_spec r 0x80) as [Hr|Hr].
        + rewrite (encode_ascii r Hr); do 2 eexists; split; [reflexivity|apply N.eqb_neq; exact Ht].
        + pose proof (encode_high r Hr) as Hh; destruct (encode_rune r) as [|b bs] eqn:Er;
            [exfalso; revert Er; apply encode_rune_nonnil|].
          inversion Hh; subst; do 2 eexists; split; [reflexivity|apply N.eqb_neq; lia]. }
    rewrite E, Hb; cbn [dissolved]; destruct edge; cbn [bind enc_dissolved]; [rewrite E|]; reflexivity.
  - assert (encode (nocap (0x7E :: x)) = 0x7E :: encode (nocap x)) as E by reflexivity.
    unfold dissolve_lookaround; rewrite E; change (0x7E =? 0x7E) with true.
    cbn [dissolved]; destruct edge; [|reflexivity].
    rewrite Hf; destruct (parse_re (encode (negf x))) as [[r n]| | | | |]; reflexivity.
Qed.

Lemma index_Z {A} (m : list A) i x : nth_error m i = Some x -> index m (Z.of_nat i) = Ok x.
Proof. intros H; unfold index; destruct (Z.leb_spec 0 (Z.of_nat i)); [|lia]; rewrite Nat2Z.id, H; reflexivity. Qed.

Lemma substr_encode a b c :
  substr (encode (a ++ b ++ c)) (len (encode a)) (len (encode a) + len (encode b)) = encode b.
Proof.
  unfold substr, len.
  destruct (Z.ltb_spec (Z.of_nat (length (encode a))) 0); [lia|].
  destruct (Z.ltb_spec (Z.of_nat (length (encode a)) + Z.of_nat (length (encode b))) 0); [lia|]; cbn [orb].
  assert (length (encode (a ++ b ++ c)) = (length (encode a) + length (encode b) + length (encode c))%nat) as El
    by (rewrite !encode_app, !app_length; lia).
  destruct (Z.leb_spec (Z.of_nat (length (encode (a ++ b ++ c)))) (Z.of_nat (length (encode a)))).
  - destruct (encode b); [reflexivity|cbn in *; lia].
  - destruct (Z.ltb_spec (Z.of_nat (length (encode (a ++ b ++ c))))
                (Z.of_nat (length (encode a)) + Z.of_nat (length (encode b)))); [lia|].
    destruct (Z.ltb_spec 0 (Z.of_nat (length (encode a)) + Z.of_nat (length (encode b)) - Z.of_nat (length (encode a)))).
    + replace (Z.to_nat (Z.of_nat (length (encode a)) + Z.of_nat (length (encode b)) - Z.of_nat (length (encode a))))
        with (length (encode a) + length (encode b) - length (encode a))%nat by lia.
      rewrite Nat2Z.id; apply (sub_encode a b c).
    + destruct (encode b); [reflexivity|cbn in *; lia].
Qed.
Lemma slice_encode_front a b : slice (encode (a ++ b)) 0 (len (encode a)) = Ok (encode a).
Proof.
  unfold slice; rewrite encode_app; unfold len; rewrite app_length.
  destruct (_ && _) eqn:E; [|lia]; f_equal; cbn [skipn Z.to_nat].
  rewrite Z.sub_0_r, Nat2Z.id, firstn_app, firstn_all, Nat.sub_diag; cbn [firstn]; apply app_nil_r.
Qed.
Lemma slice_encode_back a b : slice (encode (a ++ b)) (len (encode a)) (len (encode (a ++ b))) = Ok (encode b).
Proof.
  unfold slice; rewrite encode_app; unfold len; rewrite app_length.
  destruct (_ && _) eqn:E; [|lia]; f_equal.
  rewrite Nat2Z.id, skipn_app, skipn_all, Nat.sub_diag; cbn [skipn app].
  apply firstn_all2; lia.
Qed.

Lemma nonempty_repeat c n : nonempty (encode (repeat c n)) = match n with O => false | S _ => true end.
Proof.
  destruct n as [|n]; [reflexivity|]; cbn [repeat encode flat_map].
  destruct (encode_rune c) eqn:E; [exfalso; revert E; apply encode_rune_nonnil|reflexivity].
Qed.

(** The text that takes the place of an impossible lookaround. *)
Definition paradox_text : list rune := txt ".^^".

Lemma expand_lookahead_text other l n :
  scalars other -> look_ok l ->
  (forall u1 u2, other = u1 ++ u2 -> u2 <> [] -> ~ tail (u2 ++ look_text l ++ repeat 0x24 n)) ->
  expand_lookahead (encode (other ++ look_text l ++ repeat 0x24 n)) =
  bind (dissolved l n neg_ahead) (fun '(x, neg, w, ok) =>
    if (ok : bool) then Ok (encode (other ++ 0x28 :: x ++ 0x29 :: 0x28 :: repeat 0x24 n ++ [0x29]), encode neg, w)
    else Ok (encode paradox_text, [], 0%Z)).
Proof.
  intros Hs Hl Hno.
  assert (tail (look_text l ++ repeat 0x24 n)) as Ht.
  { destruct l as [|x|x]; cbn [look_text app].
    - constructor.
    - rewrite <- app_assoc; destruct Hl as (Hn & _ & Hp & _); apply tail_look; [exact Hn|].
      eapply Forall_impl; [|exact Hp]; cbn; tauto.
    - rewrite <- app_assoc; destruct Hl as (Hp & _); apply (tail_look (0x7E :: x)); [discriminate|].
      constructor; [discriminate|]; eapply Forall_impl; [|exact Hp]; cbn; tauto. }
  assert (scalars (look_text l ++ repeat 0x24 n)) as Hs2.
  { apply scalars_app; split.
    - destruct l as [|x|x]; cbn [look_text app]; [constructor| |].
      + constructor; [reflexivity|]; apply scalars_app; split; [apply Hl|apply scalars_b; reflexivity].
      + constructor; [reflexivity|]; constructor; [reflexivity|].
        apply scalars_app; split; [apply Hl|apply scalars_b; reflexivity].
    - apply Forall_forall; intros r Hr; apply repeat_spec in Hr; subst r; reflexivity. }
  remember (look_text l ++ repeat 0x24 n) as T eqn:ET.
  assert (scalars (other ++ T)) as Hsa by (apply scalars_app; split; assumption).
  destruct (lookahead_found _ Hsa) as (u & v & E & Ha & Hmin).
  assert (u = other /\ v = T) as [-> ->].
  { pose proof (Hmin other T eq_refl Ht) as Hle.
    assert (tail v) as Htv.
    { destruct Ha as [(k & -> & _)|(lk & k & -> & Hn & Hlk & _)]; constructor; assumption. }
    symmetry in E; destruct (app_eq_app _ _ _ _ E) as (z & [[E1 E2]|[E1 E2]]).
    - (* u is longer *)
      subst u T; destruct z as [|r z]; [rewrite app_nil_r; auto|].
      rewrite encode_app, app_length in Hle; cbn [encode flat_map] in Hle; rewrite app_length in Hle.
      pose proof (encode_rune_length r); lia.
    - destruct z as [|r z]; [rewrite app_nil_r in E1; auto|].
      exfalso; eapply (Hno u (r :: z)); [exact E1|discriminate|]; rewrite <- E2; exact Htv. }
  unfold expand_lookahead.
  assert (exists a b, find_submatch_index reLookahead (encode (other ++ T)) =
      [len (encode other); len (encode (other ++ T)); a; b; len (encode (other ++ look_text l)); len (encode (other ++ T))]%Z /\
      substr (encode (other ++ T)) a b = encode (match l with NoLook => [] | Pos x => x | Neg x => 0x7E :: x end))
    as (a & b & -> & Eab).
  { destruct Ha as [(k & Ek & Em)|(lk & k & Ek & Hn & Hlk & Em)]; rewrite Em.
    - exists (-1)%Z, (-1)%Z.
      assert (l = NoLook) as ->.
      { destruct l as [|x|x]; [reflexivity| |]; subst T; destruct k; discriminate. }
      cbn [look_text]; rewrite app_nil_r; split; reflexivity.
    - assert (look_text l = 0x7B :: lk ++ [0x7D] /\ match l with NoLook => [] | Pos x => x | Neg x => 0x7E :: x end = lk) as [El Ex].
      { assert (forall x, Forall (fun r => r <> 0x7D) x ->
          (0x7B :: x ++ [0x7D]) ++ repeat 0x24 n = 0x7B :: lk ++ 0x7D :: repeat 0x24 k -> x = lk) as Hu.
        { intros x Hx Eq; cbn [app] in Eq; injection Eq as Eq; rewrite <- app_assoc in Eq; cbn [app] in Eq.
          clear -Hx Hlk Eq; revert lk Hlk Eq; induction Hx as [|r x Hr Hx IH]; intros lk Hlk Eq;
            destruct Hlk as [|r' lk Hr' Hlk]; cbn [app] in Eq; try reflexivity; injection Eq as E1 E2; subst.
          - congruence.
          - congruence.
          - f_equal; apply IH; assumption. }
        destruct l as [|x|x].
        - exfalso; subst T; cbn [look_text app] in Ek; destruct n; discriminate.
        - rewrite ET in Ek; cbn [look_text] in *; apply Hu in Ek; [subst; auto|].
          destruct Hl as (_ & _ & Hp & _); eapply Forall_impl; [|exact Hp]; cbn; tauto.
        - rewrite ET in Ek; cbn [look_text] in *; apply (Hu (0x7E :: x)) in Ek; [subst; auto|].
          destruct Hl as (Hp & _); constructor; [discriminate|]; eapply Forall_impl; [|exact Hp]; cbn; tauto. }
      exists (len (encode other) + 1)%Z, (len (encode other) + 1 + len (encode lk))%Z; split.
      + rewrite El; repeat f_equal.
        rewrite encode_app; unfold len; rewrite app_length.
        change (0x7B :: lk ++ [0x7D]) with (0x7B :: lk ++ 0x7D :: []); rewrite braced_length.
        cbn [encode flat_map length]; lia.
      + rewrite Ex, ET, El.
        pose proof (substr_encode (other ++ [0x7B : rune]) lk (0x7D :: repeat 0x24 n)) as Hx.
        assert (len (encode (other ++ [0x7B : rune])) = (len (encode other) + 1)%Z) as E1
          by (rewrite encode_app; unfold len; rewrite app_length;
              change (length (encode [0x7B : rune])) with 1%nat; lia).
        rewrite E1, <- app_assoc in Hx; cbn [app] in Hx |- *; rewrite <- app_assoc; exact Hx. }
  cbn [index nth_error Z.leb Z.compare Z.to_nat bind].
  rewrite slice_encode_front; cbn [bind].
  unfold captured.
  change (index [len (encode other); len (encode (other ++ T)); a; b; len (encode (other ++ look_text l)); len (encode (other ++ T))] (2 * 2)%Z)
    with (Ok (len (encode (other ++ look_text l)))).
  change (index [len (encode other); len (encode (other ++ T)); a; b; len (encode (other ++ look_text l)); len (encode (other ++ T))] (2 * 2 + 1)%Z)
    with (Ok (len (encode (other ++ T)))).
  change (index [len (encode other); len (encode (other ++ T)); a; b; len (encode (other ++ look_text l)); len (encode (other ++ T))] (1 * 2)%Z)
    with (Ok a).
  change (index [len (encode other); len (encode (other ++ T)); a; b; len (encode (other ++ look_text l)); len (encode (other ++ T))] (1 * 2 + 1)%Z)
    with (Ok b).
  cbn [bind].
  assert (substr (encode (other ++ T)) (len (encode (other ++ look_text l))) (len (encode (other ++ T)))
    = encode (repeat 0x24 n)) as ->.
  { pose proof (substr_encode (other ++ look_text l) (repeat 0x24 n) []) as Hx.
    rewrite app_nil_r, <- app_assoc, <- ET in Hx; refine (eq_trans _ Hx); f_equal.
    rewrite ET, app_assoc; rewrite (encode_app (other ++ look_text l) (repeat 36 n)); unfold len; rewrite app_length; lia. }
  rewrite Eab, !no_capture_text, nocap_repeat by discriminate.
  rewrite (dissolve_text l _ n _ neg_ahead Hl (nonempty_repeat _ _)).
  2: { intros x; unfold neg_ahead; rewrite !encode_app; reflexivity. }
  destruct (dissolved l n neg_ahead) as [[[[x neg] w] ok]| | | | |]; cbn [bind enc_dissolved]; try reflexivity.
  destruct ok; [|reflexivity]; f_equal; f_equal; f_equal.
  rewrite encode_app; f_equal; cbn [encode flat_map]; change (flat_map encode_rune) with encode.
  rewrite encode_app; cbn [encode flat_map]; change (flat_map encode_rune) with encode; rewrite encode_app; reflexivity.
Qed.

(** ** Lookbehind *)

(** A text that neither continues an edge nor starts with a lookaround. *)
Definition fresh (rest : list rune) : Prop :=
  match rest with
  | [] => True
  | r :: rest' => r <> 0x5E /\ (r = 0x7B -> match rest' with [] => True | r' :: _ => r' = 0x7D end)
  end.

Lemma braced_unique (l1 l2 : list (rune * nat)) w1 w2 s1 s2 :
  Forall (fun x => fst x <> 0x7D) l1 -> Forall (fun x => fst x <> 0x7D) l2 ->
  l1 ++ (0x7D, w1) :: s1 = l2 ++ (0x7D, w2) :: s2 -> l1 = l2 /\ s1 = s2 /\ w1 = w2.
Proof.
  intros H1; revert l2; induction H1 as [|x l1 Hx H1 IH]; intros l2 H2 E.
  - destruct H2 as [|y l2 Hy H2]; cbn [app] in E; [injection E as <- <-; auto|].
    injection E as <- _; cbn in Hy; congruence.
  - destruct H2 as [|y l2 Hy H2]; cbn [app] in E; [injection E as -> _; cbn in Hx; congruence|].
    injection E as <- E; destruct (IH l2 H2 E) as (-> & -> & ->); auto.
Qed.

Definition look_inner (l : look) : list rune :=
  match l with NoLook => [] | Pos x => x | Neg x => 0x7E :: x end.
Lemma look_text_inner l : l <> NoLook -> look_text l = 0x7B :: look_inner l ++ [0x7D].
Proof. destruct l; [congruence|reflexivity|reflexivity]. Qed.
Lemma look_inner_ok l : look_ok l -> l <> NoLook ->
  look_inner l <> [] /\ Forall (fun r => r <> 0x7D) (look_inner l) /\ scalars (look_inner l).
Proof.
  destruct l as [|x|x]; [congruence| |]; cbn [look_ok look_inner]; intros H _.
  - destruct H as (Hn & _ & Hp & Hs); split; [exact Hn|]; split; [|exact Hs].
    eapply Forall_impl; [|exact Hp]; cbn; tauto.
  - destruct H as (Hp & Hs); split; [discriminate|]; split; [constructor; [discriminate|]|constructor; [reflexivity|exact Hs]].
    eapply Forall_impl; [|exact Hp]; cbn; tauto.
Qed.
Lemma look_text_scalars l : look_ok l -> scalars (look_text l).
Proof.
  intros H; destruct l as [|x|x]; [constructor| |].
  - constructor; [reflexivity|]; apply scalars_app; split; [apply H|apply scalars_b; reflexivity].
  - constructor; [reflexivity|]; apply scalars_app; split; [constructor; [reflexivity|apply H]|apply scalars_b; reflexivity].
Qed.
Lemma repeat_scalars c n : is_scalar c = true -> scalars (repeat c n).
Proof. intros H; apply Forall_forall; intros r Hr; apply repeat_spec in Hr; subst r; exact H. Qed.

Definition to_some (_ : text) (p : nat) (c : caps) : option (nat * caps) := Some (p, c).

Lemma mt_behind_look look rest p c :
  look <> [] -> Forall (fun r => r <> 0x7D) look -> scalars look ->
  mt (XAlt (braced 2) XEps) (map gl (0x7B :: look ++ 0x7D :: rest)) p c to_some =
  Some ((p + 2 + length (encode look))%nat, (2%nat, (p + 1, p + 1 + length (encode look))%nat) :: c).
Proof.
  intros Hn Hl Hs; cbn [mt].
  assert (runs (braced 2) (map gl (0x7B :: look ++ 0x7D :: rest)) p c (map gl rest)
    (p + 1 + gwidth (map gl look) + 1) ((2%nat, (p + 1, p + 1 + gwidth (map gl look))%nat) :: c)) as Hr.
  { cbn [map]; rewrite map_app; cbn [map].
    apply (runs_braced_intro 2 1 (map gl look) 1); [destruct look; [congruence|discriminate]|apply wide_gl|].
    rewrite Forall_map; apply Forall_forall; intros x Hx; cbn [gl fst].
    unfold scalars in Hs; rewrite Forall_forall in Hl, Hs; apply not_close_in; [apply Hs|apply Hl]; exact Hx. }
  destruct (mt (braced 2) _ p c to_some) as [x|] eqn:E.
  2: { exfalso; revert E; eapply mt_complete; [exact Hr|discriminate]. }
  apply mt_sound in E; destruct E as (s' & p' & c' & Hr' & Ex).
  apply runs_braced in Hr'; destruct Hr' as (w1 & lk & w2 & E1 & Hn' & Hl' & -> & ->).
  cbn [map] in E1; rewrite map_app in E1; cbn [map] in E1.
  remember (gl 0x7B) as g1 eqn:G1; remember (gl 0x7D) as g2 eqn:G2.
  injection E1 as E0 E1; rewrite E0 in G1; injection G1 as ->; subst g2.
  destruct (braced_unique (map gl look) lk 1 w2 (map gl rest) s') as (<- & <- & <-); [|exact Hl'|exact E1|].
  { rewrite Forall_map; exact Hl. }
  unfold to_some in Ex; injection Ex as <-; rewrite gwidth_gl.
  replace (p + 2 + length (encode look))%nat with (p + 1 + length (encode look) + 1)%nat by lia; reflexivity.
Qed.

Lemma mt_behind_none rest p c : fresh rest ->
  mt (XAlt (braced 2) XEps) (map gl rest) p c to_some = Some (p, c).
Proof.
  intros Hf; cbn [mt]; destruct (mt (braced 2) (map gl rest) p c to_some) as [x|] eqn:E; [|reflexivity].
  exfalso; apply mt_sound in E; destruct E as (s' & p' & c' & Hr & _).
  apply runs_braced in Hr; destruct Hr as (w1 & lk & w2 & E & Hn & Hl & _).
  destruct rest as [|r rest]; [discriminate|]; cbn [map] in E; injection E as -> _ E.
  destruct Hf as [_ Hf]; specialize (Hf eq_refl).
  destruct lk as [|[ch w] lk]; [congruence|].
  destruct rest as [|r' rest]; [discriminate|]; cbn [map app] in E; injection E as -> _ _.
  inversion Hl; subst; cbn in *; congruence.
Qed.

Lemma lookbehind_array i l rest :
  look_ok l -> (l = NoLook -> fresh rest) -> scalars rest ->
  let rs := repeat 0x5E i ++ look_text l ++ rest in
  exists a b, find_submatch_index reLookbehind (encode rs) =
    [0; Z.of_nat i + len (encode (look_text l)); 0; Z.of_nat i; a; b]%Z /\
    substr (encode rs) a b = encode (look_inner l).
Proof.
  intros Hl Hf Hs rs; unfold find_submatch_index.
  assert (scalars rs) as Hrs.
  { apply scalars_app; split; [apply repeat_scalars; reflexivity|].
    apply scalars_app; split; [apply look_text_scalars; exact Hl|exact Hs]. }
  rewrite glyphs_encode by exact Hrs; change (numcap reLookbehind) with 2%nat; rewrite lookbehind_prog.
  assert (forall s, search (XCat XBegin (XCat (XCap 1 (XStar true (XSet [(0x5E, 0x5E)]))) (XAlt (braced 2) XEps))) s 0 =
    match mt_loop true (XSet (is_c 0x5E)) (fun s' p' c' => mt (XAlt (braced 2) XEps) s' p' ((1%nat, (O, p')) :: c') to_some)
            s s 0 [] with
    | Some (p', c) => Some (O, p', c)
    | None => match s with [] => None | (_, w) :: s' =>
        search (XCat XBegin (XCat (XCap 1 (XStar true (XSet [(0x5E, 0x5E)]))) (XAlt (braced 2) XEps))) s' (0 + w)
        end
    end) as Hse by (intros s; destruct s; reflexivity).
  rewrite Hse; clear Hse.
  assert (gwidth (map gl (repeat 0x5E i)) = i) as Ei.
  { rewrite gwidth_gl, encode_ascii_text; [apply repeat_length|].
    apply Forall_forall; intros r Hr; apply repeat_spec in Hr; subst r; reflexivity. }
  unfold rs; rewrite map_app.
  assert (all_c 0x5E (map gl (repeat 0x5E i))) as Hall.
  { unfold all_c; rewrite Forall_map; apply Forall_forall; intros r Hr; apply repeat_spec in Hr; exact Hr. }
  destruct l as [|x|x].
  - cbn [look_text app look_inner]; specialize (Hf eq_refl).
    rewrite (mt_loop_run 0x5E _ (map gl (repeat 0x5E i)) (map gl rest) Hall).
    + rewrite Ei, mt_behind_none by exact Hf.
      exists (-1)%Z, (-1)%Z; split; [|reflexivity].
      cbn [cap_array cap_lookup Nat.eqb app]; change (len (encode [])) with 0%Z; rewrite Z.add_0_r, Nat.add_0_l; reflexivity.
    + destruct rest as [|r rest]; [exact I|apply Hf].
    + apply wide_gl.
    + rewrite app_length; apply Nat.le_add_r.
    + rewrite mt_behind_none by exact Hf; discriminate.
  - destruct (look_inner_ok (Pos x) Hl ltac:(discriminate)) as (Hn & Hc & Hsl).
    change (look_text (Pos x) ++ rest) with ((0x7B :: look_inner (Pos x) ++ [0x7D]) ++ rest).
    cbn [app]; rewrite <- (app_assoc (look_inner (Pos x))); cbn [app].
    rewrite (mt_loop_run 0x5E _ (map gl (repeat 0x5E i)) (map gl (0x7B :: look_inner (Pos x) ++ 0x7D :: rest)) Hall).
    + rewrite Ei, mt_behind_look by assumption.
      eexists; eexists; split.
      * cbn [cap_array cap_lookup Nat.eqb app]; rewrite Nat.add_0_l.
        change (look_text (Pos x)) with (0x7B :: look_inner (Pos x) ++ 0x7D :: []); unfold len; rewrite braced_length.
        cbn [encode flat_map length].
        replace (Z.of_nat (i + 2 + length (encode (look_inner (Pos x)))))
          with (Z.of_nat i + Z.of_nat (length (encode (look_inner (Pos x))) + 0 + 2))%Z by lia.
        reflexivity.
      * pose proof (substr_encode (repeat 0x5E i ++ [0x7B : rune]) (look_inner (Pos x)) (0x7D :: rest)) as Hx.
        rewrite <- app_assoc in Hx; cbn [app] in Hx; refine (eq_trans _ Hx).
        assert (len (encode (repeat 0x5E i ++ [0x7B : rune])) = Z.of_nat (i + 1)) as ->.
        { rewrite encode_app; unfold len; rewrite app_length; rewrite gwidth_gl in Ei; rewrite Ei; reflexivity. }
        unfold len; rewrite !Nat2Z.inj_add; reflexivity.
    + cbn; discriminate.
    + apply wide_gl.
    + rewrite app_length; apply Nat.le_add_r.
    + rewrite mt_behind_look by assumption; discriminate.
  - destruct (look_inner_ok (Neg x) Hl ltac:(discriminate)) as (Hn & Hc & Hsl).
    change (look_text (Neg x) ++ rest) with ((0x7B :: look_inner (Neg x) ++ [0x7D]) ++ rest).
    cbn [app]; rewrite <- (app_assoc (look_inner (Neg x))); cbn [app].
    rewrite (mt_loop_run 0x5E _ (map gl (repeat 0x5E i)) (map gl (0x7B :: look_inner (Neg x) ++ 0x7D :: rest)) Hall).
    + rewrite Ei, mt_behind_look by assumption.
      eexists; eexists; split.
      * cbn [cap_array cap_lookup Nat.eqb app]; rewrite Nat.add_0_l.
        change (look_text (Neg x)) with (0x7B :: look_inner (Neg x) ++ 0x7D :: []); unfold len; rewrite braced_length.
        cbn [encode flat_map length].
        replace (Z.of_nat (i + 2 + length (encode (look_inner (Neg x)))))
          with (Z.of_nat i + Z.of_nat (length (encode (look_inner (Neg x))) + 0 + 2))%Z by lia.
        reflexivity.
      * pose proof (substr_encode (repeat 0x5E i ++ [0x7B : rune]) (look_inner (Neg x)) (0x7D :: rest)) as Hx.
        rewrite <- app_assoc in Hx; cbn [app] in Hx; refine (eq_trans _ Hx).
        assert (len (encode (repeat 0x5E i ++ [0x7B : rune])) = Z.of_nat (i + 1)) as ->.
        { rewrite encode_app; unfold len; rewrite app_length; rewrite gwidth_gl in Ei; rewrite Ei; reflexivity. }
        unfold len; rewrite !Nat2Z.inj_add; reflexivity.
    + cbn; discriminate.
    + apply wide_gl.
    + rewrite app_length; apply Nat.le_add_r.
    + rewrite mt_behind_look by assumption; discriminate.
Qed.

Lemma expand_lookbehind_text i l rest :
  look_ok l -> (l = NoLook -> fresh rest) -> scalars rest ->
  expand_lookbehind (encode (repeat 0x5E i ++ look_text l ++ rest)) =
  bind (dissolved l i neg_behind) (fun '(x, neg, w, ok) =>
    if (ok : bool) then Ok (encode (0x28 :: repeat 0x5E i ++ 0x29 :: 0x28 :: x ++ 0x29 :: rest), encode neg, w)
    else Ok (encode paradox_text, [], 0%Z)).
Proof.
  intros Hl Hf Hs; unfold expand_lookbehind.
  destruct (lookbehind_array i l rest Hl Hf Hs) as (a & b & -> & Eab).
  change (index [0%Z; (Z.of_nat i + len (encode (look_text l)))%Z; 0%Z; Z.of_nat i; a; b] 1%Z)
    with (Ok (Z.of_nat i + len (encode (look_text l)))%Z); cbn [bind].
  assert (len (encode (repeat 0x5E i)) = Z.of_nat i) as Ei.
  { unfold len; rewrite encode_ascii_text; [rewrite repeat_length; reflexivity|].
    apply Forall_forall; intros r Hr; apply repeat_spec in Hr; subst r; reflexivity. }
  pose proof (slice_encode_back (repeat 0x5E i ++ look_text l) rest) as Hsl.
  rewrite <- app_assoc in Hsl.
  assert (len (encode (repeat 0x5E i ++ look_text l)) = (Z.of_nat i + len (encode (look_text l)))%Z) as El.
  { rewrite encode_app; unfold len in *; rewrite app_length; lia. }
  rewrite El in Hsl; unfold rune in *; rewrite Hsl; cbn [bind].
  unfold captured.
  change (index [0%Z; (Z.of_nat i + len (encode (look_text l)))%Z; 0%Z; Z.of_nat i; a; b] (1 * 2)%Z) with (Ok 0%Z).
  change (index [0%Z; (Z.of_nat i + len (encode (look_text l)))%Z; 0%Z; Z.of_nat i; a; b] (1 * 2 + 1)%Z) with (Ok (Z.of_nat i)).
  change (index [0%Z; (Z.of_nat i + len (encode (look_text l)))%Z; 0%Z; Z.of_nat i; a; b] (2 * 2)%Z) with (Ok a).
  change (index [0%Z; (Z.of_nat i + len (encode (look_text l)))%Z; 0%Z; Z.of_nat i; a; b] (2 * 2 + 1)%Z) with (Ok b).
  cbn [bind].
  pose proof (substr_encode [] (repeat 0x5E i) (look_text l ++ rest)) as Hx.
  cbn [app] in Hx; change (len (encode [])) with 0%Z in Hx; rewrite Z.add_0_l, Ei in Hx; unfold rune in *; rewrite Hx.
  rewrite Eab, !no_capture_text, nocap_repeat by discriminate.
  change (nocap (look_inner l)) with (nocap (match l with NoLook => [] | Pos x => x | Neg x => 0x7E :: x end)).
  rewrite (dissolve_text l _ i _ neg_behind Hl (nonempty_repeat _ _)).
  2: { intros x; unfold neg_behind; rewrite !encode_app; reflexivity. }
  destruct (dissolved l i neg_behind) as [[[[x neg] w] ok]| | | | |]; cbn [bind enc_dissolved]; try reflexivity.
  destruct ok; [|reflexivity]; f_equal; f_equal; f_equal.
  cbn [encode flat_map]; change (flat_map encode_rune) with encode.
  rewrite encode_app; cbn [encode flat_map]; change (flat_map encode_rune) with encode; rewrite encode_app.
  cbn [encode flat_map]; change (flat_map encode_rune) with encode.
  change (encode_rune 40) with (lit "("); change (encode_rune 41) with (lit ")").
  change (lit ")(") with (lit ")" ++ lit "("); rewrite <- !app_assoc; reflexivity.
Qed.
