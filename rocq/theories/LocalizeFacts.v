(** Facts about procedure.localize and about what Hangulize returns. *)
From Verif Require Import GoBase Utf8 Utf8Facts UniTables Unicode Replacer Scripts Spec Jamo Procedure.
Open Scope N_scope.

(** ** Specification of localization *)

(** How a punctuation character of a script is written in Korean: spaces before, the
    character itself, spaces after. *)
Definition punct_parts (sc : script) (ch : rune) : list rune * list rune * list rune :=
  match sc with
  | Hrkt =>
    if ch =? 0x3002 then ([], [0x2E], [0x20])
    else if ch =? 0x3001 then ([], [0x2C], [0x20])
    else if ch =? 0xFF1A then ([], [0x3A], [0x20])
    else if ch =? 0xFF01 then ([], [0x21], [0x20])
    else if ch =? 0xFF1F then ([], [0x3F], [0x20])
    else if ch =? 0x301C then ([], [0x7E], [])
    else if ch =? 0x300C then ([0x20], [0x27], [])
    else if ch =? 0x300D then ([], [0x27], [0x20])
    else if ch =? 0x300E then ([0x20], [0x22], [])
    else if ch =? 0x300F then ([], [0x22], [0x20])
    else ([], [ch], [])
  | _ => ([], [ch], [])
  end.

(** The edge of the text, punctuation or space. *)
Definition gap (c : option rune) : bool :=
  match c with None => true | Some c => is_punct c || is_space c end.

(** What becomes of the character [ch] between [before] and [after]. *)
Definition localized (sc : script) (before : option rune) (ch : rune) (after : option rune)
  : list rune :=
  if ch =? 0x200B then []
  else if negb (is_punct ch) then [ch]
  else let '(l, m, r) := punct_parts sc ch in
       (if gap before then [] else l) ++ m ++ (if gap after then [] else r).

(** The whole text, character by character. *)
Fixpoint localized_text (sc : script) (before : option rune) (chars : list rune) : list rune :=
  match chars with
  | [] => []
  | ch :: rest => localized sc before ch (hd_error rest) ++ localized_text sc (Some ch) rest
  end.

Lemma in_ranges_forallb (f : N -> bool) (tab : list (N * N)) r :
  forallb (fun x => (snd x <? fst x) || negb ((fst x <=? r) && (r <=? snd x))) tab = true ->
  in_ranges tab r = false.
Proof.
  induction tab as [|[lo hi] tab IH]; [reflexivity|]; cbn [forallb in_ranges fst snd].
  intros H; apply andb_true_iff in H; destruct H as [H1 H2].
  destruct (r <? lo) eqn:E1; [reflexivity|]; destruct (r <=? hi) eqn:E2; [lia|].
  apply IH; exact H2.
Qed.

Definition space_list : list rune :=
  [9; 10; 11; 12; 13; 32; 0x85; 0xA0; 0x1680; 0x2000; 0x2001; 0x2002; 0x2003; 0x2004; 0x2005;
   0x2006; 0x2007; 0x2008; 0x2009; 0x200A; 0x2028; 0x2029; 0x202F; 0x205F; 0x3000].
Lemma is_space_in r : is_space r = true -> In r space_list.
Proof.
  intros H; assert (nmem r space_list = true) as Hm.
  { unfold is_space in H; unfold nmem, space_list; cbn [existsb]; destruct (r <=? 0xFF); lia. }
  unfold nmem in Hm; apply existsb_exists in Hm; destruct Hm as (x & Hx & E).
  apply N.eqb_eq in E; subst; exact Hx.
Qed.
Lemma space_not_punct r : is_space r = true -> is_punct r = false.
Proof.
  intros H; apply is_space_in in H.
  assert (forallb (fun x => negb (is_punct x)) space_list = true) as Hf by (vm_compute; reflexivity).
  rewrite forallb_forall in Hf; specialize (Hf r H); destruct (is_punct r); [discriminate|reflexivity].
Qed.
Lemma punct_not_space r : is_punct r = true -> is_space r = false.
Proof.
  intros H; destruct (is_space r) eqn:E; [|reflexivity].
  rewrite (space_not_punct r E) in H; discriminate.
Qed.

Lemma trim_left_single r : is_space r = false -> trim_left_r is_space [r] = [r].
Proof. intros H; cbn; rewrite H; reflexivity. Qed.
Lemma trim_right_single r : is_space r = false -> trim_right_r is_space [r] = [r].
Proof. intros H; unfold trim_right_r; cbn; rewrite H; reflexivity. Qed.

Lemma localized_punct sc before ch after :
  ch <> 0x200B -> is_punct ch = true ->
  (let p0 := localize_punct sc ch in
   let p1 := if gap before then trim_left_r is_space p0 else p0 in
   if gap after then trim_right_r is_space p1 else p1) = localized sc before ch after.
Proof.
  intros Hz Hp; pose proof (punct_not_space ch Hp) as Hs; unfold localized.
  assert (ch =? 0x200B = false) as -> by lia; rewrite Hp; cbn [negb].
  cbv zeta.
  destruct sc; unfold localize_punct, punct_parts;
  repeat match goal with
  | |- context [ch =? ?k] =>
    destruct (N.eqb_spec ch k) as [->|_]; [destruct (gap before), (gap after); reflexivity|]
  end;
  destruct (gap before), (gap after); rewrite ?trim_left_single, ?trim_right_single by exact Hs;
    reflexivity.
Qed.

Lemma localize_loop_spec sc before chars :
  localize_loop sc (gap before) chars = localized_text sc before chars.
Proof.
  revert before; induction chars as [|ch rest IH]; intros before; [reflexivity|].
  cbn [localize_loop localized_text].
  change (ps ch) with (gap (Some ch)); rewrite IH.
  destruct (N.eqb_spec ch 0x200B) as [E|E].
  - unfold localized; subst; reflexivity.
  - destruct (is_punct ch) eqn:Hp; cbn [negb].
    + rewrite <- (localized_punct sc before ch (hd_error rest) E Hp); cbv zeta.
      destruct rest as [|n rest]; reflexivity.
    + unfold localized; rewrite Hp; cbn [negb].
      assert (ch =? 0x200B = false) as -> by lia; reflexivity.
Qed.

Lemma localize_word_spec sc word :
  localize_word sc word = encode (localized_text sc None (runes word)).
Proof. unfold localize_word; rewrite <- localize_loop_spec; reflexivity. Qed.

Lemma punct_parts_scalar sc ch :
  is_scalar ch = true ->
  let '(l, m, r) := punct_parts sc ch in scalars l /\ scalars m /\ scalars r.
Proof.
  intros Hs; unfold scalars; destruct sc; cbn [punct_parts];
    repeat match goal with |- context [ch =? ?k] => destruct (ch =? k) end;
    repeat split; repeat constructor; exact Hs.
Qed.
Lemma localized_scalar sc b ch a : is_scalar ch = true -> scalars (localized sc b ch a).
Proof.
  intros Hs; unfold localized.
  destruct (ch =? 0x200B); [constructor|].
  destruct (negb (is_punct ch)); [repeat constructor; exact Hs|].
  pose proof (punct_parts_scalar sc ch Hs) as H; destruct (punct_parts sc ch) as [[l m] r].
  destruct H as (H1 & H2 & H3); unfold scalars in *.
  rewrite !Forall_app; repeat split; [destruct (gap b)|exact H2|destruct (gap a)];
    try assumption; constructor.
Qed.
Lemma localized_text_scalar sc b (chars : list rune) : scalars chars -> scalars (localized_text sc b chars).
Proof.
  intros H; revert b; induction H as [|ch chars Hch H IH]; intros b; cbn [localized_text]; [constructor|].
  unfold scalars; apply Forall_app; split; [apply localized_scalar; exact Hch|apply IH].
Qed.

Lemma localize_word_runes sc word :
  runes (localize_word sc word) = localized_text sc None (runes word).
Proof.
  rewrite localize_word_spec; apply runes_encode, localized_text_scalar, runes_scalar.
Qed.

Lemma punct_parts_no_zwsp sc ch :
  ch <> 0x200B ->
  let '(l, m, r) := punct_parts sc ch in ~ In 0x200B l /\ ~ In 0x200B m /\ ~ In 0x200B r.
Proof.
  intros Hn; destruct sc; cbn [punct_parts];
    repeat match goal with |- context [ch =? ?k] => destruct (ch =? k) end;
    cbn [In]; repeat split; intuition congruence.
Qed.
Lemma localized_text_no_zwsp sc b chars : ~ In 0x200B (localized_text sc b chars).
Proof.
  revert b; induction chars as [|ch rest IH]; intros b; cbn [localized_text]; [intros []|].
  rewrite in_app_iff; intros [Hin|Hin]; [|exact (IH _ Hin)].
  unfold localized in Hin.
  destruct (N.eqb_spec ch 0x200B) as [E|E]; [destruct Hin|].
  destruct (negb (is_punct ch)); [destruct Hin as [Hin|[]]; congruence|].
  pose proof (punct_parts_no_zwsp sc ch E) as H; destruct (punct_parts sc ch) as [[l m] r].
  destruct H as (H1 & H2 & H3).
  rewrite !in_app_iff in Hin; destruct (gap b), (gap (hd_error rest)); cbn [In] in Hin; tauto.
Qed.

(** ** What forward returns was written by localize *)
Lemma forward_localized {W} H s (reg : list (bytes * translit W)) on w word w' tr out :
  forward H s reg on w word = (w', tr, Ok out) ->
  exists word2, out = localize_word (s_script s) word2.
Proof.
  unfold forward; destruct (transliterate _ _ _ _ _) as [[w1 tr1] r].
  destruct r as [word1|e|p| | |]; try discriminate.
  unfold after_translit; destruct (normalize s tr1 word1) as [tra wa].
  destruct (partition s wa) as [sws0| | | | |]; cbn [bind]; try discriminate.
  destruct (rewrite s tra sws0) as [[trb sws1]| | | | |]; cbn [bind]; try discriminate.
  destruct (transcribe s trb sws1) as [[trc sws2]| | | | |]; cbn [bind]; try discriminate.
  destruct (syllabify H trc sws2) as [trd wd]; unfold localize.
  intros E; injection E as _ _ <-; exists wd; reflexivity.
Qed.

Lemma forward_utf8 {W} H s (reg : list (bytes * translit W)) on w word w' tr out :
  forward H s reg on w word = (w', tr, Ok out) -> utf8_text out.
Proof.
  intros E; apply forward_localized in E; destruct E as (w2 & ->).
  apply encode_utf8_text.
Qed.
Lemma forward_no_zwsp {W} H s (reg : list (bytes * translit W)) on w word w' tr out :
  forward H s reg on w word = (w', tr, Ok out) -> ~ In 0x200B (runes out).
Proof.
  intros E; apply forward_localized in E; destruct E as (w2 & ->).
  rewrite localize_word_runes; apply localized_text_no_zwsp.
Qed.

(** ** No stray spaces *)
Definition is_sp (c : rune) : Prop := is_space c = true.

Lemma punct_parts_shape sc ch :
  is_punct ch = true ->
  let '(l, m, r) := punct_parts sc ch in exists x, m = [x] /\ is_space x = false
    /\ (l = [] \/ l = [0x20]) /\ (r = [] \/ r = [0x20]).
Proof.
  intros Hp; pose proof (punct_not_space ch Hp) as Hs.
  destruct sc; cbn [punct_parts];
    repeat match goal with |- context [ch =? ?k] => destruct (ch =? k) end;
    eexists; (split; [reflexivity|]); (split; [try exact Hs; reflexivity|]); auto.
Qed.

(** The shape of one piece: optional space, one character that is not a space, optional
    space; the optional spaces only where the neighbour is an ordinary character. *)
Lemma localized_shape sc b ch a :
  ch <> 0x200B ->
  (localized sc b ch a = [ch] /\ is_punct ch = false) \/
  exists x, is_space x = false /\ is_punct ch = true /\
    exists l r, localized sc b ch a = l ++ [x] ++ r
      /\ (l = [] \/ (l = [0x20] /\ gap b = false)) /\ (r = [] \/ (r = [0x20] /\ gap a = false)).
Proof.
  intros Hz; unfold localized; assert (ch =? 0x200B = false) as -> by lia.
  destruct (is_punct ch) eqn:Hp; cbn [negb]; [right|left; auto].
  pose proof (punct_parts_shape sc ch Hp) as H; destruct (punct_parts sc ch) as [[l m] r].
  destruct H as (x & -> & Hx & Hl & Hr); exists x; split; [exact Hx|]; split; [reflexivity|].
  eexists _, _; split; [reflexivity|].
  destruct (gap b), (gap a); split; tauto.
Qed.

Lemma localized_text_head sc b (chars : list rune) x rest :
  ~ In 0x200B chars -> gap b = true ->
  localized_text sc b chars = x :: rest -> is_space x = true -> hd_error chars = Some x.
Proof.
  destruct chars as [|ch chars]; [discriminate|]; intros Hz Hg; cbn [localized_text];
    change (hd_error (ch :: chars)) with (Some ch).
  assert (ch <> 0x200B) as Hz' by (intros ->; apply Hz; left; reflexivity).
  destruct (localized_shape sc b ch (hd_error chars) Hz') as [[-> _]|(y & Hy & _ & l & r & -> & Hl & _)].
  - intros E Hx; injection E as -> _; reflexivity.
  - destruct Hl as [->|[-> Hg']]; [|congruence]; cbn [app].
    intros E Hx; injection E as -> _; congruence.
Qed.

(** Two adjacent spaces of the result were adjacent in the text. *)
Inductive adjacent {A} (x y : A) : list A -> Prop :=
| adj_here l : adjacent x y (x :: y :: l)
| adj_later z l : adjacent x y l -> adjacent x y (z :: l).

Lemma adjacent_inv {A} (x y : A) z l :
  adjacent x y (z :: l) -> (z = x /\ hd_error l = Some y) \/ adjacent x y l.
Proof. intros H; inversion H; subst; [left; split; reflexivity|right; assumption]. Qed.
Lemma adjacent_app {A} (x y : A) a b :
  adjacent x y (a ++ b) ->
  adjacent x y a \/ adjacent x y b \/ (exists a', a = a' ++ [x]) /\ hd_error b = Some y.
Proof.
  induction a as [|z a IH]; cbn [app]; intros H; [auto|].
  apply adjacent_inv in H; destruct H as [[-> H]|H].
  - destruct a as [|z2 a]; cbn [app] in *.
    + right; right; split; [exists []; reflexivity|exact H].
    + injection H as ->; left; constructor.
  - destruct (IH H) as [H1|[H1|[(a' & ->) H1]]]; [left; constructor; exact H1|auto|].
    right; right; split; [exists (z :: a'); reflexivity|exact H1].
Qed.

Lemma localized_text_nonempty sc b (chars : list rune) :
  ~ In 0x200B chars -> localized_text sc b chars = [] -> chars = [].
Proof.
  destruct chars as [|ch chars]; [reflexivity|]; intros Hz; cbn [localized_text].
  assert (ch <> 0x200B) as Hz' by (intros ->; apply Hz; left; reflexivity).
  destruct (localized_shape sc b ch (hd_error chars) Hz') as [[-> _]|(y & Hy & _ & l & r & -> & _ & _)].
  - discriminate.
  - intros E; apply app_eq_nil in E; destruct E as [E _]; apply app_eq_nil in E; destruct E; discriminate.
Qed.

Lemma localized_text_last sc b (chars : list rune) x pre :
  ~ In 0x200B chars ->
  localized_text sc b chars = pre ++ [x] -> is_space x = true -> exists p, chars = p ++ [x].
Proof.
  revert b pre; induction chars as [|ch chars IH]; intros b pre Hz E Hx.
  - destruct pre; discriminate.
  - cbn [localized_text] in E.
    assert (~ In 0x200B chars) as Hz2 by (intros Hi; apply Hz; right; exact Hi).
    assert (ch <> 0x200B) as Hz' by (intros ->; apply Hz; left; reflexivity).
    destruct (localized_text sc (Some ch) chars) as [|t ts] eqn:Et using rev_ind.
    + apply localized_text_nonempty in Et; [|exact Hz2]; subst chars; rewrite app_nil_r in E.
      destruct (localized_shape sc b ch (hd_error []) Hz') as [[Hp _]|(y & Hy & _ & l & r & Hp & _ & Hr)];
        rewrite Hp in E.
      * apply (app_inj_tail [] pre) in E; destruct E as [_ ->]; exists []; reflexivity.
      * destruct Hr as [->|[_ Hr]]; [|discriminate].
        rewrite app_nil_r in E; apply app_inj_tail in E; destruct E as [_ ->]; congruence.
    + rewrite app_assoc in E; apply app_inj_tail in E; destruct E as [_ ->].
      destruct (IH (Some ch) ts Hz2 Et Hx) as (p & ->); exists (ch :: p); reflexivity.
Qed.

Lemma localized_text_adjacent sc b (chars : list rune) x y :
  ~ In 0x200B chars -> is_space x = true -> is_space y = true ->
  adjacent x y (localized_text sc b chars) -> adjacent x y chars.
Proof.
  intros Hz Hx Hy; revert b; induction chars as [|ch chars IH]; intros b H; [inversion H|].
  cbn [localized_text] in H.
  assert (~ In 0x200B chars) as Hz2 by (intros Hi; apply Hz; right; exact Hi).
  assert (ch <> 0x200B) as Hz' by (intros ->; apply Hz; left; reflexivity).
  apply adjacent_app in H; destruct H as [H|[H|[(a' & Ha) H]]].
  - exfalso; destruct (localized_shape sc b ch (hd_error chars) Hz') as
      [[Hp _]|(z & Hz3 & _ & l & r & Hp & Hl & Hr)]; rewrite Hp in H.
    + apply adjacent_inv in H; destruct H as [[_ H]|H]; [discriminate|inversion H].
    + destruct Hl as [->|[-> _]], Hr as [->|[-> _]]; cbn [app] in H;
        repeat match goal with
        | H : adjacent _ _ (_ :: _) |- _ => inversion H; subst; clear H
        | H : adjacent _ _ [] |- _ => inversion H
        end; try congruence.
  - constructor; apply (IH Hz2 _ H).
  - destruct chars as [|c2 chars]; [discriminate|].
    assert (c2 <> 0x200B) as Hz4 by (intros ->; apply Hz; right; left; reflexivity).
    cbn [localized_text] in *; change (hd_error (c2 :: chars)) with (Some c2) in *.
    destruct (localized_shape sc b ch (Some c2) Hz') as
      [[Hp Hnp]|(z & Hz3 & Hpn & l & r & Hp & _ & Hr)]; rewrite Hp in Ha.
    + apply (app_inj_tail [] a') in Ha; destruct Ha as [_ <-].
      destruct (localized_shape sc (Some ch) c2 (hd_error chars) Hz4) as
        [[Hq _]|(z & Hz3 & _ & l & r & Hq & Hl & _)]; rewrite Hq in H; cbn [app hd_error] in H.
      * injection H as ->; constructor.
      * destruct Hl as [->|[-> Hg]]; cbn [app hd_error] in H; [injection H as ->; congruence|].
        unfold gap in Hg; rewrite Hx, orb_true_r in Hg; discriminate.
    + destruct Hr as [->|[-> Hg]].
      * rewrite app_nil_r in Ha; apply app_inj_tail in Ha; destruct Ha as [_ ->]; congruence.
      * unfold gap in Hg.
        destruct (localized_shape sc (Some ch) c2 (hd_error chars) Hz4) as
          [[Hq _]|(z2 & Hz5 & Hpn2 & l2 & r2 & Hq & Hl2 & _)]; rewrite Hq in H; cbn [app hd_error] in H.
        -- injection H as ->; rewrite Hy, orb_true_r in Hg; discriminate.
        -- rewrite Hpn2 in Hg; discriminate.
Qed.
