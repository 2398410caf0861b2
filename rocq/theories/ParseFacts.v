(** The regexp parser: it always returns, and it works piece by piece. *)
From Verif Require Import GoBase Utf8 Regex RegexParse.
Open Scope N_scope.

(** Neither a panic nor a hang nor a lack of fuel. *)
Definition clean {A} (r : res A) : Prop :=
  match r with Ok _ | Err _ | Unmodelled => True | _ => False end.
Lemma clean_bind {A B} (r : res A) (k : A -> res B) :
  clean r -> (forall a, r = Ok a -> clean (k a)) -> clean (bind r k).
Proof. destruct r; cbn; try tauto; intros _ H; apply H; reflexivity. Qed.

(** ** Character classes *)
Lemma parse_escape_clean t : clean (parse_escape t).
Proof.
  unfold parse_escape; destruct t as [|c t]; [exact I|].
  repeat match goal with |- context [if ?b then _ else _] => destruct b end; exact I.
Qed.
Lemma parse_escape_tail t c t' : parse_escape t = Ok (c, t') -> exists d, t = d :: t'.
Proof.
  unfold parse_escape; destruct t as [|d t]; [discriminate|]; intros H; exists d; f_equal; revert H.
  repeat match goal with |- context [if ?b then _ else _] => destruct b end;
    intros H; try discriminate; injection H; auto.
Qed.
Lemma parse_escape_app t c t' u : parse_escape t = Ok (c, t') -> parse_escape (t ++ u) = Ok (c, t' ++ u).
Proof.
  unfold parse_escape; destruct t as [|d t]; [discriminate|]; cbn [app].
  repeat match goal with |- context [if ?b then _ else _] => destruct b end;
    intros H; try discriminate; injection H as <- <-; reflexivity.
Qed.

Lemma parse_class_char_clean t : clean (parse_class_char t).
Proof. destruct t as [|c t]; [exact I|]; cbn; destruct (c =? 0x5C); [apply parse_escape_clean|exact I]. Qed.
Lemma parse_class_char_tail t c t' : parse_class_char t = Ok (c, t') -> (length t' < length t)%nat.
Proof.
  destruct t as [|d t]; [discriminate|]; cbn; destruct (d =? 0x5C).
  - intros H; apply parse_escape_tail in H; destruct H as (x & ->); cbn; lia.
  - intros H; injection H as <- <-; lia.
Qed.
Lemma parse_class_char_app t c t' u :
  parse_class_char t = Ok (c, t') -> parse_class_char (t ++ u) = Ok (c, t' ++ u).
Proof.
  destruct t as [|d t]; [discriminate|]; cbn; destruct (d =? 0x5C); [apply parse_escape_app|].
  intros H; injection H as <- <-; reflexivity.
Qed.

Lemma parse_class_clean f t first acc : (length t < f)%nat -> clean (parse_class f t first acc).
Proof.
  revert t first acc; induction f as [|f IH]; intros t first acc Hf; [lia|].
  cbn [parse_class]; destruct t as [|c t1]; [exact I|]; cbn [length] in Hf.
  destruct ((c =? 0x5D) && negb first); [exact I|].
  destruct ((c =? 0x5B) && _); [exact I|].
  destruct (if c =? 0x5C then match t1 with c1 :: t2 => match perl_class c1 with
                                               | Some k => Some (k, t2) | None => None end
                                             | [] => None end
               else None) as [[k t2]|] eqn:E.
  - apply IH; destruct (c =? 0x5C); [|discriminate]; destruct t1 as [|c1 t1]; [discriminate|].
    destruct (perl_class c1); [|discriminate]; injection E as _ <-; cbn in Hf; lia.
  - destruct ((c =? 0x5C) && _); [exact I|].
    apply clean_bind; [apply parse_class_char_clean|]; intros [lo t2] E2.
    apply parse_class_char_tail in E2; cbn [length] in E2.
    destruct t2 as [|d t3]; [apply IH; cbn; lia|]; cbn [length] in E2.
    destruct ((d =? 0x2D) && _); [|apply IH; cbn; lia].
    apply clean_bind; [apply parse_class_char_clean|]; intros [hi t4] E4.
    apply parse_class_char_tail in E4.
    destruct (hi <? lo); [exact I|apply IH; lia].
Qed.

(** Appended text is left over, whatever the fuel. *)
Lemma parse_class_app f t first acc rs t' u f' :
  parse_class f t first acc = Ok (rs, t') -> (length (t ++ u) < f')%nat ->
  parse_class f' (t ++ u) first acc = Ok (rs, t' ++ u).
Proof.
  revert t first acc f'; induction f as [|f IH]; intros t first acc f' H Hf; [discriminate|].
  destruct f' as [|f']; [lia|].
  destruct t as [|c t1]; [discriminate|]; cbn [app length] in Hf; cbn [app parse_class] in *.
  destruct ((c =? 0x5D) && negb first).
  { injection H as <- <-; reflexivity. }
  destruct ((c =? 0x5B) && match t1 with c1 :: _ :: _ => c1 =? 0x3A | _ => false end) eqn:Ep; [discriminate|].
  destruct ((c =? 0x5B) && match t1 ++ u with c1 :: _ :: _ => c1 =? 0x3A | _ => false end) eqn:Ep'.
  { (* only when the text ends after "[:", which is not a class *)
    exfalso; apply andb_true_iff in Ep'; destruct Ep' as [Ec Ep']; rewrite Ec in Ep; cbn [andb] in Ep.
    apply N.eqb_eq in Ec; subst c; change (0x5B =? 0x5C) with false in H; cbn [andb] in H.
    cbn [parse_class_char] in H; change (0x5B =? 0x5C) with false in H; cbn [bind] in H.
    destruct t1 as [|c1 [|c2 t1]]; [destruct f; discriminate| |cbn [app] in Ep'; congruence].
    cbn [app] in Ep'; assert (c1 = 0x3A) as -> by (destruct u; [discriminate|apply N.eqb_eq; exact Ep']).
    change (0x3A =? 0x2D) with false in H; cbn [andb] in H.
    destruct f as [|[|f]]; discriminate. }
  assert ((if c =? 0x5C then match t1 with c1 :: t2 => match perl_class c1 with
                                               | Some k => Some (k, t2) | None => None end
                                             | [] => None end else None) = None ->
          t1 <> [] \/ (c =? 0x5C) = false ->
          (if c =? 0x5C then match t1 ++ u with c1 :: t2 => match perl_class c1 with
                                               | Some k => Some (k, t2) | None => None end
                                             | [] => None end else None) = None) as Hnone.
  { destruct (c =? 0x5C); [|reflexivity]; intros E [Hn|Hn]; [|discriminate].
    destruct t1 as [|c1 t1]; [congruence|]; cbn [app]; destruct (perl_class c1); [discriminate|reflexivity]. }
  destruct (if c =? 0x5C then match t1 with c1 :: t2 => match perl_class c1 with
                                               | Some k => Some (k, t2) | None => None end
                                             | [] => None end
               else None) as [[k t2]|] eqn:E.
  - destruct (c =? 0x5C); [|discriminate]; destruct t1 as [|c1 t1]; [discriminate|]; cbn [app].
    destruct (perl_class c1) as [k1|]; [|discriminate]; injection E as <- <-.
    apply IH; [exact H|]; cbn in Hf; lia.
  - destruct ((c =? 0x5C) && match t1 with c1 :: _ => (c1 =? 0x70) || (c1 =? 0x50) | [] => false end) eqn:Eu;
      [discriminate|].
    destruct (parse_class_char (c :: t1)) as [[lo t2]| | | | |] eqn:E2; try discriminate.
    assert (t1 <> [] \/ (c =? 0x5C) = false) as Hor.
    { destruct (c =? 0x5C) eqn:Ec; [left|right; reflexivity].
      intros ->; cbn in E2; rewrite Ec in E2; discriminate. }
    rewrite (Hnone eq_refl Hor).
    assert ((c =? 0x5C) && match t1 ++ u with c1 :: _ => (c1 =? 0x70) || (c1 =? 0x50) | [] => false end = false) as ->.
    { destruct Hor as [Hn|Hn]; [|rewrite Hn; reflexivity]; destruct t1; [congruence|exact Eu]. }
    change (c :: t1 ++ u) with ((c :: t1) ++ u); rewrite (parse_class_char_app _ _ _ u E2); cbn [bind] in *.
    pose proof (parse_class_char_tail _ _ _ E2) as Hl; cbn [length] in Hl.
    rewrite app_length in Hf.
    destruct t2 as [|d t3]; [destruct f; discriminate|]; cbn [app length] in *.
    destruct ((d =? 0x2D) && match t3 with e :: _ => negb (e =? 0x5D) | [] => false end) eqn:Ed.
    + assert ((d =? 0x2D) && match t3 ++ u with e :: _ => negb (e =? 0x5D) | [] => false end = true) as ->.
      { destruct t3; [rewrite andb_false_r in Ed; discriminate|exact Ed]. }
      destruct (parse_class_char t3) as [[hi t4]| | | | |] eqn:E4; cbn [bind] in *; try discriminate.
      rewrite (parse_class_char_app _ _ _ u E4); cbn [bind].
      pose proof (parse_class_char_tail _ _ _ E4) as Hl4.
      destruct (hi <? lo); [discriminate|].
      apply IH; [exact H|rewrite app_length; lia].
    + assert ((d =? 0x2D) && match t3 ++ u with e :: _ => negb (e =? 0x5D) | [] => false end = false) as ->.
      { destruct t3 as [|e t3]; [|exact Ed]. cbn [app].
        destruct f as [|f]; [discriminate|]; cbn [parse_class] in H.
        destruct (N.eqb_spec d 0x2D) as [->|]; [|reflexivity].
        exfalso; revert H; cbn; destruct f; discriminate. }
      apply (IH (d :: t3)); [exact H|cbn [app length]; rewrite app_length; lia].
Qed.

Lemma parse_class_tail f t first acc rs t' :
  parse_class f t first acc = Ok (rs, t') -> (length t' < length t)%nat.
Proof.
  revert t first acc; induction f as [|f IH]; intros t first acc H; [discriminate|].
  destruct t as [|c t1]; [discriminate|]; cbn [parse_class] in H; cbn [length].
  destruct ((c =? 0x5D) && negb first); [injection H as <- <-; lia|].
  destruct ((c =? 0x5B) && _); [discriminate|].
  destruct (if c =? 0x5C then match t1 with c1 :: t2 => match perl_class c1 with
                                               | Some k => Some (k, t2) | None => None end
                                             | [] => None end
               else None) as [[k t2]|] eqn:E.
  - apply IH in H; destruct (c =? 0x5C); [|discriminate]; destruct t1 as [|c1 t1]; [discriminate|].
    destruct (perl_class c1); [|discriminate]; injection E as _ <-; cbn; lia.
  - destruct ((c =? 0x5C) && _); [discriminate|].
    destruct (parse_class_char (c :: t1)) as [[lo t2]| | | | |] eqn:E2; cbn [bind] in H; try discriminate.
    apply parse_class_char_tail in E2; cbn [length] in E2.
    destruct t2 as [|d t3]; [apply IH in H; cbn in *; lia|]; cbn [length] in E2.
    destruct ((d =? 0x2D) && _); [|apply IH in H; cbn in *; lia].
    destruct (parse_class_char t3) as [[hi t4]| | | | |] eqn:E4; cbn [bind] in H; try discriminate.
    apply parse_class_char_tail in E4.
    destruct (hi <? lo); [discriminate|apply IH in H; lia].
Qed.

(** ** Counted repetitions *)
Lemma take_digits_app t ds r :
  take_digits t = (ds, r) -> t = ds ++ r /\ forall u, r <> [] -> take_digits (t ++ u) = (ds, r ++ u).
Proof.
  revert ds r; induction t as [|c t IH]; intros ds r; cbn [take_digits app].
  - intros E; injection E as <- <-; split; [reflexivity|intros u Hn; congruence].
  - destruct (is_dig c) eqn:Ed.
    + destruct (take_digits t) as [ds' r'] eqn:Et; intros E; injection E as <- <-.
      destruct (IH _ _ eq_refl) as [-> Hu]; split; [reflexivity|].
      intros u Hn; rewrite (Hu u Hn); reflexivity.
    + intros E; injection E as <- <-; split; [reflexivity|]; intros u Hn; reflexivity.
Qed.
Lemma take_digits_end t ds u :
  take_digits t = (ds, []) -> match u with c :: _ => is_dig c = false | [] => True end ->
  take_digits (t ++ u) = (ds, u).
Proof.
  revert ds; induction t as [|c t IH]; intros ds; cbn [take_digits app].
  - intros E; injection E as <-; intros Hu; destruct u as [|c u]; [reflexivity|].
    cbn [take_digits]; rewrite Hu; reflexivity.
  - destruct (is_dig c) eqn:Ed; [|discriminate].
    destruct (take_digits t) as [ds' r'] eqn:Et; intros E Hu; injection E as <- ->.
    rewrite (IH _ eq_refl Hu); reflexivity.
Qed.

Lemma parse_int_tail t v r : parse_int t = Some (v, r) -> (length r < length t)%nat.
Proof.
  unfold parse_int; destruct (take_digits t) as [ds r'] eqn:E.
  apply take_digits_app in E; destruct E as [-> _].
  destruct ds as [|d [|d2 ds]]; [discriminate| |].
  - intros H; injection H as _ <-; cbn; lia.
  - destruct (d =? 0x30); [discriminate|]; intros H; injection H as _ <-; cbn; rewrite app_length; lia.
Qed.
Lemma parse_repeat_tail t mn mx r : parse_repeat t = Some (mn, mx, r) -> (length r < length t)%nat.
Proof.
  unfold parse_repeat; destruct (parse_int t) as [[v t1]|] eqn:E; [|discriminate].
  apply parse_int_tail in E; destruct t1 as [|c t2]; [discriminate|]; cbn [length] in E.
  destruct (c =? 0x7D); [intros H; injection H as _ _ <-; lia|].
  destruct (c =? 0x2C); [|discriminate]; destruct t2 as [|c2 t3]; [discriminate|]; cbn [length] in E.
  destruct (c2 =? 0x7D); [intros H; injection H as _ _ <-; lia|].
  destruct (parse_int (c2 :: t3)) as [[mx' [|c4 t5]]|] eqn:E2; try discriminate.
  apply parse_int_tail in E2; cbn [length] in E2.
  destruct (c4 =? 0x7D); [|discriminate]; intros H; injection H as _ _ <-; lia.
Qed.

(** Text after which the previous token cannot continue. *)
Definition stops (u : list rune) : Prop :=
  match u with [] => True | c :: _ => c = 0x28 \/ c = 0x29 \/ c = 0x7C end.

Lemma stops_digit u : stops u -> match u with c :: _ => is_dig c = false | [] => True end.
Proof. destruct u as [|c u]; [auto|]; cbn; intros [->|[->| ->]]; reflexivity. Qed.
Lemma parse_int_app t u :
  stops u ->
  parse_int (t ++ u) = match parse_int t with Some (v, r) => Some (v, r ++ u) | None => None end.
Proof.
  intros Hu; unfold parse_int; destruct (take_digits t) as [ds r] eqn:E.
  assert (take_digits (t ++ u) = (ds, r ++ u)) as ->.
  { destruct r as [|c r]; [apply take_digits_end; [exact E|apply stops_digit; exact Hu]|].
    apply take_digits_app in E; apply E; discriminate. }
  destruct ds as [|d [|d2 ds]]; try reflexivity; destruct (d =? 0x30); reflexivity.
Qed.
Lemma stops_brace u c t : stops u -> u = c :: t -> (c =? 0x7D) = false /\ (c =? 0x2C) = false.
Proof. intros Hu ->; cbn in Hu; destruct Hu as [->|[->| ->]]; split; reflexivity. Qed.
Lemma parse_repeat_app t u :
  stops u ->
  parse_repeat (t ++ u) =
  match parse_repeat t with Some (mn, mx, r) => Some (mn, mx, r ++ u) | None => None end.
Proof.
  intros Hu; unfold parse_repeat; rewrite (parse_int_app t u Hu).
  destruct (parse_int t) as [[v t1]|]; [|reflexivity].
  destruct t1 as [|c t2]; cbn [app].
  { destruct u as [|c u]; [reflexivity|].
    destruct (stops_brace _ _ _ Hu eq_refl) as [-> ->]; reflexivity. }
  destruct (c =? 0x7D); [reflexivity|].
  destruct (c =? 0x2C); [|reflexivity].
  destruct t2 as [|c2 t3]; cbn [app].
  { destruct u as [|c2 u']; [reflexivity|].
    destruct (stops_brace _ _ _ Hu eq_refl) as [-> _].
    pose proof (parse_int_app [] (c2 :: u') Hu) as H; cbn [app] in H.
    rewrite H; reflexivity. }
  destruct (c2 =? 0x7D); [reflexivity|].
  change (c2 :: t3 ++ u) with ((c2 :: t3) ++ u); rewrite (parse_int_app (c2 :: t3) u Hu).
  destruct (parse_int (c2 :: t3)) as [[mx t4]|]; [|reflexivity].
  destruct t4 as [|c4 t5]; cbn [app].
  { destruct u as [|c4 u]; [reflexivity|].
    destruct (stops_brace _ _ _ Hu eq_refl) as [-> _]; reflexivity. }
  destruct (c4 =? 0x7D); reflexivity.
Qed.

Lemma lazy_suffix_app t u : stops u ->
  lazy_suffix (t ++ u) = (fst (lazy_suffix t), snd (lazy_suffix t) ++ u).
Proof.
  intros Hu; destruct t as [|c t]; cbn [app lazy_suffix].
  - destruct u as [|c u]; [reflexivity|]; cbn in Hu |- *; destruct Hu as [->|[->| ->]]; reflexivity.
  - destruct (c =? 0x3F); reflexivity.
Qed.
Lemma lazy_suffix_tail t : (length (snd (lazy_suffix t)) <= length t)%nat.
Proof. destruct t as [|c t]; cbn [lazy_suffix snd]; [lia|]; destruct (c =? 0x3F); cbn; lia. Qed.

(** ** One step of the parser *)
Definition state : Type := list rune * list frame * frame * nat * bool.
Definition group_of (cur : frame) : re :=
  match f_cap cur with Some i => RCap i (finish cur) | None => finish cur end.

Definition pstep (c : rune) (t1 : list rune) (outer : list frame) (cur : frame) (n : nat)
           (last_rep : bool) : res state :=
  if c =? 0x28 then
    match t1 with
    | q :: t2 =>
      if q =? 0x3F then
        match t2 with
        | d :: t3 => if d =? 0x3A then Ok (t3, cur :: outer, frame0, n, false) else Unmodelled
        | [] => Err ErrRegexp
        end
      else Ok (t1, cur :: outer, {| f_cap := Some (S n); f_alts := []; f_cur := [] |}, S n, false)
    | [] => Err ErrRegexp
    end
  else if c =? 0x7C then
    Ok (t1, outer, {| f_cap := f_cap cur; f_alts := mk_cat (f_cur cur) :: f_alts cur; f_cur := [] |}, n, false)
  else if c =? 0x29 then
    match outer with
    | [] => Err ErrRegexp
    | f :: outer' => Ok (t1, outer', push f (group_of cur), n, false)
    end
  else if c =? 0x5E then Ok (t1, outer, push cur RBegin, n, false)
  else if c =? 0x24 then Ok (t1, outer, push cur REnd, n, false)
  else if c =? 0x2E then Ok (t1, outer, push cur RAnyNotNL, n, false)
  else if c =? 0x5B then
    let '(neg, t2) := match t1 with
                      | d :: t2 => if d =? 0x5E then (true, t2) else (false, t1)
                      | [] => (false, t1)
                      end in
    let! '(ranges, t3) := parse_class (S (length t2)) t2 true [] in
    Ok (t3, outer, push cur (RClass (if neg then negate_ranges ranges else ranges)), n, false)
  else if (c =? 0x2A) || (c =? 0x2B) || (c =? 0x3F) then
    let '(g, t2) := lazy_suffix t1 in
    if last_rep then Err ErrRegexp
    else
      let! cur' := apply_repeat cur (if c =? 0x2A then RStar g
                                     else if c =? 0x2B then RPlus g else RQuest g) in
      Ok (t2, outer, cur', n, true)
  else if c =? 0x7B then
    match parse_repeat t1 with
    | None => Ok (t1, outer, push cur (RLit [c]), n, false)
    | Some (mn, mx, t2) =>
      if (1000 <? mn) || (match mx with Some m => (1000 <? m) || (m <? mn) | None => false end)
      then Err ErrRegexp
      else
        let '(g, t3) := lazy_suffix t2 in
        if last_rep then Err ErrRegexp
        else
          let! cur' := apply_repeat cur
            (RRepeat g (N.to_nat mn) (match mx with Some m => Some (N.to_nat m) | None => None end)) in
          Ok (t3, outer, cur', n, true)
    end
  else if c =? 0x5C then
    match t1 with
    | d :: t2 =>
      if d =? 0x41 then Ok (t2, outer, push cur RBegin, n, false)
      else if d =? 0x7A then Ok (t2, outer, push cur REnd, n, false)
      else if nmem d [0x62; 0x42; 0x51; 0x70; 0x50] then Unmodelled
      else match perl_class d with
           | Some k => Ok (t2, outer, push cur (RClass k), n, false)
           | None =>
             let! '(ch, t3) := parse_escape t1 in
             Ok (t3, outer, push cur (RLit [ch]), n, false)
           end
    | [] => Err ErrRegexp
    end
  else Ok (t1, outer, push cur (RLit [c]), n, false).

Lemma parse_loop_step f c t1 outer cur n lr :
  parse_loop (S f) (c :: t1) outer cur n lr =
  bind (pstep c t1 outer cur n lr) (fun '(t', o', c', n', lr') => parse_loop f t' o' c' n' lr').
Proof.
  cbn [parse_loop]; unfold pstep, group_of.
  repeat match goal with
  | |- context [if ?b then _ else _] => destruct b; cbn [bind]; try reflexivity
  | |- context [match t1 with [] => _ | _ :: _ => _ end] => destruct t1 as [|?c ?t]; cbn [bind]; try reflexivity
  | |- context [match ?t with [] => _ | _ :: _ => _ end] => is_var t; destruct t as [|?c ?t]; cbn [bind]; try reflexivity
  | |- context [let '(_, _) := lazy_suffix ?t in _] => destruct (lazy_suffix t); cbn [bind]; try reflexivity
  | |- context [match apply_repeat ?a ?b with _ => _ end] => destruct (apply_repeat a b); cbn [bind]; try reflexivity
  | |- context [bind (apply_repeat ?a ?b) _] => destruct (apply_repeat a b); cbn [bind]; try reflexivity
  | |- context [bind (parse_class ?a ?b ?c ?d) _] => destruct (parse_class a b c d) as [[? ?]| | | | |]; cbn [bind]; try reflexivity
  | |- context [bind (parse_escape ?a) _] => destruct (parse_escape a) as [[? ?]| | | | |]; cbn [bind]; try reflexivity
  | |- context [parse_repeat ?t] => destruct (parse_repeat t) as [[[? ?] ?]|]; cbn [bind]; try reflexivity
  | |- context [perl_class ?t] => destruct (perl_class t); cbn [bind]; try reflexivity
  end.
Qed.

Ltac pcases :=
  repeat match goal with
  | |- context [if ?b then _ else _] => destruct b; cbn [bind]
  | |- context [match ?t with [] => _ | _ :: _ => _ end] => is_var t; destruct t as [|?c ?t]; cbn [bind]
  | |- context [bind (apply_repeat ?a ?b) _] => destruct (apply_repeat a b) eqn:?; cbn [bind]
  | |- context [bind (parse_class ?a ?b ?c ?d) _] => destruct (parse_class a b c d) as [[? ?]| | | | |] eqn:?; cbn [bind]
  | |- context [bind (parse_escape ?a) _] => destruct (parse_escape a) as [[? ?]| | | | |] eqn:?; cbn [bind]
  | |- context [parse_repeat ?t] => destruct (parse_repeat t) as [[[? ?] ?]|] eqn:?; cbn [bind]
  | |- context [perl_class ?t] => destruct (perl_class t); cbn [bind]
  end.

Lemma apply_repeat_clean f op : clean (apply_repeat f op).
Proof. unfold apply_repeat; destruct (f_cur f); exact I. Qed.

Lemma pstep_clean c t1 outer cur n lr : clean (pstep c t1 outer cur n lr).
Proof.
  unfold pstep.
  repeat match goal with
  | |- clean (if ?b then _ else _) => destruct b
  | |- clean (match ?t with [] => _ | _ :: _ => _ end) => destruct t as [|?c ?t]
  | |- clean (bind _ _) => apply clean_bind; [try apply apply_repeat_clean; try apply parse_escape_clean|intros ? ?]
  | |- clean (match ?t with Some _ => _ | None => _ end) => destruct t as [?x|]
  | |- clean (let '(_, _) := ?t in _) => destruct t
  | |- clean (Ok _) => exact I
  | |- clean (Err _) => exact I
  | |- clean Unmodelled => exact I
  end.
  all: apply parse_class_clean; lia.
Qed.

Lemma pstep_tail c t1 outer cur n lr t' o' c' n' lr' :
  pstep c t1 outer cur n lr = Ok (t', o', c', n', lr') -> (length t' <= length t1)%nat.
Proof.
  unfold pstep.
  repeat match goal with
  | |- (if ?b then _ else _) = Ok _ -> _ => destruct b
  | |- match ?t with [] => _ | _ :: _ => _ end = Ok _ -> _ => destruct t as [|?c ?t]
  | |- bind (parse_class ?a ?b ?c ?d) _ = _ -> _ => destruct (parse_class a b c d) as [[? ?]| | | | |] eqn:?; cbn [bind]
  | |- bind (parse_escape ?a) _ = _ -> _ => destruct (parse_escape a) as [[? ?]| | | | |] eqn:?; cbn [bind]
  | |- bind (apply_repeat ?a ?b) _ = _ -> _ => destruct (apply_repeat a b) eqn:?; cbn [bind]
  | |- match parse_repeat ?t with Some _ => _ | None => _ end = _ -> _ => destruct (parse_repeat t) as [[[? ?] ?]|] eqn:?
  | |- match ?t with Some _ => _ | None => _ end = _ -> _ => destruct t as [?x|]
  | |- (let '(_, _) := ?t in _) = _ -> _ => destruct t as [? ?] eqn:?
  end; intros H; try discriminate; injection H; clear H; intros; subst;
  repeat match goal with
  | H : lazy_suffix ?t = (_, ?r) |- _ => pose proof (lazy_suffix_tail t); rewrite H in *; clear H; cbn [snd] in *
  | H : parse_repeat ?t = Some _ |- _ => apply parse_repeat_tail in H
  | H : parse_class _ _ _ _ = Ok _ |- _ => apply parse_class_tail in H
  | H : parse_escape _ = Ok _ |- _ => apply parse_escape_tail in H; destruct H as (? & H)
  end; try lia.
  all: repeat match goal with
  | H : match ?t with [] => _ | _ :: _ => _ end = (_, _) |- _ => destruct t as [|?c ?t]
  | H : (if ?b then _ else _) = (_, _) |- _ => destruct b
  | H : (_, _) = (_, _) |- _ => injection H; clear H; intros; subst
  | H : _ :: _ = _ :: _ |- _ => injection H; clear H; intros; subst
  end; cbn [length] in *; try lia.
Qed.

Lemma parse_loop_clean f t outer cur n lr : (length t < f)%nat -> clean (parse_loop f t outer cur n lr).
Proof.
  revert t outer cur n lr; induction f as [|f IH]; intros t outer cur n lr Hf; [lia|].
  destruct t as [|c t1]; [cbn [parse_loop]; destruct outer; exact I|].
  rewrite parse_loop_step; apply clean_bind; [apply pstep_clean|].
  intros [[[[t' o'] c'] n'] lr'] E; apply pstep_tail in E; apply IH; cbn in Hf; lia.
Qed.

(** The parser always returns a tree, an error, or gives up on syntax outside of the model. *)
Lemma parse_re_clean s : clean (parse_re s).
Proof. unfold parse_re; destruct (valid_utf8 s); [apply parse_loop_clean; lia|exact I]. Qed.
Lemma compile_re_clean s : clean (compile_re s).
Proof. unfold compile_re; apply clean_bind; [apply parse_re_clean|intros [r n] _; exact I]. Qed.

Definition parse_all (t : list rune) := parse_loop (S (length t)) t.

Lemma parse_loop_fuel f f' t outer cur n lr :
  (length t < f)%nat -> (length t < f')%nat -> parse_loop f t outer cur n lr = parse_loop f' t outer cur n lr.
Proof.
  revert f' t outer cur n lr; induction f as [|f IH]; intros f' t outer cur n lr Hf Hf'; [lia|].
  destruct f' as [|f']; [lia|]; destruct t as [|c t1]; [reflexivity|].
  rewrite !parse_loop_step.
  destruct (pstep c t1 outer cur n lr) as [[[[[t' o'] c'] n'] lr']| | | | |] eqn:E; cbn [bind]; try reflexivity.
  apply pstep_tail in E; cbn in Hf, Hf'; apply IH; lia.
Qed.
Lemma parse_loop_all f t outer cur n lr :
  (length t < f)%nat -> parse_loop f t outer cur n lr = parse_all t outer cur n lr.
Proof. intros H; apply parse_loop_fuel; lia. Qed.
Lemma parse_all_step c t1 outer cur n lr :
  parse_all (c :: t1) outer cur n lr =
  bind (pstep c t1 outer cur n lr) (fun '(t', o', c', n', lr') => parse_all t' o' c' n' lr').
Proof.
  unfold parse_all; cbn [length]; rewrite parse_loop_step.
  destruct (pstep c t1 outer cur n lr) as [[[[[t' o'] c'] n'] lr']| | | | |] eqn:E; cbn [bind]; try reflexivity.
  apply pstep_tail in E; apply parse_loop_fuel; lia.
Qed.

(** ** Appended text and enclosing groups *)
Lemma pstep_app c t1 outer cur n lr t' o' c' n' lr' u base :
  stops u -> pstep c t1 outer cur n lr = Ok (t', o', c', n', lr') ->
  pstep c (t1 ++ u) (outer ++ base) cur n lr = Ok (t' ++ u, o' ++ base, c', n', lr').
Proof.
  intros Hu; unfold pstep.
  destruct (c =? 0x28).
  { destruct t1 as [|q t2]; [discriminate|]; cbn [app].
    destruct (q =? 0x3F).
    - destruct t2 as [|d t3]; [discriminate|]; cbn [app]; destruct (d =? 0x3A); [|discriminate].
      intros E; injection E as <- <- <- <- <-; reflexivity.
    - intros E; injection E as <- <- <- <- <-; reflexivity. }
  destruct (c =? 0x7C); [intros E; injection E as <- <- <- <- <-; reflexivity|].
  destruct (c =? 0x29).
  { destruct outer as [|f outer]; [discriminate|]; cbn [app].
    intros E; injection E as <- <- <- <- <-; reflexivity. }
  destruct (c =? 0x5E); [intros E; injection E as <- <- <- <- <-; reflexivity|].
  destruct (c =? 0x24); [intros E; injection E as <- <- <- <- <-; reflexivity|].
  destruct (c =? 0x2E); [intros E; injection E as <- <- <- <- <-; reflexivity|].
  destruct (c =? 0x5B).
  { destruct t1 as [|d t2]; [discriminate|]; cbn [app].
    destruct (d =? 0x5E).
    - destruct (parse_class (S (length t2)) t2 true []) as [[rs t3]| | | | |] eqn:E; cbn [bind]; try discriminate.
      intros H; injection H as <- <- <- <- <-.
      rewrite (parse_class_app _ _ _ _ _ _ u (S (length (t2 ++ u))) E) by lia; reflexivity.
    - change (d :: t2 ++ u) with ((d :: t2) ++ u).
      destruct (parse_class (S (length (d :: t2))) (d :: t2) true []) as [[rs t3]| | | | |] eqn:E;
        cbn [bind]; try discriminate.
      intros H; injection H as <- <- <- <- <-.
      rewrite (parse_class_app _ _ _ _ _ _ u (S (length ((d :: t2) ++ u))) E) by lia; reflexivity. }
  destruct ((c =? 0x2A) || (c =? 0x2B) || (c =? 0x3F)).
  { rewrite (lazy_suffix_app t1 u Hu); destruct (lazy_suffix t1) as [g t2]; cbn [fst snd].
    destruct lr; [discriminate|].
    destruct (apply_repeat cur _) as [cur'| | | | |]; cbn [bind]; try discriminate.
    intros H; injection H as <- <- <- <- <-; reflexivity. }
  destruct (c =? 0x7B).
  { rewrite (parse_repeat_app t1 u Hu); destruct (parse_repeat t1) as [[[mn mx] t2]|].
    - destruct (_ || _); [discriminate|].
      rewrite (lazy_suffix_app t2 u Hu); destruct (lazy_suffix t2) as [g t3]; cbn [fst snd].
      destruct lr; [discriminate|].
      destruct (apply_repeat cur _) as [cur'| | | | |]; cbn [bind]; try discriminate.
      intros H; injection H as <- <- <- <- <-; reflexivity.
    - intros H; injection H as <- <- <- <- <-; reflexivity. }
  destruct (c =? 0x5C).
  { destruct t1 as [|d t2]; [discriminate|]; cbn [app].
    destruct (d =? 0x41); [intros H; injection H as <- <- <- <- <-; reflexivity|].
    destruct (d =? 0x7A); [intros H; injection H as <- <- <- <- <-; reflexivity|].
    destruct (nmem d _); [discriminate|].
    destruct (perl_class d); [intros H; injection H as <- <- <- <- <-; reflexivity|].
    change (d :: t2 ++ u) with ((d :: t2) ++ u).
    destruct (parse_escape (d :: t2)) as [[ch t3]| | | | |] eqn:E; cbn [bind]; try discriminate.
    rewrite (parse_escape_app _ _ _ u E); cbn [bind].
    intros H; injection H as <- <- <- <- <-; reflexivity. }
  intros H; injection H as <- <- <- <- <-; reflexivity.
Qed.

(** A frame that starts with some items more, and maybe belongs to another group. *)
Inductive pre_frame (xs : list re) : frame -> frame -> Prop :=
| pf_cur cap cap' cur :
    pre_frame xs {| f_cap := cap; f_alts := []; f_cur := cur |}
                 {| f_cap := cap'; f_alts := []; f_cur := cur ++ rev xs |}
| pf_alt cap cap' alts its cur :
    pre_frame xs {| f_cap := cap; f_alts := alts ++ [mk_cat its]; f_cur := cur |}
                 {| f_cap := cap'; f_alts := alts ++ [mk_cat (its ++ rev xs)]; f_cur := cur |}.
(** Stacks that differ in that way in their lowest frame. *)
Inductive pre_stack (xs : list re) : list frame -> frame -> list frame -> frame -> Prop :=
| ps_cur b b' : pre_frame xs b b' -> pre_stack xs [] b [] b'
| ps_out o cur b b' : pre_frame xs b b' -> pre_stack xs (o ++ [b]) cur (o ++ [b']) cur.

Lemma pre_push xs b b' r : pre_frame xs b b' -> pre_frame xs (push b r) (push b' r).
Proof.
  intros H; destruct H; unfold push; cbn [f_cap f_alts f_cur];
    [apply (pf_cur xs cap cap' (r :: cur))|apply (pf_alt xs cap cap' alts its (r :: cur))].
Qed.
Lemma pre_bar xs b b' : pre_frame xs b b' ->
  pre_frame xs {| f_cap := f_cap b; f_alts := mk_cat (f_cur b) :: f_alts b; f_cur := [] |}
               {| f_cap := f_cap b'; f_alts := mk_cat (f_cur b') :: f_alts b'; f_cur := [] |}.
Proof.
  intros H; destruct H; cbn [f_cap f_alts f_cur].
  - apply (pf_alt xs cap cap' [] cur []).
  - apply (pf_alt xs cap cap' (mk_cat cur :: alts) its []).
Qed.
Lemma pre_repeat xs b b' op c : pre_frame xs b b' -> apply_repeat b op = Ok c ->
  exists c', apply_repeat b' op = Ok c' /\ pre_frame xs c c'.
Proof.
  intros H; destruct H; unfold apply_repeat; cbn [f_cap f_alts f_cur];
    (destruct cur as [|r cur]; [discriminate|]); intros E; injection E as <-; cbn [app];
    eexists; (split; [reflexivity|]).
  - apply (pf_cur xs cap cap' (op r :: cur)).
  - apply (pf_alt xs cap cap' alts its (op r :: cur)).
Qed.

Lemma stack_push xs o c o' c' r : pre_stack xs o c o' c' -> pre_stack xs o (push c r) o' (push c' r).
Proof.
  intros H; destruct H as [b b' H|o cur b b' H]; [constructor; apply pre_push; exact H|constructor; exact H].
Qed.
Lemma stack_open xs o c o' c' f : pre_stack xs o c o' c' -> pre_stack xs (c :: o) f (c' :: o') f.
Proof.
  intros H; destruct H as [b b' H|o cur b b' H].
  - apply (ps_out xs [] f b b' H).
  - apply (ps_out xs (cur :: o) f b b' H).
Qed.
Lemma stack_repeat xs o c o' c' op d : pre_stack xs o c o' c' -> apply_repeat c op = Ok d ->
  exists d', apply_repeat c' op = Ok d' /\ pre_stack xs o d o' d'.
Proof.
  intros H; destruct H as [b b' H|o cur b b' H]; intros E.
  - destruct (pre_repeat _ _ _ _ _ H E) as (d' & Ed & Hp); exists d'; split; [exact Ed|constructor; exact Hp].
  - exists d; split; [exact E|constructor; exact H].
Qed.

Lemma pstep_pre xs c t1 o cur n lr t' o1 cur1 n' lr' os curs :
  pre_stack xs o cur os curs -> pstep c t1 o cur n lr = Ok (t', o1, cur1, n', lr') ->
  exists os1 curs1, pre_stack xs o1 cur1 os1 curs1 /\
    pstep c t1 os curs n lr = Ok (t', os1, curs1, n', lr').
Proof.
  intros Hs; unfold pstep.
  assert (forall X (E : Ok X = Ok (t', o1, cur1, n', lr')) t0 r0 n0 l0,
    X = (t0, o, push cur r0, n0, l0) ->
    exists os1 curs1, pre_stack xs o1 cur1 os1 curs1 /\
      Ok (t0, os, push curs r0, n0, l0) = Ok (t', os1, curs1, n', lr')) as Hpush.
  { intros X E t0 r0 n0 l0 ->; injection E as <- <- <- <- <-.
    exists os, (push curs r0); split; [apply stack_push; exact Hs|reflexivity]. }
  destruct (c =? 0x28).
  { destruct t1 as [|q t2]; [discriminate|].
    destruct (q =? 0x3F).
    - destruct t2 as [|d t3]; [discriminate|]; destruct (d =? 0x3A); [|discriminate].
      intros E; injection E as <- <- <- <- <-.
      eexists; eexists; split; [apply stack_open; exact Hs|reflexivity].
    - intros E; injection E as <- <- <- <- <-.
      eexists; eexists; split; [apply stack_open; exact Hs|reflexivity]. }
  destruct (c =? 0x7C).
  { intros E; injection E as <- <- <- <- <-.
    destruct Hs as [b b' H|o cur b b' H]; eexists; eexists; (split; [|reflexivity]).
    - constructor; apply pre_bar; exact H.
    - constructor; exact H. }
  destruct (c =? 0x29).
  { destruct Hs as [b b' H|o cur b b' H]; [discriminate|].
    destruct o as [|f o]; cbn [app]; intros E; injection E as <- <- <- <- <-;
      eexists; eexists; (split; [|reflexivity]).
    - constructor; apply pre_push; exact H.
    - constructor; exact H. }
  destruct (c =? 0x5E); [intros E; eapply Hpush; [exact E|reflexivity]|].
  destruct (c =? 0x24); [intros E; eapply Hpush; [exact E|reflexivity]|].
  destruct (c =? 0x2E); [intros E; eapply Hpush; [exact E|reflexivity]|].
  destruct (c =? 0x5B).
  { destruct (match t1 with d :: t2 => if d =? 0x5E then (true, t2) else (false, t1) | [] => (false, t1) end)
      as [neg t2].
    destruct (parse_class _ _ _ _) as [[rs t3]| | | | |]; cbn [bind]; try discriminate.
    intros E; eapply Hpush; [exact E|reflexivity]. }
  destruct ((c =? 0x2A) || (c =? 0x2B) || (c =? 0x3F)).
  { destruct (lazy_suffix t1) as [g t2]; destruct lr; [discriminate|].
    destruct (apply_repeat cur _) as [cur'| | | | |] eqn:Ea; cbn [bind]; try discriminate.
    intros H; injection H as <- <- <- <- <-.
    destruct (stack_repeat _ _ _ _ _ _ _ Hs Ea) as (d' & -> & Hs'); cbn [bind].
    eexists; eexists; split; [exact Hs'|reflexivity]. }
  destruct (c =? 0x7B).
  { destruct (parse_repeat t1) as [[[mn mx] t2]|].
    - destruct (_ || _); [discriminate|].
      destruct (lazy_suffix t2) as [g t3]; destruct lr; [discriminate|].
      destruct (apply_repeat cur _) as [cur'| | | | |] eqn:Ea; cbn [bind]; try discriminate.
      intros H; injection H as <- <- <- <- <-.
      destruct (stack_repeat _ _ _ _ _ _ _ Hs Ea) as (d' & -> & Hs'); cbn [bind].
      eexists; eexists; split; [exact Hs'|reflexivity].
    - intros E; eapply Hpush; [exact E|reflexivity]. }
  destruct (c =? 0x5C).
  { destruct t1 as [|d t2]; [discriminate|].
    destruct (d =? 0x41); [intros E; eapply Hpush; [exact E|reflexivity]|].
    destruct (d =? 0x7A); [intros E; eapply Hpush; [exact E|reflexivity]|].
    destruct (nmem d _); [discriminate|].
    destruct (perl_class d); [intros E; eapply Hpush; [exact E|reflexivity]|].
    destruct (parse_escape (d :: t2)) as [[ch t3]| | | | |]; cbn [bind]; try discriminate.
    intros E; eapply Hpush; [exact E|reflexivity]. }
  intros E; eapply Hpush; [exact E|reflexivity].
Qed.

(** The lowest frame keeps its capture number. *)
Lemma last_cons {A} (x : A) l d : last (x :: l) d = last l x.
Proof. revert x d; induction l as [|y l IH]; intros x d; [reflexivity|]. change (last (x :: y :: l) d) with (last (y :: l) d); rewrite !IH; reflexivity. Qed.
Lemma last_cap o c c' : f_cap c = f_cap c' -> f_cap (last o c) = f_cap (last o c').
Proof. intros H; destruct o as [|f o]; [exact H|]; rewrite !last_cons; reflexivity. Qed.
Lemma repeat_cap c op c' : apply_repeat c op = Ok c' -> f_cap c' = f_cap c.
Proof. unfold apply_repeat; destruct (f_cur c); [discriminate|]; intros E; injection E as <-; reflexivity. Qed.
Lemma pstep_cap c t1 o cur n lr t' o' c' n' lr' :
  pstep c t1 o cur n lr = Ok (t', o', c', n', lr') -> f_cap (last o' c') = f_cap (last o cur).
Proof.
  unfold pstep.
  repeat match goal with
  | |- (if ?b then _ else _) = Ok _ -> _ => destruct b
  | |- match ?t with [] => _ | _ :: _ => _ end = Ok _ -> _ => destruct t as [|?c ?t]
  | |- bind (parse_class ?a ?b ?c ?d) _ = _ -> _ => destruct (parse_class a b c d) as [[? ?]| | | | |] eqn:?; cbn [bind]
  | |- bind (parse_escape ?a) _ = _ -> _ => destruct (parse_escape a) as [[? ?]| | | | |] eqn:?; cbn [bind]
  | |- bind (apply_repeat ?a ?b) _ = _ -> _ => destruct (apply_repeat a b) eqn:?; cbn [bind]
  | |- match parse_repeat ?t with Some _ => _ | None => _ end = _ -> _ => destruct (parse_repeat t) as [[[? ?] ?]|] eqn:?
  | |- match ?t with Some _ => _ | None => _ end = _ -> _ => destruct t as [?x|]
  | |- (let '(_, _) := ?t in _) = _ -> _ => destruct t as [? ?] eqn:?
  end; intros H; try discriminate; injection H; clear H; intros; subst;
  rewrite ?last_cons; try reflexivity; try (apply last_cap; reflexivity).
  all: match goal with H : apply_repeat _ _ = Ok _ |- _ => apply repeat_cap in H; apply last_cap; exact H end.
Qed.

(** Running over a text that parses on its own, in any surroundings: [b] is the frame in
    which the text alone ends. *)
Lemma parse_run t :
  forall o cur n lr r n', parse_all t o cur n lr = Ok (r, n') ->
  exists b lr', finish b = r /\ f_cap b = f_cap (last o cur) /\
    (forall u base, stops u -> parse_all (t ++ u) (o ++ base) cur n lr = parse_all u base b n' lr') /\
    (forall xs os curs, pre_stack xs o cur os curs ->
      exists b', pre_frame xs b b' /\ f_cap b' = f_cap (last os curs) /\
        parse_all t os curs n lr = Ok (finish b', n') /\
        forall u base, stops u -> parse_all (t ++ u) (os ++ base) curs n lr = parse_all u base b' n' lr').
Proof.
  remember (length t) as k eqn:Ek; revert t Ek; induction k as [k IH] using lt_wf_ind; intros t Ek o cur n lr r n' H.
  destruct t as [|c t1].
  - cbn in H; destruct o; [|discriminate]; injection H as <- <-.
    exists cur, lr; split; [reflexivity|]; split; [reflexivity|]; split; [reflexivity|].
    intros xs os curs Hs; inversion Hs as [b b' Hp|o0 c0 b b' Hp E1]; subst;
      [|destruct o0; discriminate].
    exists curs; split; [exact Hp|]; repeat split; reflexivity.
  - rewrite parse_all_step in H.
    destruct (pstep c t1 o cur n lr) as [[[[[t' o'] c'] n1] lr1]| | | | |] eqn:E; cbn [bind] in H; try discriminate.
    pose proof (pstep_tail _ _ _ _ _ _ _ _ _ _ _ E) as Hl; cbn [length] in Ek.
    destruct (IH (length t') ltac:(lia) t' eq_refl _ _ _ _ _ _ H) as (b & lr' & Hb & Hc & Hrun & Hpre).
    exists b, lr'; split; [exact Hb|]; split; [rewrite Hc; apply (pstep_cap _ _ _ _ _ _ _ _ _ _ _ E)|]; split.
    + intros u base Hu; cbn [app]; rewrite parse_all_step, (pstep_app _ _ _ _ _ _ _ _ _ _ _ u base Hu E); cbn [bind].
      apply Hrun; exact Hu.
    + intros xs os curs Hs.
      destruct (pstep_pre _ _ _ _ _ _ _ _ _ _ _ _ _ _ Hs E) as (os1 & curs1 & Hs1 & E1).
      destruct (Hpre xs os1 curs1 Hs1) as (b' & Hp & Hc' & Ht & Hr); exists b'; split; [exact Hp|].
      split; [rewrite Hc'; apply (pstep_cap _ _ _ _ _ _ _ _ _ _ _ E1)|]; split.
      * rewrite parse_all_step, E1; exact Ht.
      * intros u base Hu; cbn [app]; rewrite parse_all_step, (pstep_app _ _ _ _ _ _ _ _ _ _ _ u base Hu E1);
          cbn [bind]; apply Hr; exact Hu.
Qed.

(** ** Parsing a piece on its own, the groups being numbered from [k] on *)
Definition parse_from (k : nat) (t : list rune) : res (re * nat) := parse_all t [] frame0 k false.

Lemma parse_re_from s : parse_re s = if valid_utf8 s then parse_from 0 (runes s) else Err ErrRegexp.
Proof. reflexivity. Qed.

Lemma stops_close u : stops (0x29 :: u).
Proof. cbn; tauto. Qed.
Lemma stops_open u : stops (0x28 :: u).
Proof. cbn; tauto. Qed.

Lemma parse_group k t r n' rest o cur lr :
  parse_from (S k) t = Ok (r, n') ->
  parse_all (0x28 :: t ++ 0x29 :: rest) o cur k lr = parse_all rest o (push cur (RCap (S k) r)) n' false.
Proof.
  intros H; rewrite parse_all_step.
  assert (pstep 0x28 (t ++ 0x29 :: rest) o cur k lr =
    Ok (t ++ 0x29 :: rest, cur :: o, {| f_cap := Some (S k); f_alts := []; f_cur := [] |}, S k, false)) as ->.
  { unfold pstep; change (0x28 =? 0x28) with true; cbn [app].
    destruct t as [|q t]; cbn [app]; [reflexivity|].
    destruct (N.eqb_spec q 0x3F) as [->|]; [|reflexivity].
    exfalso; revert H; unfold parse_from; rewrite parse_all_step; cbn.
    destruct (lazy_suffix t); discriminate. }
  cbn [bind].
  destruct (parse_run t _ _ _ _ _ _ H) as (b & lr' & Hb & Hc & _ & Hpre).
  destruct (Hpre [] [] {| f_cap := Some (S k); f_alts := []; f_cur := [] |}) as (b' & Hp & Hc' & Ht & Hr).
  { constructor; apply (pf_cur [] None (Some (S k)) []). }
  specialize (Hr (0x29 :: rest) (cur :: o) (stops_close rest)); cbn [app] in Hr; rewrite Hr, parse_all_step.
  cbn [pstep N.eqb Pos.eqb bind]; unfold group_of; rewrite Hc'; cbn [last f_cap].
  assert (finish b' = r) as ->; [|reflexivity].
  rewrite <- Hb; destruct Hp; unfold finish; cbn [rev f_alts f_cur]; rewrite app_nil_r; reflexivity.
Qed.

Lemma parse_ngroup k t r n' rest o cur lr :
  parse_from k t = Ok (r, n') ->
  parse_all (0x28 :: 0x3F :: 0x3A :: t ++ 0x29 :: rest) o cur k lr = parse_all rest o (push cur r) n' false.
Proof.
  intros H; rewrite parse_all_step; cbn [pstep N.eqb Pos.eqb bind].
  destruct (parse_run t _ _ _ _ _ _ H) as (b & lr' & Hb & Hc & Hrun & _).
  specialize (Hrun (0x29 :: rest) (cur :: o) (stops_close rest)); cbn [app] in Hrun; rewrite Hrun, parse_all_step.
  cbn [pstep N.eqb Pos.eqb bind]; unfold group_of; rewrite Hc, Hb; reflexivity.
Qed.

(** A piece after the items [xs], before text that starts with a bracket. *)
Lemma parse_body k t r n' xs u :
  parse_from k t = Ok (r, n') -> stops u ->
  exists b b' lr', finish b = r /\ f_cap b = None /\ f_cap b' = None /\ pre_frame xs b b' /\
    parse_all (t ++ u) [] {| f_cap := None; f_alts := []; f_cur := rev xs |} k false = parse_all u [] b' n' lr'.
Proof.
  intros H Hu; destruct (parse_run t _ _ _ _ _ _ H) as (b & lr' & Hb & Hc & _ & Hpre).
  destruct (Hpre xs [] {| f_cap := None; f_alts := []; f_cur := rev xs |}) as (b' & Hp & Hc' & Ht & Hr).
  { constructor; apply (pf_cur xs None None []). }
  exists b, b', lr'; split; [exact Hb|]; split; [exact Hc|]; split; [exact Hc'|]; split; [exact Hp|].
  specialize (Hr u [] Hu); exact Hr.
Qed.

(** ** Renumbering the groups *)
Fixpoint bump (k : nat) (r : re) : re :=
  match r with
  | RCap i r => RCap (k + i) (bump k r)
  | RStar g r => RStar g (bump k r)
  | RPlus g r => RPlus g (bump k r)
  | RQuest g r => RQuest g (bump k r)
  | RRepeat g mn mx r => RRepeat g mn mx (bump k r)
  | RCat l => RCat (map (bump k) l)
  | RAlt l => RAlt (map (bump k) l)
  | r => r
  end.
Definition bump_frame (k : nat) (f : frame) : frame :=
  {| f_cap := option_map (Nat.add k) (f_cap f); f_alts := map (bump k) (f_alts f);
     f_cur := map (bump k) (f_cur f) |}.

Lemma bump_mk_cat k l : bump k (mk_cat l) = mk_cat (map (bump k) l).
Proof. destruct l as [|a [|b l]]; cbn [mk_cat map bump]; try reflexivity. rewrite map_rev; reflexivity. Qed.
Lemma bump_finish k f : bump k (finish f) = finish (bump_frame k f).
Proof.
  unfold finish, bump_frame; cbn [f_alts f_cur]; destruct (f_alts f) as [|a l]; [apply bump_mk_cat|].
  cbn [map bump]; rewrite map_rev; cbn [map]; rewrite bump_mk_cat; reflexivity.
Qed.
Lemma bump_push k f r : bump_frame k (push f r) = push (bump_frame k f) (bump k r).
Proof. reflexivity. Qed.
Lemma bump_group k f : bump k (group_of f) = group_of (bump_frame k f).
Proof.
  unfold group_of; cbn [bump_frame f_cap]; destruct (f_cap f) as [i|]; cbn [option_map bump];
    rewrite bump_finish; reflexivity.
Qed.
Lemma bump_repeat k f op f' :
  (forall r, bump k (op r) = op (bump k r)) ->
  apply_repeat f op = Ok f' -> apply_repeat (bump_frame k f) op = Ok (bump_frame k f').
Proof.
  intros Hop; unfold apply_repeat, bump_frame; destruct (f_cur f) as [|r cur]; [discriminate|].
  intros E; injection E as <-; cbn [f_cap f_alts f_cur map]; rewrite Hop; reflexivity.
Qed.

Lemma pstep_bump k c t1 o cur n lr t' o' c' n' lr' :
  pstep c t1 o cur n lr = Ok (t', o', c', n', lr') ->
  pstep c t1 (map (bump_frame k) o) (bump_frame k cur) (k + n) lr =
  Ok (t', map (bump_frame k) o', bump_frame k c', (k + n')%nat, lr').
Proof.
  unfold pstep.
  destruct (c =? 0x28).
  { destruct t1 as [|q t2]; [discriminate|].
    destruct (q =? 0x3F).
    - destruct t2 as [|d t3]; [discriminate|]; destruct (d =? 0x3A); [|discriminate].
      intros E; injection E as <- <- <- <- <-; reflexivity.
    - intros E; injection E as <- <- <- <- <-; rewrite <- plus_n_Sm.
      unfold bump_frame; cbn [f_cap f_alts f_cur option_map map]; rewrite <- plus_n_Sm; reflexivity. }
  destruct (c =? 0x7C).
  { intros E; injection E as <- <- <- <- <-; unfold bump_frame; cbn [f_cap f_alts f_cur map].
    rewrite bump_mk_cat; reflexivity. }
  destruct (c =? 0x29).
  { destruct o as [|f o]; [discriminate|]; cbn [map].
    intros E; injection E as <- <- <- <- <-; rewrite bump_push, bump_group; reflexivity. }
  destruct (c =? 0x5E); [intros E; injection E as <- <- <- <- <-; reflexivity|].
  destruct (c =? 0x24); [intros E; injection E as <- <- <- <- <-; reflexivity|].
  destruct (c =? 0x2E); [intros E; injection E as <- <- <- <- <-; reflexivity|].
  destruct (c =? 0x5B).
  { destruct (match t1 with d :: t2 => if d =? 0x5E then (true, t2) else (false, t1) | [] => (false, t1) end)
      as [neg t2].
    destruct (parse_class _ _ _ _) as [[rs t3]| | | | |]; cbn [bind]; try discriminate.
    intros E; injection E as <- <- <- <- <-; reflexivity. }
  destruct ((c =? 0x2A) || (c =? 0x2B) || (c =? 0x3F)).
  { destruct (lazy_suffix t1) as [g t2]; destruct lr; [discriminate|].
    destruct (apply_repeat cur _) as [cur'| | | | |] eqn:Ea; cbn [bind]; try discriminate.
    intros H; injection H as <- <- <- <- <-.
    apply (bump_repeat k) in Ea; [rewrite Ea; reflexivity|].
    intros r; destruct (c =? 0x2A); [reflexivity|]; destruct (c =? 0x2B); reflexivity. }
  destruct (c =? 0x7B).
  { destruct (parse_repeat t1) as [[[mn mx] t2]|].
    - destruct (_ || _); [discriminate|].
      destruct (lazy_suffix t2) as [g t3]; destruct lr; [discriminate|].
      destruct (apply_repeat cur _) as [cur'| | | | |] eqn:Ea; cbn [bind]; try discriminate.
      intros H; injection H as <- <- <- <- <-.
      apply (bump_repeat k) in Ea; [rewrite Ea; reflexivity|]; reflexivity.
    - intros E; injection E as <- <- <- <- <-; reflexivity. }
  destruct (c =? 0x5C).
  { destruct t1 as [|d t2]; [discriminate|].
    destruct (d =? 0x41); [intros E; injection E as <- <- <- <- <-; reflexivity|].
    destruct (d =? 0x7A); [intros E; injection E as <- <- <- <- <-; reflexivity|].
    destruct (nmem d _); [discriminate|].
    destruct (perl_class d); [intros E; injection E as <- <- <- <- <-; reflexivity|].
    destruct (parse_escape (d :: t2)) as [[ch t3]| | | | |]; cbn [bind]; try discriminate.
    intros E; injection E as <- <- <- <- <-; reflexivity. }
  intros E; injection E as <- <- <- <- <-; reflexivity.
Qed.

Lemma parse_all_bump k t o cur n lr r n' :
  parse_all t o cur n lr = Ok (r, n') ->
  parse_all t (map (bump_frame k) o) (bump_frame k cur) (k + n) lr = Ok (bump k r, (k + n')%nat).
Proof.
  remember (length t) as j eqn:Ej; revert t Ej o cur n lr; induction j as [j IH] using lt_wf_ind.
  intros t Ej o cur n lr H; destruct t as [|c t1].
  - cbn in *; destruct o; [|discriminate]; injection H as <- <-; cbn [map]; rewrite bump_finish; reflexivity.
  - rewrite parse_all_step in *.
    destruct (pstep c t1 o cur n lr) as [[[[[t' o'] c'] n1] lr1]| | | | |] eqn:E; cbn [bind] in H; try discriminate.
    rewrite (pstep_bump k _ _ _ _ _ _ _ _ _ _ _ E); cbn [bind].
    apply pstep_tail in E; cbn [length] in Ej; apply (IH (length t') ltac:(lia) t' eq_refl); exact H.
Qed.
(** The number from which the groups are counted only renumbers the groups. *)
Lemma parse_from_bump k t r n : parse_from 0 t = Ok (r, n) -> parse_from k t = Ok (bump k r, (k + n)%nat).
Proof. intros H; apply (parse_all_bump k) in H; rewrite Nat.add_0_r in H; exact H. Qed.
