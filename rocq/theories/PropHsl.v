(** Properties C21-C27: reading HSL documents. *)
From Coq Require Import String Sorted.
From Verif Require Import GoBase Utf8 Utf8Facts Unicode Regex Hre Rule Hsl Scripts Spec HslFacts HslInv HslDoc HslLayout LettersFacts.
Open Scope N_scope.

(** ** C22 Layout does not matter

    HslDoc says how documents are written: [document_text d t] allows any
    indentation, blank lines and comment lines between the parts of sections and
    entries, and lets every string be quoted or, when it is a word, bare. *)

Lemma glyphs_fst t : scalars t -> map fst (glyphs (encode t)) = t.
Proof. intros H. exact (runes_encode t H). Qed.

Theorem C22_layout : forall d t,
  document_text d t -> scalars t -> proper d ->
  exists h, parse_hsl (encode t) = Ok h /\ says h = filter nonempty d.
Proof.
  intros d t H Hs Hp. unfold parse_hsl. rewrite parse_hsl_ploop.
  destruct (ploop_document d t H (glyphs (encode t)) 1%Z pstate0 (glyphs_fst t Hs) Hp) as (h & E & G).
  { intros s _ []. }
  exists h. unfold lx in E. rewrite E. split; [reflexivity|]. exact G.
Qed.
Print Assumptions C22_layout.

(** Two ways of writing the same document are read alike. *)
Theorem C22_layouts_agree : forall d t1 t2 h1,
  document_text d t1 -> document_text d t2 -> scalars t1 -> scalars t2 -> proper d ->
  parse_hsl (encode t1) = Ok h1 ->
  exists h2, parse_hsl (encode t2) = Ok h2 /\ says h2 = says h1.
Proof.
  intros d t1 t2 h1 H1 H2 S1 S2 Hp E.
  destruct (C22_layout d t1 H1 S1 Hp) as (h & E1 & G1).
  destruct (C22_layout d t2 H2 S2 Hp) as (h2 & E2 & G2).
  rewrite E in E1. apply ok_inj in E1. subst h. exists h2. split; [exact E2|congruence].
Qed.
Print Assumptions C22_layouts_agree.

(** A document with a list and a dictionary. *)
Definition ex_doc : document :=
  [{| sec_name := lit "lang"; sec_kind := Dict;
      sec_entries := [(lit "id", [lit "ita"]); (lit "codes", [lit "it"; lit "ita"])] |};
   {| sec_name := lit "rewrite"; sec_kind := Pairs;
      sec_entries := [(lit "{@}""", [lit "a b"]); (lit "x", [])] |}].

Definition nl : string := String (Ascii.ascii_of_nat 10) EmptyString.
Definition ex_text : string :=
  ("# comment: ""unclosed" ++ nl ++ "  lang :" ++ nl ++ nl ++ "  id = ita" ++ nl ++ " # x = y" ++ nl ++
   "codes= ""it"", ita # codes" ++ nl ++ nl ++ "rewrite:""{@}\"""" -> ""a b""" ++ nl ++ "x->" ++ nl ++ " # end")%string.

Example C22_example :
  proper ex_doc /\
  exists h, parse_hsl (lit ex_text) = Ok h /\ says h = ex_doc /\
            document_text ex_doc (rlit ex_text).
Proof.
  split; [|eexists; split; [vm_compute; reflexivity|split; [vm_compute; reflexivity|]]].
  { split.
    - constructor; [intros [E|[]]; discriminate E|]. constructor; [intros []|constructor].
    - constructor; [|constructor; [|constructor]]; [|discriminate].
      intros _. cbn. constructor; [intros [E|[]]; discriminate E|]. constructor; [intros []|constructor]. }
  assert (T : rlit ex_text =
    (((0x23 :: rlit " comment: ""unclosed" ++ 0x0A :: [0x20; 0x20]) ++ rlit "lang" ++ [0x20] ++ 0x3A ::
      (([0x0A; 0x0A; 0x20; 0x20] ++ rlit "id" ++ [0x20] ++ [0x3D] ++ ([0x20] ++ rlit "ita" ++ []) ++ [0x0A]) ++
       ((0x20 :: 0x23 :: rlit " x = y" ++ 0x0A :: []) ++ rlit "codes" ++ [] ++ [0x3D] ++
          ([0x20] ++ (0x22 :: flat_map escape (rlit "it") ++ [0x22]) ++ [] ++ 0x2C :: ([0x20] ++ rlit "ita" ++ [0x20])) ++
          (0x23 :: rlit " codes" ++ 0x0A :: [] ++ [0x0A])) ++ [])) ++
     (([] ++ rlit "rewrite" ++ [] ++ 0x3A ::
      (([] ++ (0x22 :: flat_map escape (rlit "{@}""") ++ [0x22]) ++ [0x20] ++ [0x2D; 0x3E] ++
         ([0x20] ++ (0x22 :: flat_map escape (rlit "a b") ++ [0x22]) ++ []) ++ [0x0A]) ++
       ([] ++ rlit "x" ++ [] ++ [0x2D; 0x3E] ++ [] ++ [0x0A]) ++ [])) ++
      [0x20] ++ 0x23 :: rlit " end"))%list) by (vm_compute; reflexivity).
  rewrite T. clear T.
  assert (B : blank 0x20) by apply blank_space.
  assert (Cm : forall s, forallb (fun c => negb (c =? 10) && negb (c =? 0)) s = true -> comment_text s).
  { intros s H. apply Forall_forall. intros c Hc. rewrite forallb_forall in H. apply H in Hc.
    apply andb_true_iff in Hc. rewrite !negb_true_iff, !N.eqb_neq in Hc. exact Hc. }
  assert (Q : forall s t, s = encode t -> forallb (fun c => negb (c =? 0x5C)) t = true ->
                spells s (0x22 :: flat_map escape t ++ [0x22])).
  { intros s t -> H. constructor. apply Forall_forall. intros c Hc. rewrite forallb_forall in H.
    apply H in Hc. apply negb_true_iff, N.eqb_neq in Hc. exact Hc. }
  assert (W : forall s t, s = encode t ->
                match t with [] => False | c :: t => is_initial_letter c = true /\ forallb is_lex_letter t = true end ->
                spells s t).
  { intros s [|c t] -> H; [contradiction|]. destruct H as [H1 H2]. constructor; [apply letter_initial, H1|].
    apply Forall_forall. intros x Hx. rewrite forallb_forall in H2. apply letter_or_digit_lex, H2, Hx. }
  assert (F0 : filler []) by constructor.
  assert (S0 : spaces []) by constructor.
  assert (S1 : spaces [0x20]) by (repeat constructor; apply B).
  assert (F1 : filler [0x20]) by (constructor; [apply B|constructor]).
  constructor.
  { constructor.
    - constructor; [apply Cm; vm_compute; reflexivity|]. repeat (constructor; [apply B|]). constructor.
    - apply W; vm_compute; auto.
    - exact F1.
    - constructor; [constructor|].
      + apply filler_newline, filler_newline, filler_space, filler_space; [apply B|apply B|constructor].
      + apply W; vm_compute; auto.
      + exact F1.
      + constructor; [apply W; vm_compute; auto|exact S1|exact S0].
      + constructor.
      + constructor; [constructor|constructor].
        * apply filler_space; [apply B|]. apply filler_comment; [apply Cm; vm_compute; reflexivity|constructor].
        * apply W; vm_compute; auto.
        * exact F0.
        * constructor; [apply Q; vm_compute; auto|exact S1|exact S0|].
          constructor; [apply W; vm_compute; auto|exact S1|exact S1].
        * constructor; [apply Cm; vm_compute; reflexivity|exact S0].
    - discriminate. }
  apply (document_cons _ [] _ ([0x20] ++ 0x23 :: rlit " end")).
  { constructor.
    - exact F0.
    - apply W; vm_compute; auto.
    - exact F0.
    - constructor; [constructor|constructor; [constructor|constructor]].
      + exact F0.
      + apply Q; vm_compute; auto.
      + exact F1.
      + constructor; [apply Q; vm_compute; auto|exact S1|exact S0].
      + constructor.
      + exact F0.
      + apply W; vm_compute; auto.
      + exact F0.
      + constructor. exact S0.
      + constructor.
    - discriminate. }
  constructor; [exact F1|apply Cm; vm_compute; reflexivity].
Qed.

(** ** C21 Round trip

    [print_document] writes every string in quotes and every entry on a line of
    its own. [writable] strings are valid text without backslashes; quotes and
    NUL are allowed. *)

Lemma scalars_flat_map (f : rune -> list rune) l :
  (forall c, is_scalar c = true -> scalars (f c)) -> scalars l -> scalars (flat_map f l).
Proof.
  intros Hf H. induction H as [|c l Hc _ IH]; cbn; [constructor|]. apply Forall_app.
  split; [apply Hf, Hc|exact IH].
Qed.
Lemma quoted_scalars s : scalars (quoted s).
Proof.
  unfold quoted. constructor; [reflexivity|]. apply Forall_app. split; [|repeat constructor].
  apply scalars_flat_map; [|apply runes_scalar].
  intros c Hc. unfold escape. destruct (c =? 34); repeat constructor. exact Hc.
Qed.
Lemma print_values_scalars vs : scalars (print_values vs).
Proof.
  induction vs as [|v vs IH]; [constructor|]. cbn [print_values]. destruct vs.
  - constructor; [reflexivity|apply quoted_scalars].
  - constructor; [reflexivity|]. apply Forall_app. split; [apply quoted_scalars|].
    constructor; [reflexivity|exact IH].
Qed.
Lemma print_scalars d : scalars (print_document d).
Proof.
  induction d as [|s d IH]; [constructor|]. cbn [print_document flat_map]. apply Forall_app.
  split; [|exact IH]. unfold print_section. apply Forall_app. split; [apply quoted_scalars|].
  constructor; [reflexivity|]. constructor; [reflexivity|].
  induction (sec_entries s) as [|e es IHe]; [constructor|]. cbn [flat_map]. apply Forall_app.
  split; [|exact IHe]. unfold print_entry. constructor; [reflexivity|]. apply Forall_app.
  split; [apply quoted_scalars|]. constructor; [reflexivity|]. apply Forall_app.
  split; [destruct (sec_kind s); repeat constructor|]. apply Forall_app.
  split; [apply print_values_scalars|repeat constructor].
Qed.

Theorem C21_round_trip : forall d,
  Forall writable_section d -> Forall (fun s => sec_entries s <> []) d -> proper d ->
  exists h, parse_hsl (encode (print_document d)) = Ok h /\ says h = d.
Proof.
  intros d Hw Hn Hp.
  destruct (C22_layout d _ (print_document_text d Hw) (print_scalars d) Hp) as (h & E & G).
  exists h. split; [exact E|]. rewrite G. clear -Hn.
  induction Hn as [|s d H _ IH]; [reflexivity|]. cbn. unfold nonempty.
  destruct (sec_entries s); [contradiction|]. f_equal. exact IH.
Qed.
Print Assumptions C21_round_trip.

(** Sections without entries leave no trace; the others are unaffected. *)
Theorem C21_empty_sections_vanish : forall d,
  Forall writable_section d -> proper d ->
  exists h, parse_hsl (encode (print_document d)) = Ok h /\ says h = filter nonempty d.
Proof.
  intros d Hw Hp. apply C22_layout; [apply print_document_text, Hw|apply print_scalars|exact Hp].
Qed.
Print Assumptions C21_empty_sections_vanish.

Example C21_example :
  Forall writable_section ex_doc /\ Forall (fun s => sec_entries s <> []) ex_doc /\ proper ex_doc /\
  match parse_hsl (encode (print_document ex_doc)) with Ok h => says h = ex_doc | _ => False end.
Proof.
  set (ok := fun s => valid_utf8 s && forallb (fun c => negb (c =? 0x5C)) (runes s)).
  assert (W : forall s, ok s = true -> writable s).
  { intros s H. apply andb_true_iff in H. destruct H as [H1 H2].
    split; [apply valid_utf8_text, H1|]. apply Forall_forall. intros c Hc.
    rewrite forallb_forall in H2. apply H2 in Hc. apply negb_true_iff, N.eqb_neq in Hc. exact Hc. }
  assert (Ws : forall s, ok (sec_name s) = true -> sec_name s <> [] ->
             forallb (fun e => ok (fst e) && forallb ok (snd e)) (sec_entries s) = true -> writable_section s).
  { intros s H1 H2 H3. split; [apply W, H1|]. split; [exact H2|]. apply Forall_forall. intros e He.
    rewrite forallb_forall in H3. apply H3 in He. apply andb_true_iff in He. destruct He as [He1 He2].
    split; [apply W, He1|]. apply Forall_forall. intros v Hv. rewrite forallb_forall in He2. apply W, He2, Hv. }
  split; [|split; [|split; [apply C22_example|vm_compute; reflexivity]]].
  - repeat (constructor; [apply Ws; [vm_compute; reflexivity|discriminate|vm_compute; reflexivity]|]). constructor.
  - repeat (constructor; [discriminate|]). constructor.
Qed.

(** Strings with a backslash cannot be written at all: no string token has one. *)
Theorem C21_no_backslash : forall l s l', scan l = Ok (TString s, l') -> ~ In 0x5C (runes s).
Proof.
  intros l s l' E. pose proof (scan_spec l) as H. rewrite E in H.
  destruct H as (c & _ & _ & v & -> & F). rewrite runes_encode_fix. intros H.
  apply in_map_iff in H. destruct H as (x & Hx & Hin). rewrite Forall_forall in F. apply (F _ Hin).
  unfold fix_rune in Hx. destruct (is_scalar x); [exact Hx|discriminate Hx].
Qed.
Print Assumptions C21_no_backslash.

(** ** C23 Trailing comments

    A comment after the values of an entry takes the line break with it, so the
    next line is read as further values of the entry. [after_entry] is the rest of
    a section after a line [key1 = values1]: the end of that line and a second
    entry. *)
Definition two_entries (k : kind) (header key1 values1 eol key2 values2 : list rune) : list rune :=
  header ++ key1 ++ operator k ++ values1 ++ eol ++ key2 ++ operator k ++ values2 ++ [0x0A].

Lemma pvalues_operator k (q r : reader) n vs :
  map fst q = operator k -> pvalues (lx (q ++ r) n) vs = pvalues (lx r n) vs.
Proof.
  intros E. destruct k; cbn in E.
  - destruct q as [|[c w] [|[c2 w2] [|]]]; try discriminate E. cbn in E. injection E as -> ->.
    rewrite pvalues_eq. reflexivity.
  - destruct q as [|[c w] [|]]; try discriminate E. cbn in E. injection E as ->.
    rewrite pvalues_eq. reflexivity.
Qed.

Lemma stops_operator k (q r : reader) : map fst q = operator k -> stops_word (q ++ r).
Proof.
  intros E. destruct k; destruct q as [|[c w] q]; try discriminate E; cbn in E;
    injection E as -> _; apply stops_char; reflexivity.
Qed.

(** Whatever the section, the entries before, the comment and the entries: the
    second entry disappears into the values of the first. *)
Theorem C23_trailing_comment_joins : forall k name es header key1 k1 vs1 v1 c key2 k2 vs2 v2,
  section_text {| sec_name := name; sec_kind := k; sec_entries := es |} header ->
  spells key1 k1 -> values_text vs1 v1 -> comment_text c -> spells key2 k2 -> values_text vs2 v2 ->
  (k = Dict -> NoDup (map fst es ++ [key1])) ->
  scalars (two_entries k header k1 v1 (0x23 :: c ++ [0x0A]) k2 v2) ->
  exists h, parse_hsl (encode (two_entries k header k1 v1 (0x23 :: c ++ [0x0A]) k2 v2)) = Ok h /\
    says h = [{| sec_name := name; sec_kind := k; sec_entries := es ++ [(key1, vs1 ++ key2 :: vs2)] |}].
Proof.
  intros k name es header key1 k1 vs1 v1 c key2 k2 vs2 v2 H1 H2 H3 H4 H5 H6 Hd Hs.
  unfold parse_hsl. rewrite parse_hsl_ploop. pose proof (glyphs_fst _ Hs) as E. clear Hs.
  generalize dependent (glyphs (encode (two_entries k header k1 v1 (35 :: c ++ [10]) k2 v2))).
  intros q E. unfold two_entries in E.
  destruct (map_eq_app _ _ _ _ E) as (q1 & q1' & -> & E1 & E1').
  destruct (map_eq_app _ _ _ _ E1') as (q2 & q2' & -> & E2 & E2').
  destruct (map_eq_app _ _ _ _ E2') as (q3 & q3' & -> & E3 & E3').
  destruct (map_eq_app _ _ _ _ E3') as (q4 & q4' & -> & E4 & E4').
  destruct (map_eq_app _ _ _ _ E4') as (q5 & q5' & -> & E5 & E5').
  destruct (map_eq_app _ _ _ _ E5') as (q6 & q6' & -> & E6 & E6').
  destruct (map_eq_app _ _ _ _ E6') as (q7 & q7' & -> & E7 & E7').
  destruct (map_eq_app _ _ _ _ E7') as (q8 & q9 & -> & E8 & E9).
  clear E E1' E2' E3' E4' E5' E6' E7'.
  destruct q5 as [|[c5 w5] q5]; [discriminate|]. cbn in E5. injection E5 as -> E5.
  destruct (map_eq_app _ _ _ _ E5) as (q5a & q5b & -> & E5a & E5b). clear E5.
  destruct q5b as [|[c5 w5b] [|]]; try discriminate E5b. cbn in E5b. injection E5b as ->.
  destruct q9 as [|[c9 w9] [|]]; try discriminate E9. cbn in E9. injection E9 as ->.
  change {| lx_rest := ?a; lx_line := 1 |} with (lx a 1).
  destruct (ploop_section name k es header q1 (q2 ++ q3 ++ q4 ++ ((35 : rune, w5) :: q5a ++ [(10 : rune, w5b)]) ++ q6 ++ q7 ++ q8 ++ [(10 : rune, w9)])
              1 pstate0 H1 E1 (fun F => F)) as (n1 & st1 & ts & qs & G1 & G2 & -> & G4).
  assert (Hd' : k = Dict -> NoDup (map fst ([] ++ es)) /\ ~ In key1 (map fst es)).
  { intros K. specialize (Hd K). split.
    - clear -Hd. cbn. induction (map fst es) as [|x l IH]; [constructor|]. cbn in Hd.
      inversion Hd as [|? ? A B]; subst. constructor; [|apply IH, B]. intros W. apply A, in_or_app. auto.
    - intros W. apply in_split in W. destruct W as (a & b & W). rewrite W in Hd.
      rewrite <- app_assoc in Hd. apply NoDup_remove_2 in Hd. apply Hd.
      rewrite !in_app_iff. right. right. left. reflexivity. }
  destruct (ploop_entries k es ts qs (q2 ++ q3 ++ q4 ++ ((35 : rune, w5) :: q5a ++ [(10 : rune, w5b)]) ++ q6 ++ q7 ++ q8 ++ [(10 : rune, w9)])
              n1 st1 _ name [] G1 G2 G4 (fun K => proj1 (Hd' K))) as (n2 & st2 & -> & G5).
  destruct (ploop_string _ _ q2 (q3 ++ q4 ++ ((35 : rune, w5) :: q5a ++ [(10 : rune, w5b)]) ++ q6 ++ q7 ++ q8 ++ [(10 : rune, w9)]) n2 st2 H2 E2)
    as (n3 & ->); [apply (stops_operator k), E3|].
  rewrite (ploop_operator k) by exact E3. unfold ppair. cbn [set_last ps_name].
  destruct G5 as (G5a & G5b & G5c). rewrite G5a. destruct name as [|b0 name]; [congruence|].
  destruct (pvalues_text _ _ H3 q4 (((35 : rune, w5) :: q5a ++ [(10 : rune, w5b)]) ++ q6 ++ q7 ++ q8 ++ [(10 : rune, w9)]) n3 [] E4)
    as (n4 & ->); [cbn [app]; apply stops_char; reflexivity|].
  cbn [app]. rewrite <- app_assoc. cbn [app].
  rewrite (skip_comment (fun l => pvalues l vs1) (pvalues_skips vs1)) by (eapply comment_reader; [exact H4|exact E5a]).
  destruct (pvalues_string _ _ q6 (q7 ++ q8 ++ [(10 : rune, w9)]) (n4 + 1) vs1 H5 E6) as (n5 & ->);
    [apply (stops_operator k), E7|].
  rewrite (pvalues_operator k) by exact E7.
  destruct (pvalues_text _ _ H6 q8 [(10 : rune, w9)] n5 (vs1 ++ [key2]) E8) as (n6 & ->);
    [apply stops_char; reflexivity|].
  destruct (pvalues_line_end [10] [(10 : rune, w9)] [] n6 ((vs1 ++ [key2]) ++ vs2) end_newline eq_refl) as (n7 & G7).
  cbn [app] in G7. rewrite G7. cbn [bind]. rewrite <- app_assoc. cbn [app].
  destruct (add_to_holds st2 [] (b0 :: name) k es key1 (vs1 ++ key2 :: vs2) (lx_line (lx (q4 ++ ((35 : rune, w5) :: q5a ++ [(10 : rune, w5b)]) ++ q6 ++ q7 ++ q8 ++ [(10 : rune, w9)]) n3)))
    as (st3 & A & G8).
  { split; [exact G5a|]. split; [exact G5b|exact G5c]. }
  { intros K. apply Hd', K. }
  cbn [lx_line lx] in A |- *. unfold set_last in A |- *. rewrite ?G5a in A |- *. rewrite A. cbn [bind].
  rewrite ploop_nil. cbn [bind]. eexists. split; [reflexivity|].
  apply holds_says in G8. destruct G8 as [G8 _]. rewrite G8. cbn [says map app filter nonempty sec_entries].
  destruct es; reflexivity.
Qed.
Print Assumptions C23_trailing_comment_joins.

(** Without the comment, or when a blank line follows it ([line_end]), there are
    two entries. *)
Lemma entries_text_app k es1 t1 es2 t2 :
  entries_text k es1 t1 -> entries_text k es2 t2 -> entries_text k (es1 ++ es2) (t1 ++ t2).
Proof. induction 1; intros H2; [exact H2|]. cbn [app]. rewrite <- app_assoc. constructor; auto. Qed.

Theorem C23_comment_before_blank_line_partial : forall k name es header key1 k1 vs1 v1 eol key2 k2 vs2 v2,
  section_text {| sec_name := name; sec_kind := k; sec_entries := es |} header ->
  spells key1 k1 -> values_text vs1 v1 -> line_end eol -> spells key2 k2 -> values_text vs2 v2 ->
  (k = Dict -> NoDup (map fst es ++ [key1; key2])) ->
  scalars (two_entries k header k1 v1 eol k2 v2) ->
  exists h, parse_hsl (encode (two_entries k header k1 v1 eol k2 v2)) = Ok h /\
    says h = [{| sec_name := name; sec_kind := k; sec_entries := es ++ [(key1, vs1); (key2, vs2)] |}].
Proof.
  intros k name es header key1 k1 vs1 v1 eol key2 k2 vs2 v2 H1 H2 H3 H4 H5 H6 Hd Hs.
  destruct (C22_layout [{| sec_name := name; sec_kind := k; sec_entries := es ++ [(key1, vs1); (key2, vs2)] |}]
              (two_entries k header k1 v1 eol k2 v2)) as (h & E & G); [| exact Hs | |].
  - inversion H1 as [name' k' es' f1 nt f2 ts A1 A2 A3 A4 A5 A6 A7]; subst. clear Hs.
    rewrite <- (app_nil_r (two_entries k _ k1 v1 eol k2 v2)).
    apply (document_cons _ [] _ []); [|constructor; constructor].
    assert (T : two_entries k (f1 ++ nt ++ f2 ++ 58 :: ts) k1 v1 eol k2 v2 =
                f1 ++ nt ++ f2 ++ 58 :: ts ++ ([] ++ k1 ++ [] ++ operator k ++ v1 ++ eol) ++
                  ([] ++ k2 ++ [] ++ operator k ++ v2 ++ [10]) ++ []).
    { unfold two_entries. rewrite !app_nil_r. cbn [app]. repeat (rewrite <- app_assoc; cbn [app]). reflexivity. }
    rewrite T. constructor; try assumption. apply entries_text_app; [exact A4|].
    repeat (constructor; try assumption).
  - split; [constructor; [intros []|constructor]|]. constructor; [|constructor]. cbn [sec_kind sec_entries].
    intros K. rewrite map_app. exact (Hd K).
  - exists h. split; [exact E|]. rewrite G. cbn. destruct es; reflexivity.
Qed.
Print Assumptions C23_comment_before_blank_line_partial.

(** So the property is false. *)
Theorem C23_refuted : exists before comment after h1 h2,
  comment_text comment /\
  parse_hsl (before ++ encode [0x0A] ++ after) = Ok h1 /\
  parse_hsl (before ++ encode (0x23 :: comment ++ [0x0A]) ++ after) = Ok h2 /\
  says h1 <> says h2.
Proof.
  exists (lit ("test:" ++ nl ++ "a -> b ")), (rlit " note"), (lit ("c -> d" ++ nl)).
  do 2 eexists. split; [|split; [vm_compute; reflexivity|split; [vm_compute; reflexivity|discriminate]]].
  repeat (constructor; [split; discriminate|]). constructor.
Qed.
Print Assumptions C23_refuted.

Example C23_example :
  match parse_hsl (lit ("test:" ++ nl ++ "a -> b # note" ++ nl ++ "c -> d" ++ nl)) with
  | Ok h => says h = [{| sec_name := lit "test"; sec_kind := Pairs;
                         sec_entries := [(lit "a", [lit "b"; lit "c"; lit "d"])] |}]
  | _ => False
  end.
Proof. vm_compute. reflexivity. Qed.

(** ** C24 Termination

    The model has a special outcome [Hang] for the endless loop; [unclosed]
    says that no closing quote follows (HslFacts). *)

Theorem C24_terminates_refuted : exists src, parse_hsl src = Hang.
Proof. exists (lit "a: b = ""c"). vm_compute. reflexivity. Qed.
Print Assumptions C24_terminates_refuted.

Lemma parse_hsl_src_hang src : parse_hsl src = Hang <-> ploop (lx (glyphs src) 1) pstate0 = Hang.
Proof.
  unfold parse_hsl. rewrite parse_hsl_ploop. unfold lx.
  destruct (ploop _ _) as [[h r]| | | | |]; cbn; split; congruence.
Qed.

(** An opening quote that is never closed is the only cause: there is one, and
    the text before it is read without trouble. *)
Theorem C24_hang_cause_partial : forall src,
  parse_hsl src = Hang ->
  exists before after, src = before ++ 0x22 :: after /\ unclosed (runes after) /\ parse_hsl before <> Hang.
Proof.
  intros src H. apply parse_hsl_src_hang in H.
  destruct (ploop_run (lx (glyphs src) 1) pstate0) as (l & st & M & E).
  rewrite H in E. inversion E as [| | | |l2 A Sc|]; subst.
  pose proof (scan_spec l2) as S. rewrite Sc in S. destruct S as (w & r & R & U).
  destruct (msteps_step _ _ _ _ M) as (c1 & S1). destruct (asks_step _ _ _ A) as (c2 & S2).
  destruct (step_trans _ _ _ _ _ S1 S2) as [S3 _]. cbn [lx lx_rest] in S3.
  destruct (glyphs_cut _ _ _ S3) as (a & b & -> & Ga & Gb).
  rewrite R in Gb.
  destruct (glyphs_ascii _ _ _ _ Gb ltac:(reflexivity)) as (after & -> & Gaf & _). exists a, after. split; [reflexivity|]. split.
  - unfold runes. rewrite Gaf. exact U.
  - intros Hh. apply parse_hsl_src_hang in Hh. rewrite Ga in Hh.
    revert Hh. apply (asks_before 1 (glyphs (a ++ 34 :: after)) pstate0 l st l2 (c1 ++ c2) M A). exact S3.
Qed.
Print Assumptions C24_hang_cause_partial.

(** Conversely, wherever a string may start, an unclosed quote hangs: here after
    any well-written section. *)
Lemma scan_unclosed w r n : unclosed (map fst r) -> scan (lx ((0x22, w) :: r) n) = Hang.
Proof.
  intros U. unfold scan, read. cbn [lx lx_rest lx_line N.eqb Pos.eqb eof].
  change (is_space 0x22) with false. change (is_initial_letter 0x22) with false. cbn [N.eqb Pos.eqb].
  pose proof (scan_quoted_spec r n false []) as S.
  destruct (scan_quoted r n false []) as [[s l']| | | | |]; try contradiction; [|reflexivity].
  destruct S as (sk & b & v & w' & [S _] & (-> & _) & Q). cbn in S. exfalso.
  apply (U (map fst b) (map fst (lx_rest l')) v); [|exact Q].
  rewrite S, !map_app. cbn [map app fst]. rewrite <- app_assoc. reflexivity.
Qed.

Theorem C24_unclosed_hangs : forall s header after,
  section_text s header -> scalars header -> proper [s] -> unclosed (runes after) ->
  parse_hsl (encode header ++ 0x22 :: after) = Hang.
Proof.
  intros [name k es] header after H Hs [_ P] U. apply parse_hsl_src_hang.
  rewrite glyphs_app_text by (exists header; auto).
  assert (Gq : glyphs (34 :: after) = (34 : rune, 1%nat) :: glyphs after).
  { rewrite (glyphs_step (34 :: after)) by discriminate. reflexivity. }
  rewrite Gq.
  destruct (ploop_section name k es header (glyphs (encode header)) ((34 : rune, 1%nat) :: glyphs after) 1 pstate0 H
              (glyphs_fst _ Hs) (fun F => F)) as (n1 & st1 & ts & qs & G1 & G2 & -> & G4).
  inversion P as [|? ? P1 _]; subst.
  destruct (ploop_entries k es _ qs ((34 : rune, 1%nat) :: glyphs after) n1 st1 _ name [] G1 eq_refl G4 P1) as (n2 & st2 & -> & _).
  rewrite ploop_eq, scan_unclosed; [reflexivity|exact U].
Qed.
Print Assumptions C24_unclosed_hangs.

(** Without comments and backslashes, an even number of quotes is enough. *)
Theorem C24_even_quotes_partial : forall src,
  ~ In 0x23 (runes src) -> ~ In 0x5C (runes src) ->
  Nat.Even (length (filter (N.eqb 0x22) (runes src))) -> parse_hsl src <> Hang.
Proof.
  intros src H1 H2 Ev H. apply parse_hsl_src_hang in H.
  assert (Sm : simple_text (glyphs src)).
  { apply Forall_forall. intros g Hg. split; intros X; [apply H1|apply H2];
      unfold runes; rewrite <- X; apply in_map, Hg. }
  assert (Qn : length (filter (N.eqb 34) (runes src)) = quotes (glyphs src)).
  { unfold quotes, runes. generalize (glyphs src). intros l.
    induction l as [|[ch w] l IH]; [reflexivity|]. cbn [map filter fst].
    rewrite (N.eqb_sym 34 ch). destruct (ch =? 34); cbn [length]; rewrite IH; reflexivity. }
  rewrite Qn in Ev.
  destruct (ploop_run (lx (glyphs src) 1) pstate0) as (l & st & M & E).
  rewrite H in E. inversion E as [| | | |l2 A Sc|]; subst.
  pose proof (scan_spec l2) as S. rewrite Sc in S. destruct S as (w & r & R & U).
  destruct (msteps_step _ _ _ _ M) as (c1 & S1). destruct (asks_step _ _ _ A) as (c2 & S2).
  pose proof (step_trans _ _ _ _ _ S1 S2) as [S3 _]. cbn [lx lx_rest] in S3.
  rewrite S3, R in Sm. apply simple_app in Sm. destruct Sm as [Sm1 Sm2]. apply simple_app in Sm1.
  destruct Sm1 as [Sma Smb].
  pose proof (msteps_even _ _ _ _ _ M S1 Sma) as Q1. pose proof (asks_even _ _ _ _ A S2 Smb) as Q2.
  change ((34, w) :: r) with ([(34 : rune, w)] ++ r) in *. apply simple_app in Sm2. destruct Sm2 as [_ Sm2].
  pose proof (unclosed_simple r U Sm2) as Q3.
  rewrite S3, R, !quotes_app, Q3 in Ev. change (quotes [(34, w)]) with 1%nat in Ev.
  destruct Q1 as (x & Q1), Q2 as (y & Q2), Ev as (z & Ev). lia.
Qed.
Print Assumptions C24_even_quotes_partial.

Example C24_example :
  ~ In 0x23 (rlit "a: ""b"" -> ""c""") /\ ~ In 0x5C (rlit "a: ""b"" -> ""c""") /\
  length (filter (N.eqb 0x22) (rlit "a: ""b"" -> ""c""")) = 4%nat /\
  unclosed (rlit "c") /\ parse_hsl (lit "a: b = ""c") = Hang.
Proof.
  assert (X : forall c s, existsb (N.eqb c) s = false -> ~ In c s).
  { intros c s H W. assert (existsb (N.eqb c) s = true) by (apply existsb_exists; exists c; rewrite N.eqb_refl; auto).
    congruence. }
  split; [apply X; vm_compute; reflexivity|]. split; [apply X; vm_compute; reflexivity|].
  split; [vm_compute; reflexivity|]. split; [|vm_compute; reflexivity].
  intros b rest v E. exfalso. destruct b as [|b0 [|b1 b]]; discriminate E.
Qed.

(** ** C25 Panics

    Everything Parse may do: return sections, return one of two errors, panic on
    a dash that is not the start of an arrow, panic on a repeated key, or hang. *)

Theorem C25_outcomes_partial : forall src,
  match parse_hsl src with
  | Ok _ => True
  | Err e => e = ErrIllegalToken \/ e = ErrPairNotInSection
  | Panic PNotArrow => exists before after, runes src = before ++ 0x2D :: after /\
                         forall after', after <> 0x3E :: after'
  | Panic PAddPair => In 0x3D (runes src)
  | Panic _ => False
  | Hang => In 0x22 (runes src)
  | NoFuel | Unmodelled => False
  end.
Proof.
  intros src. unfold parse_hsl. rewrite parse_hsl_ploop.
  destruct (ploop_run {| lx_rest := glyphs src; lx_line := 1 |} pstate0) as (l & st & M & E).
  destruct (msteps_step _ _ _ _ M) as (c1 & S1).
  inversion E as [l1 E1 Q|Q|N Q|l2 p A Sc Q|l2 A Sc Q|tok l1 vs l2 E1 K N V A Q]; cbn [bind]; auto.
  - pose proof (scan_spec l2) as S. rewrite Sc in S. destruct S as (-> & w & r & R & U).
    destruct (asks_step _ _ _ A) as (c2 & S2).
    destruct (step_trans _ _ _ _ _ S1 S2) as [S3 _]. cbn [lx_rest] in S3.
    exists (map fst (c1 ++ c2)), (map fst r). unfold runes. split.
    + rewrite S3, R, map_app. reflexivity.
    + intros after' X. destruct r as [|[ch w'] r]; [discriminate X|]. cbn in X. injection X as -> _.
      apply (U w' r). reflexivity.
  - pose proof (scan_spec l2) as S. rewrite Sc in S. destruct S as (w & r & R & U).
    destruct (asks_step _ _ _ A) as (c2 & S2).
    destruct (step_trans _ _ _ _ _ S1 S2) as [S3 _]. cbn [lx_rest] in S3.
    unfold runes. rewrite S3, R, map_app. apply in_or_app. right. left. reflexivity.
  - destruct (in_dec N.eq_dec 0x3D (runes src)) as [I|I]; [exact I|]. exfalso.
    destruct S1 as [S1 S1']. cbn [lx_rest] in S1.
    assert (F : Forall (fun g => fst g <> 0x3D) (glyphs src)).
    { apply Forall_forall. intros g Hg X. apply I. unfold runes. rewrite <- X. apply in_map, Hg. }
    rewrite S1 in F. apply Forall_app in F. destruct F as [F1 F2].
    assert (L : lists_only (ps_hsl st)).
    { eapply msteps_lists; [exact M|split; [exact S1|exact S1']|exact F1|constructor]. }
    pose proof (scan_spec l) as S. rewrite E1 in S. destruct S as (c & [S _] & T).
    destruct tok; try discriminate K.
    + destruct T as (w & ->). rewrite S in F2. inversion F2 as [|? ? F3 _]; subst. apply F3. reflexivity.
    + unfold add_to in A. destruct (lookup (ps_hsl st) (ps_name st)) as [s|] eqn:El.
      * apply lookup_in in El. unfold lists_only in L. rewrite Forall_forall in L. specialize (L _ El). cbn in L.
        destruct s; [discriminate A|contradiction].
      * discriminate A.
Qed.
Print Assumptions C25_outcomes_partial.

(** Texts where every dash starts an arrow and with no equals sign never panic. *)
Theorem C25_no_panic_partial : forall src,
  (forall before after, runes src = before ++ 0x2D :: after -> exists after', after = 0x3E :: after') ->
  ~ In 0x3D (runes src) ->
  forall p, parse_hsl src <> Panic p.
Proof.
  intros src H1 H2 p H. pose proof (C25_outcomes_partial src) as O. rewrite H in O.
  destruct p; try contradiction.
  destruct O as (b & a & E & N). destruct (H1 b a E) as (a' & ->). apply (N a'). reflexivity.
Qed.
Print Assumptions C25_no_panic_partial.

(** The property is false: a lone dash panics, and so does any repeated key, in
    whatever layout and whatever follows. *)
Theorem C25_no_panic_refuted : exists src, parse_hsl src = Panic PNotArrow.
Proof. exists (lit "rewrite: a - b"). vm_compute. reflexivity. Qed.
Print Assumptions C25_no_panic_refuted.

Theorem C25_repeated_key_panics : forall name es header key vs t after,
  section_text {| sec_name := name; sec_kind := Dict; sec_entries := es |} header ->
  NoDup (map fst es) -> entry_text Dict (key, vs) t -> In key (map fst es) ->
  scalars header -> scalars t ->
  parse_hsl (encode header ++ encode t ++ after) = Panic PAddPair.
Proof.
  intros name es header key vs t after H1 Hd H2 Hk Hs1 Hs2. unfold parse_hsl. rewrite parse_hsl_ploop.
  rewrite glyphs_app_text by (exists header; auto). rewrite glyphs_app_text by (exists t; auto).
  destruct (ploop_section name Dict es header (glyphs (encode header)) (glyphs (encode t) ++ glyphs after) 1 pstate0 H1
              (glyphs_fst _ Hs1) (fun F => F)) as (n1 & st1 & ts & qs & G1 & G2 & G3 & G4).
  unfold lx in G3 at 1. rewrite G3.
  rewrite (ploop_repeated Dict es key vs t ts qs (glyphs (encode t)) (glyphs after) n1 st1 [] name G1 G2 H2 (glyphs_fst _ Hs2) G4 Hd Hk eq_refl).
  reflexivity.
Qed.
Print Assumptions C25_repeated_key_panics.

Example C25_example :
  parse_hsl (lit ("config:" ++ nl ++ "stage = a" ++ nl ++ "stage = b" ++ nl)) = Panic PAddPair /\
  (exists h, parse_hsl (lit "test: a -> b") = Ok h) /\
  parse_hsl (lit "a = b") = Err ErrPairNotInSection /\ parse_hsl (lit "a: (") = Err ErrIllegalToken.
Proof. split; [vm_compute; reflexivity|]. split; [eexists|split]; vm_compute; reflexivity. Qed.

(** ** C26 Order, uniqueness and line numbers *)

(** The line on which the [k]-th character ends. *)
Definition line_of (t : list rune) (k : nat) : Z :=
  (1 + Z.of_nat (length (filter (N.eqb 0x0A) (firstn k t))))%Z.
Definition ends_with (t : list rune) (k : nat) (s : list rune) : Prop :=
  (k <= length t)%nat /\ exists c, firstn k t = c ++ s.

(** The pairs come from operators of the text after the colon of their section,
    in order, and carry the right line numbers. *)
Definition in_order (t : list rune) (line : Z) (pairs : list pair_) : Prop :=
  exists k0 ks, ends_with t k0 [0x3A] /\ line = line_of t k0 /\ StronglySorted lt (k0 :: ks) /\
    Forall2 (fun p k => (ends_with t k [0x3D] \/ ends_with t k [0x2D; 0x3E]) /\ pr_line p = line_of t k) pairs ks.

Definition section_pairs (s : section) : list pair_ :=
  match s with ListSection l _ => l | DictSection d _ => d end.
Definition section_line (s : section) : Z :=
  match s with ListSection _ n => n | DictSection _ n => n end.

Lemma newlines_runes (c : reader) : newlines c = Z.of_nat (length (filter (N.eqb 0x0A) (map fst c))).
Proof.
  unfold newlines. f_equal. induction c as [|[ch w] c IH]; [reflexivity|]. cbn [map filter fst].
  rewrite (N.eqb_sym 10 ch). destruct (ch =? 10); cbn [length]; rewrite IH; reflexivity.
Qed.

Theorem C26_order : forall src h name sec,
  parse_hsl src = Ok h -> In (name, sec) h ->
  in_order (runes src) (section_line sec) (section_pairs sec) /\ section_pairs sec <> [].
Proof.
  intros src h name sec H Hin. unfold parse_hsl in H.
  destruct (parse_hsl_src src) as [[h' rest]| | | | |] eqn:E; try discriminate. cbn in H. apply ok_inj in H. subst h'.
  destruct (parse_ok_inv _ _ _ E) as (I & _ & _). rewrite Forall_forall in I. specialize (I _ Hin). cbn in I.
  assert (Fst : forall k, firstn k (runes src) = map fst (firstn k (glyphs src))) by (intros; apply firstn_map).
  assert (Len : length (runes src) = length (glyphs src)) by apply map_length.
  assert (G : forall k0 pairs line, colon_ends (glyphs src) k0 line ->
            pairs_at (glyphs src) k0 (length (glyphs src)) pairs -> in_order (runes src) line pairs).
  { intros k0 pairs line (C1 & C2 & c & w & C3) (ks & P1 & P2 & P3). exists k0, ks. split; [|split; [|split]].
    - split; [rewrite Len; exact C1|]. exists (map fst c). rewrite Fst, C3, map_app. reflexivity.
    - rewrite C2. unfold line_of. rewrite Fst, newlines_runes. reflexivity.
    - constructor; [exact P1|]. eapply Forall_impl; [|exact P2]. cbn. lia.
    - clear -P3 Fst Len. induction P3 as [|p k ps ks' (O1 & O2 & O3) _ IH]; constructor; [|exact IH]. split.
      + destruct O3 as [(c' & w' & O3)|(c' & w1 & w2 & O3)]; [left|right];
          (split; [rewrite Len; exact O1|]; exists (map fst c'); rewrite Fst, O3, map_app; reflexivity).
      + rewrite O2. unfold line_of. rewrite Fst, newlines_runes. reflexivity. }
  destruct sec as [pairs line|d line]; cbn [section_line section_pairs] in *.
  - destruct I as (k0 & A & B & C). split; [eapply G; eauto|exact C].
  - destruct I as (k0 & A & B & C & _). split; [eapply G; eauto|exact C].
Qed.
Print Assumptions C26_order.

(** Hence line numbers never decrease, starting from the line of the section. *)
Lemma line_of_mono t j k : (j <= k)%nat -> (line_of t j <= line_of t k)%Z.
Proof.
  intros H. unfold line_of. destruct (Nat.le_exists_sub j k H) as (m & -> & _). rewrite (Nat.add_comm m j).
  assert (X : firstn (j + m) t = firstn j t ++ firstn m (skipn j t)).
  { clear. revert t. induction j as [|j IH]; intros t; [reflexivity|].
    destruct t as [|x t]; [cbn; rewrite firstn_nil; reflexivity|]. cbn [firstn skipn app Nat.add]. f_equal. apply IH. }
  rewrite X, filter_app, app_length. unfold rune in *. lia.
Qed.

Theorem C26_lines : forall src h name sec,
  parse_hsl src = Ok h -> In (name, sec) h ->
  StronglySorted Z.le (section_line sec :: map pr_line (section_pairs sec)).
Proof.
  intros src h name sec H Hin. destruct (C26_order _ _ _ _ H Hin) as ((k0 & ks & _ & -> & S & P) & _).
  assert (E : map pr_line (section_pairs sec) = map (line_of (runes src)) ks).
  { induction P as [|p k ps ks' [_ P1] _ IH]; [reflexivity|]. cbn. rewrite P1, IH; [reflexivity|].
    inversion S as [|? ? S1 S2]; subst. inversion S1; subst. inversion S2; subst. constructor; assumption. }
  rewrite E. change (line_of (runes src) k0 :: map (line_of (runes src)) ks) with (map (line_of (runes src)) (k0 :: ks)).
  generalize (k0 :: ks) S. clear. intros l S. induction S as [|x l S IH F]; [constructor|]. cbn. constructor; [exact IH|].
  apply Forall_map. eapply Forall_impl; [|exact F]. cbn. intros y Hy. apply line_of_mono. lia.
Qed.
Print Assumptions C26_lines.

Theorem C26_unique : forall src h,
  parse_hsl src = Ok h ->
  NoDup (map fst h) /\ forall name d line, In (name, DictSection d line) h -> NoDup (map pr_left d).
Proof.
  intros src h H. unfold parse_hsl in H.
  destruct (parse_hsl_src src) as [[h' rest]| | | | |] eqn:E; try discriminate. cbn in H. apply ok_inj in H. subst h'.
  destruct (parse_ok_inv _ _ _ E) as (I & N & _). split; [exact N|]. intros name d line Hin.
  rewrite Forall_forall in I. specialize (I _ Hin). cbn in I. destruct I as (k0 & _ & _ & _ & I). exact I.
Qed.
Print Assumptions C26_unique.

Example C26_example : exists h, parse_hsl (lit ex_text) = Ok h /\
  map (fun p => (section_line (snd p), map pr_line (section_pairs (snd p)))) h =
  [(2, [4; 6])%Z; (8, [8; 9])%Z].
Proof. eexists. split; vm_compute; reflexivity. Qed.

(** The kind of a section is settled by its first pair: later pairs written with
    the other operator join it. *)
Example C26_mixed : match parse_hsl (lit ("x: a -> b" ++ nl ++ "c = d" ++ nl)) with
  | Ok h => says h = [{| sec_name := lit "x"; sec_kind := Pairs;
                         sec_entries := [(lit "a", [lit "b"]); (lit "c", [lit "d"])] |}]
  | _ => False end.
Proof. vm_compute. reflexivity. Qed.

(** ** C27 The source is kept *)

Lemma parse_spec_source c src s : parse_spec c src = Ok s ->
  exists h rest, parse_hsl_src src = Ok (h, rest) /\ s_source s = firstn (length src - gwidth rest + ch_ahead c) src.
Proof.
  unfold parse_spec. destruct (parse_hsl_src src) as [[h rest]| | | | |]; try discriminate. cbn [bind].
  intros H. exists h, rest. split; [reflexivity|].
  repeat (match type of H with (bind ?x _ = _) => destruct x; try discriminate; cbn [bind] in H end).
  destruct (get_script _); [|discriminate]. apply ok_inj in H. rewrite <- H. reflexivity.
Qed.

Theorem C27_source : forall c src s,
  parse_spec c src = Ok s ->
  (exists rest, src = s_source s ++ rest) /\ (~ In 0 (runes src) -> s_source s = src).
Proof.
  intros c src s H. destruct (parse_spec_source _ _ _ H) as (h & rest & E & ->). split.
  - eexists. symmetry. apply firstn_skipn.
  - intros N. destruct (parse_ok_inv _ _ _ E) as (_ & _ & [->|(x & w & G)]).
    + apply firstn_all2. cbn. lia.
    + exfalso. apply N. unfold runes. rewrite G, map_app. apply in_or_app. right. left. reflexivity.
Qed.
Print Assumptions C27_source.

(** What is kept is all that matters: parsing it again gives the same spec. *)
Lemma parse_hsl_again src h rest k :
  parse_hsl_src src = Ok (h, rest) -> (length src - gwidth rest <= k)%nat ->
  exists rest', parse_hsl_src (firstn k src) = Ok (h, rest') /\
    (length (firstn k src) - gwidth rest' = length src - gwidth rest)%nat.
Proof.
  intros H Hk. pose proof H as H0. rewrite parse_hsl_ploop in H.
  destruct (ploop_run {| lx_rest := glyphs src; lx_line := 1 |} pstate0) as (l & st & M & E).
  rewrite H in E. inversion E as [l1 E1 Q| | | | |]; subst.
  destruct (msteps_step _ _ _ _ M) as (c & [S S']). cbn in S, S'.
  pose proof (scan_spec l) as T. rewrite E1 in T. destruct T as (c1 & [S1 S1'] & T).
  destruct T as [(-> & T)|(w & ->)].
  - cbn [app] in S1. rewrite <- S1, T in *. cbn in Hk.
    exists []. rewrite firstn_all2 by lia. auto.
  - destruct l as [r n]. cbn [lx_rest app] in S, S1, E1. subst r.
    change ((eof, w) :: lx_rest l1) with ([(eof, w)] ++ lx_rest l1) in S. rewrite app_assoc in S.
    set (rest := lx_rest l1) in *.
    assert (W : (gwidth (c ++ [(eof, w)]) + gwidth rest = length src)%nat).
    { rewrite <- (gwidth_glyphs src), S, !gwidth_app. reflexivity. }
    set (a := firstn (gwidth (c ++ [(eof, w)])) src). set (b := skipn (gwidth (c ++ [(eof, w)])) src).
    assert (Ea : src = a ++ b) by (symmetry; apply firstn_skipn).
    assert (La : length a = gwidth (c ++ [(eof, w)])) by (unfold a; rewrite firstn_length; lia).
    set (b1 := firstn (k - length a) b).
    assert (Ek : firstn k src = a ++ b1).
    { rewrite Ea at 1. rewrite firstn_app. rewrite firstn_all2 by lia. reflexivity. }
    assert (Eb : b = b1 ++ skipn (k - length a) b) by (symmetry; apply firstn_skipn).
    assert (G : glyphs (a ++ b1) = (c ++ [(eof, w)]) ++ glyphs b1).
    { apply (glyphs_front a b1 (skipn (k - length a) b) _ rest); [|lia].
      rewrite <- Eb, <- Ea. exact S. }
    exists (glyphs b1). split.
    + rewrite Ek, parse_hsl_ploop, G.
      assert (M2 : msteps {| lx_rest := c ++ [(eof, w)] ++ glyphs b1; lx_line := 1 |} pstate0
                          {| lx_rest := [(eof, w)] ++ glyphs b1; lx_line := n |} st).
      { eapply (msteps_local [(eof, w)] rest); [exact M| |reflexivity|apply same_head_app; discriminate].
        rewrite S, <- app_assoc. reflexivity. }
      rewrite <- app_assoc. rewrite (ploop_msteps _ _ _ _ M2). rewrite ploop_eq. reflexivity.
    + rewrite Ek, app_length, gwidth_glyphs. lia.
Qed.

Theorem C27_source_suffices : forall c src s, parse_spec c src = Ok s -> parse_spec c (s_source s) = Ok s.
Proof.
  intros c src s H. destruct (parse_spec_source _ _ _ H) as (h & rest & E & ->).
  destruct (parse_hsl_again src h rest (length src - gwidth rest + ch_ahead c) E ltac:(lia)) as (rest' & E' & L).
  unfold parse_spec in H |- *. rewrite E in H. rewrite E'. cbn [bind] in H |- *. rewrite L.
  rewrite firstn_firstn, Nat.min_id. exact H.
Qed.
Print Assumptions C27_source_suffices.

(** A NUL ends the file. *)
Example C27_example :
  let src := lit ("lang:" ++ nl ++ "id = ita" ++ nl ++ "codes = it, ita" ++ nl ++ "english = Italian" ++ nl ++
                  "korean = X" ++ nl ++ "script = Latn" ++ nl) in
  (exists s, parse_spec choices0 src = Ok s /\ s_source s = src) /\
  (exists s, parse_spec choices0 (src ++ [0] ++ lit "test: (") = Ok s /\ s_source s = src ++ [0]).
Proof. split; eexists; (split; [vm_compute; reflexivity|vm_compute; reflexivity]). Qed.
