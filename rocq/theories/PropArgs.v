(** The arguments of the command, C92; and what the flag for traces does, C49. *)
From Coq Require Import String Lia.
From Verif Require Import GoBase Utf8 Utf8Facts Hre Spec Bundled Api Procedure Jamo TestCmd Cli PropBundled Tracefmt PropSteps PropCli Args.
Open Scope N_scope.

(** ** Spellings *)

(** An argument that is no flag: a dash comes first only when it is all of it. *)
Definition plain (a : bytes) : Prop := forall rest, a = 0x2D :: rest -> rest = [].
Definition trues : list bytes := [lit "1"; lit "t"; lit "T"; lit "TRUE"; lit "true"; lit "True"].
Definition falses : list bytes := [lit "0"; lit "f"; lit "F"; lit "FALSE"; lit "false"; lit "False"].
(** The spellings of the flag for traces, and what they say. *)
Inductive says : bytes -> bool -> Prop :=
| says_short : says (lit "-v") true
| says_long : says (lit "--verbose") true
| says_true a v : (a = lit "-v=" \/ a = lit "--verbose=") -> In v trues -> says (a ++ v) true
| says_false a v : (a = lit "-v=" \/ a = lit "--verbose=") -> In v falses -> says (a ++ v) false.
(** [flagged b args words b']: the words of the arguments, in their order, when everything else
    is a flag for traces, which may stand anywhere and of which the last one counts; everything
    after two dashes is a word. *)
Inductive flagged : bool -> list bytes -> list bytes -> bool -> Prop :=
| flagged_end b : flagged b [] [] b
| flagged_plain b a args words b' : plain a -> flagged b args words b' -> flagged b (a :: args) (a :: words) b'
| flagged_says b a b1 args words b' : says a b1 -> flagged b1 args words b' -> flagged b (a :: args) words b'
| flagged_dashes b rest : flagged b (lit "--" :: rest) rest b.

Definition result (b : bool) (words : list bytes) : parsed :=
  {| pa_verbose := b; pa_help := false; pa_cover := false; pa_profile := []; pa_args := words |}.
Definition command_name (a : bytes) : Prop := exists c, In (a, c) command_names.

Lemma plain_flag a : plain a -> is_flag a = false.
Proof.
  intros H; unfold is_flag; destruct a as [|c a]; [reflexivity|]; change (lit "-") with [0x2D]; cbn [has_prefix]; destruct (c =? 0x2D) eqn:E; [|reflexivity].
  apply N.eqb_eq in E; subst c; rewrite (H a eq_refl); reflexivity.
Qed.
Lemma flag_plain a : is_flag a = false -> plain a.
Proof. intros H rest ->; destruct rest; [reflexivity|discriminate H]. Qed.
Lemma plain_dashes a : plain a -> beqb a (lit "--") = false.
Proof. intros H; destruct (beqb a (lit "--")) eqn:E; [|reflexivity]; apply beqb_eq in E; subst a; specialize (H _ eq_refl); discriminate. Qed.
Lemma plain_next a : plain a -> takes_next a = false.
Proof.
  intros H; unfold takes_next; destruct a as [|c [|d a]]; [reflexivity| |].
  - destruct (negb (existsb _ _)); [|reflexivity]; cbn; rewrite !andb_false_r; reflexivity.
  - assert (c =? 0x2D = false) as E by (apply N.eqb_neq; intros ->; specialize (H _ eq_refl); discriminate).
    cbn [has_prefix lit]; change (lit "-") with [0x2D]; change (lit "--") with [0x2D; 0x2D]; cbn [has_prefix]; rewrite E; cbn; rewrite !andb_false_r; reflexivity.
Qed.

Lemma says_parse c a b p args : says a b ->
  parse_args c (a :: args) p =
  parse_args c args {| pa_verbose := b; pa_help := pa_help p; pa_cover := pa_cover p; pa_profile := pa_profile p; pa_args := pa_args p |}.
Proof.
  intros H; destruct H as [| |a v Ha Hv|a v Ha Hv]; try reflexivity; unfold trues, falses in Hv; destruct Ha as [->| ->];
    repeat (destruct Hv as [<-|Hv]; [reflexivity|]); destruct Hv.
Qed.
Lemma says_next a b : says a b -> takes_next a = false /\ beqb a (lit "--") = false /\ has_prefix a (lit "-") = true.
Proof.
  intros H; destruct H as [| |a v Ha Hv|a v Ha Hv]; try (repeat split; reflexivity); unfold trues, falses in Hv; destruct Ha as [->| ->];
    repeat (destruct Hv as [<-|Hv]; [repeat split; reflexivity|]); destruct Hv.
Qed.
Lemma flagged_parse c b args words b' : flagged b args words b' -> forall ws,
  parse_args c args (result b ws) = Some (result b' (ws ++ words)).
Proof.
  induction 1 as [b|b a args words b' Ha H IH|b a b1 args words b' Ha H IH|b rest]; intros ws.
  - rewrite app_nil_r; reflexivity.
  - cbn [parse_args]; rewrite (plain_flag a Ha); cbn [negb]; change (add_args [a] (result b ws)) with (result b (ws ++ [a])); rewrite IH.
    rewrite <- app_assoc; reflexivity.
  - rewrite (says_parse c a b1 _ _ Ha); apply IH.
  - reflexivity.
Qed.
Lemma name_looked a : ~ command_name a -> lookup command_names a = None.
Proof.
  intros H; destruct (lookup command_names a) as [c|] eqn:E; [|reflexivity].
  exfalso; apply H; exists c; apply PropBundled.lookup_in; exact E.
Qed.
Lemma flagged_first b args lang words b' : flagged b args (lang :: words) b' -> lang <> [] -> plain lang ->
  lang <> lit "-" -> first_command args = None \/ first_command args = Some lang.
Proof.
  intros H Hl Hp Hd; remember (lang :: words) as ws; revert Heqws.
  induction H as [b|b a args ws b' Ha H IH|b a b1 args ws b' Ha H IH|b rest]; intros E.
  - discriminate.
  - injection E as -> ->; cbn [first_command]; rewrite (plain_dashes _ Ha), (plain_next _ Ha).
    destruct lang as [|c lang]; [contradiction|]; cbn [beqb negb andb].
    destruct (has_prefix (c :: lang) (lit "-")) eqn:Ep; [|right; reflexivity].
    exfalso; change (lit "-") with [0x2D] in Ep; cbn [has_prefix] in Ep; apply andb_prop in Ep; destruct Ep as (Ep & _); apply N.eqb_eq in Ep; subst c.
    rewrite (Hp lang eq_refl) in Hd; apply Hd; reflexivity.
  - destruct (says_next _ _ Ha) as (E1 & E2 & E3); cbn [first_command]; rewrite E1, E2, E3, andb_false_r; apply IH; exact E.
  - left; reflexivity.
Qed.

(** ** C92 *)

(** The language and the words arrive in their order, with the flag for traces read as it was
    spelled last, unless the language has the name of a command. *)
Theorem C92_words : forall args lang words b,
  flagged false args (lang :: words) b -> lang <> [] -> plain lang -> lang <> lit "-" -> ~ command_name lang ->
  command_line args = Runs Root (result b (lang :: words)).
Proof.
  intros args lang words b H Hl Hp Hd Hn; unfold command_line, find_command.
  assert (match first_command args with
          | Some n => match lookup command_names n with Some c => (c, minus_first n args) | None => (Root, args) end
          | None => (Root, args) end = (Root, args)) as ->.
  { destruct (flagged_first _ _ _ _ _ H Hl Hp Hd) as [->| ->]; [reflexivity|]; rewrite (name_looked _ Hn); reflexivity. }
  change unparsed with (result false []); rewrite (flagged_parse Root _ _ _ _ H []); reflexivity.
Qed.
Print Assumptions C92_words.

Lemma flags_then b0 flags b : flagged b0 flags [] b -> ~ In (lit "--") flags -> forall rest,
  first_command (flags ++ rest) = first_command rest /\
  (forall n, minus_first n (flags ++ rest) = flags ++ minus_first n rest) /\
  forall words b', flagged b rest words b' -> flagged b0 (flags ++ rest) words b'.
Proof.
  intros H Hn rest; remember [] as ws eqn:E in H; revert E Hn.
  induction H as [b|b a l ws b1 Ha H IH|b a b1 l ws b2 Ha H IH|b r]; intros E Hn.
  - auto.
  - discriminate.
  - destruct (IH E) as (E1 & Em & Hf); [intros Hi; apply Hn; right; exact Hi|].
    destruct (says_next _ _ Ha) as (E2 & E3 & E4); cbn [first_command minus_first app]; rewrite E2, E3, E4, andb_false_r; cbn [negb andb].
    repeat split; [exact E1|intros n; rewrite Em; reflexivity|]; intros words b' Hw; econstructor; [exact Ha|apply Hf; exact Hw].
  - exfalso; apply Hn; left; reflexivity.
Qed.

(** After two dashes everything is a word, be it the name of a command or of a flag. *)
Theorem C92_dashes : forall flags b rest, flagged false flags [] b -> ~ In (lit "--") flags -> rest <> [] ->
  command_line (flags ++ lit "--" :: rest) = Runs Root (result b rest).
Proof.
  intros flags b rest H Hn Hr; unfold command_line, find_command.
  assert (first_command (flags ++ lit "--" :: rest) = None /\ flagged false (flags ++ lit "--" :: rest) rest b) as (-> & Hf).
  { destruct (flags_then _ _ _ H Hn (lit "--" :: rest)) as (E & _ & Hf); split; [rewrite E; reflexivity|apply Hf; constructor]. }
  change unparsed with (result false []); rewrite (flagged_parse Root _ _ _ _ Hf []); cbn.
  destruct rest; [contradiction|reflexivity].
Qed.
Print Assumptions C92_dashes.

(** The first argument that is no flag for traces names the command, which is given all the
    others in their order, whatever they are named. *)
Definition right_number (c : command) (n : nat) : Prop :=
  match c with Root | Test => n <> O | Dev => n = 1%nat | _ => True end.
Theorem C92_command : forall flags b name c args words b',
  flagged false flags [] b -> ~ In (lit "--") flags -> In (name, c) command_names -> c <> Cobra -> flagged b args words b' ->
  (right_number c (length words) -> command_line (flags ++ name :: args) = Runs c (result b' words)) /\
  (~ right_number c (length words) -> command_line (flags ++ name :: args) = UsageError).
Proof.
  intros flags b name c args words b' H Hn Hc Hk Ha.
  assert (name <> [] /\ has_prefix name (lit "-") = false /\ plain name /\ lookup command_names name = Some c /\ c <> Root) as (Hne & Hp & Hpl & Hlk & Hr).
  { unfold command_names in Hc; repeat (destruct Hc as [Hc|Hc]; [injection Hc as <- <-; repeat split; try discriminate; intros r; discriminate|]); destruct Hc. }
  assert (first_command (flags ++ name :: args) = Some name /\ minus_first name (flags ++ name :: args) = flags ++ args /\ flagged false (flags ++ args) words b') as (Ef & Em & Hf).
  { destruct (flags_then _ _ _ H Hn (name :: args)) as (E & Em & _); destruct (flags_then _ _ _ H Hn args) as (_ & _ & Hf).
    rewrite E, Em; cbn [first_command minus_first]; rewrite (plain_dashes _ Hpl), (plain_next _ Hpl), Hp; cbn [negb andb].
    rewrite (proj2 (beqb_eq name name) eq_refl); destruct name; [contradiction|]; auto. }
  unfold command_line, find_command; rewrite Ef, Hlk, Em.
  change unparsed with (result false []); rewrite (flagged_parse c _ _ _ _ Hf []).
  split; intros Hnum; destruct c; try contradiction; cbn [app pa_help result number_ok pa_args]; cbn in Hnum;
    try (destruct words as [|x [|y words]]; cbn in *; try reflexivity; exfalso; lia);
    try reflexivity; exfalso; apply Hnum; exact I.
Qed.
Print Assumptions C92_command.

(** The help is shown, and nothing is transcribed, when it is asked for among the words. *)
Lemma flagged_on c b args words b' : flagged b args words b' -> ~ In (lit "--") args -> forall ws rest,
  parse_args c (args ++ rest) (result b ws) = parse_args c rest (result b' (ws ++ words)).
Proof.
  induction 1 as [b|b a args words b' Ha H IH|b a b1 args words b' Ha H IH|b r]; intros Hn ws rest; cbn [app].
  - rewrite app_nil_r; reflexivity.
  - cbn [parse_args]; rewrite (plain_flag a Ha); cbn [negb]; change (add_args [a] (result b ws)) with (result b (ws ++ [a])).
    rewrite IH by (intros Hi; apply Hn; right; exact Hi); rewrite <- app_assoc; reflexivity.
  - rewrite (says_parse c a b1 _ _ Ha); apply IH; intros Hi; apply Hn; right; exact Hi.
  - exfalso; apply Hn; left; reflexivity.
Qed.
Lemma flagged_helped c b args words b' : flagged b args words b' -> forall p, pa_verbose p = b -> pa_help p = true ->
  exists p1, parse_args c args p = Some p1 /\ pa_help p1 = true.
Proof.
  induction 1 as [b|b a args words b' Ha H IH|b a b1 args words b' Ha H IH|b r]; intros p Hb Hh.
  - exists p; auto.
  - cbn [parse_args]; rewrite (plain_flag a Ha); cbn [negb]; apply IH; assumption.
  - rewrite (says_parse c a b1 _ _ Ha); apply IH; [reflexivity|exact Hh].
  - exists (add_args r p); split; [reflexivity|exact Hh].
Qed.
Lemma flagged_first_app b l1 lang w1 b1 rest : flagged b l1 (lang :: w1) b1 -> ~ In (lit "--") l1 -> lang <> [] -> plain lang ->
  lang <> lit "-" -> first_command (l1 ++ rest) = Some lang.
Proof.
  intros H Hn Hl Hp Hd; remember (lang :: w1) as ws; revert Heqws Hn.
  induction H as [b|b a args ws b' Ha H IH|b a b2 args ws b' Ha H IH|b r]; intros E Hn; cbn [app].
  - discriminate.
  - injection E as -> ->; cbn [first_command]; rewrite (plain_dashes _ Ha), (plain_next _ Ha).
    destruct lang as [|c lang]; [contradiction|]; cbn [beqb negb andb].
    destruct (has_prefix (c :: lang) (lit "-")) eqn:Ep; [|reflexivity].
    exfalso; change (lit "-") with [0x2D] in Ep; cbn [has_prefix] in Ep; apply andb_prop in Ep; destruct Ep as (Ep & _); apply N.eqb_eq in Ep; subst c.
    rewrite (Hp lang eq_refl) in Hd; apply Hd; reflexivity.
  - destruct (says_next _ _ Ha) as (E1 & E2 & E3); cbn [first_command]; rewrite E1, E2, E3, andb_false_r; apply IH; [exact E|].
    intros Hi; apply Hn; right; exact Hi.
  - exfalso; apply Hn; left; reflexivity.
Qed.
Theorem C92_help : forall l1 lang w1 b1 h l2 w2 b2,
  flagged false l1 (lang :: w1) b1 -> ~ In (lit "--") l1 -> lang <> [] -> plain lang -> lang <> lit "-" -> ~ command_name lang ->
  h = lit "-h" \/ h = lit "--help" -> flagged b1 l2 w2 b2 ->
  command_line (l1 ++ h :: l2) = ShowsHelp Root.
Proof.
  intros l1 lang w1 b1 h l2 w2 b2 H1 Hn Hl Hp Hd Hc Hh H2; unfold command_line, find_command.
  rewrite (flagged_first_app _ _ _ _ _ (h :: l2) H1 Hn Hl Hp Hd), (name_looked _ Hc).
  change unparsed with (result false []); rewrite (flagged_on Root _ _ _ _ H1 Hn []).
  set (p := {| pa_verbose := b1; pa_help := true; pa_cover := false; pa_profile := []; pa_args := lang :: w1 |}).
  assert (parse_args Root (h :: l2) (result b1 ([] ++ lang :: w1)) = parse_args Root l2 p) as -> by (destruct Hh as [->| ->]; reflexivity).
  destruct (flagged_helped Root _ _ _ _ H2 p eq_refl eq_refl) as (p1 & -> & ->); reflexivity.
Qed.
Print Assumptions C92_help.

(** ** Nothing else is dropped *)

(** The arguments that the command [c] takes for its flags *)
Definition truths : list bytes := trues ++ falses.
Inductive spelled (c : command) : bytes -> Prop :=
| spelled_long name f : In (name, f) (flag_names c) -> f <> FProfile -> spelled c (lit "--" ++ name)
| spelled_value name f v : In (name, f) (flag_names c) -> f = FProfile \/ In v truths -> spelled c (lit "--" ++ name ++ lit "=" ++ v)
| spelled_short letters : letters <> [] -> Forall (fun l => l = 0x76 \/ l = 0x68) letters -> spelled c (lit "-" ++ letters)
| spelled_short_value letters v : letters <> [] -> Forall (fun l => l = 0x76 \/ l = 0x68) letters -> In v truths ->
    spelled c (lit "-" ++ letters ++ lit "=" ++ v).
(** What is passed over as a flag of Go's own tests *)
Definition of_tests (a : bytes) : Prop :=
  exists letters rest, a = lit "-" ++ letters ++ lit "test." ++ rest /\ Forall (fun l => l = 0x76 \/ l = 0x68) letters.
Inductive kept (c : command) : list bytes -> list bytes -> Prop :=
| kept_end : kept c [] []
| kept_plain a args words : plain a -> kept c args words -> kept c (a :: args) (a :: words)
| kept_flag a args words : spelled c a \/ of_tests a -> kept c args words -> kept c (a :: args) words
| kept_profile v args words : c = Test -> kept c args words -> kept c (lit "--coverprofile" :: v :: args) words
| kept_dashes rest : kept c (lit "--" :: rest) rest.

Lemma parse_bool_truth v b : parse_bool v = Some b -> In v truths.
Proof.
  unfold parse_bool; intros H.
  destruct (existsb (beqb v) [lit "1"; lit "t"; lit "T"; lit "TRUE"; lit "true"; lit "True"]) eqn:E.
  - apply existsb_exists in E; destruct E as (x & Hx & E); apply beqb_eq in E; subst x; unfold truths; apply in_or_app; left; exact Hx.
  - destruct (existsb (beqb v) [lit "0"; lit "f"; lit "F"; lit "FALSE"; lit "false"; lit "False"]) eqn:E1; [|discriminate].
    apply existsb_exists in E1; destruct E1 as (x & Hx & E1); apply beqb_eq in E1; subst x; unfold truths; apply in_or_app; right; exact Hx.
Qed.
Lemma set_flag_args f v p p1 : set_flag f v p = Some p1 -> pa_args p1 = pa_args p /\ (f = FProfile \/ In v truths).
Proof.
  unfold set_flag; destruct f; try (destruct (parse_bool v) as [b|] eqn:E; [|discriminate]; intros H; injection H as <-; split; [reflexivity|right; eapply parse_bool_truth; exact E]).
  intros H; injection H as <-; auto.
Qed.
Lemma shorthand_letter x f : shorthand x = Some f -> x = 0x76 \/ x = 0x68.
Proof.
  unfold shorthand, shorthands; cbn [List.find fst]; destruct (0x76 =? x) eqn:E; [apply N.eqb_eq in E; auto|].
  destruct (0x68 =? x) eqn:E1; [apply N.eqb_eq in E1; auto|discriminate].
Qed.
Lemma prefix_app s p : has_prefix s p = true -> exists r, s = p ++ r.
Proof.
  revert s; induction p as [|y p IH]; intros [|x s] H; cbn in H; try discriminate; [exists []; reflexivity|exists (x :: s); reflexivity|].
  apply andb_prop in H; destruct H as (H1 & H2); apply N.eqb_eq in H1; subst x; destruct (IH _ H2) as (r & ->); exists r; reflexivity.
Qed.
Lemma parse_short_spelled shorts p p1 : parse_short shorts p = Some p1 -> pa_args p1 = pa_args p /\
  exists letters tail, shorts = letters ++ tail /\ Forall (fun l => l = 0x76 \/ l = 0x68) letters /\
    (tail = [] \/ (exists v, tail = lit "=" ++ v /\ In v truths /\ letters <> []) \/ exists r, tail = lit "test." ++ r).
Proof.
  revert p; induction shorts as [|x rest IH]; intros p H; cbn [parse_short] in H.
  - injection H as <-; split; [reflexivity|]; exists [], []; auto.
  - destruct (has_prefix (x :: rest) (lit "test.")) eqn:Et.
    + injection H as <-; split; [reflexivity|]; exists [], (x :: rest); repeat split; [constructor|]; right; right; apply prefix_app; exact Et.
    + destruct (shorthand x) as [f|] eqn:Ef; [|discriminate]; pose proof (shorthand_letter _ _ Ef) as Hx.
      destruct (((2 <=? length rest)%nat && has_prefix rest (lit "="))%bool) eqn:Ev.
      * apply andb_prop in Ev; destruct Ev as (_ & Ev); destruct (prefix_app _ _ Ev) as (v & ->); cbn [tl app lit] in H.
        destruct (set_flag_args _ _ _ _ H) as (E & Hv); split; [exact E|].
        exists [x], (lit "=" ++ v); repeat split; [constructor; [exact Hx|constructor]|].
        right; left; exists v; repeat split; [|discriminate].
        destruct Hv as [->|Hv]; [|exact Hv]; exfalso; revert Ef; unfold shorthand, shorthands; cbn [List.find fst].
        destruct (0x76 =? x); [discriminate|destruct (0x68 =? x); discriminate].
      * destruct (set_flag f (lit "true") p) as [p2|] eqn:Es; [|discriminate]; destruct (set_flag_args _ _ _ _ Es) as (E & _).
        destruct (IH _ H) as (E1 & letters & tail & -> & Hl & Ht); split; [congruence|].
        exists (x :: letters), tail; repeat split; [constructor; assumption|].
        destruct Ht as [Ht|[(v & Ht & Hv & _)|Ht]]; [left; exact Ht|right; left; exists v; repeat split; try assumption; discriminate|right; right; exact Ht].
Qed.
Lemma split_equals_spec s n v : split_equals s = (n, v) ->
  match v with None => s = n | Some v => s = n ++ lit "=" ++ v end.
Proof.
  revert n v; induction s as [|x s IH]; intros n v H; cbn in H; [injection H as <- <-; reflexivity|].
  destruct (x =? 0x3D) eqn:E.
  - apply N.eqb_eq in E; subst x; injection H as <- <-; reflexivity.
  - destruct (split_equals s) as [n1 v1] eqn:Es; injection H as <- <-; specialize (IH _ _ eq_refl); destruct v1; rewrite IH at 1; reflexivity.
Qed.
Lemma parse_kept c args p p1 : parse_args c args p = Some p1 -> exists words, pa_args p1 = pa_args p ++ words /\ kept c args words.
Proof.
  remember (length args) as n eqn:En; assert (length args <= n)%nat as Hn by lia; clear En.
  revert args p Hn; induction n as [|n IH]; intros [|s args] p Hn H; cbn [length] in Hn; try lia; cbn [parse_args] in H;
    try (injection H as <-; exists []; rewrite app_nil_r; split; [reflexivity|constructor]).
  destruct (is_flag s) eqn:Ef; cbn [negb] in H.
  2:{ destruct (IH args (add_args [s] p) ltac:(lia) H) as (words & E & Hk); exists (s :: words); split.
      - rewrite E; cbn [add_args pa_args]; rewrite <- app_assoc; reflexivity.
      - constructor; [apply flag_plain; exact Ef|exact Hk]. }
  destruct (beqb s (lit "--")) eqn:Ed.
  { apply beqb_eq in Ed; subst s; injection H as <-; exists args; split; [reflexivity|apply kept_dashes]. }
  unfold is_flag in Ef; apply andb_prop in Ef; destruct Ef as (Ef & Hlen); destruct (prefix_app _ _ Ef) as (s1 & Hs1).
  destruct (has_prefix s (lit "--")) eqn:El; cbn [negb] in H.
  - destruct (prefix_app _ _ El) as (name & ->).
    change (skipn 2 (lit "--" ++ name)) with name in H.
    destruct (has_prefix name (lit "-") || has_prefix name (lit "="))%bool; [discriminate|].
    destruct (split_equals name) as [m v] eqn:Es; pose proof (split_equals_spec _ _ _ Es) as Hname.
    destruct (lookup (flag_names c) m) as [f|] eqn:Elk; [|discriminate]; pose proof (PropBundled.lookup_in _ _ _ Elk) as Hin.
    destruct v as [v|].
    + destruct (set_flag f v p) as [p2|] eqn:Ev; [|discriminate]; destruct (set_flag_args _ _ _ _ Ev) as (E & Hv).
      destruct (IH args p2 ltac:(lia) H) as (words & E1 & Hk); exists words; split; [congruence|].
      apply kept_flag; [left|exact Hk]; rewrite Hname; eapply spelled_value; [exact Hin|exact Hv].
    + rewrite Hname in *; destruct (optional f) eqn:Eo.
      * destruct (set_flag f (lit "true") p) as [p2|] eqn:Ev; [|discriminate]; destruct (set_flag_args _ _ _ _ Ev) as (E & Hv).
        destruct (IH args p2 ltac:(lia) H) as (words & E1 & Hk); exists words; split; [congruence|].
        apply kept_flag; [left|exact Hk]; eapply spelled_long; [exact Hin|intros ->; discriminate].
      * destruct args as [|value args]; [discriminate|]; cbn [length] in Hn.
        destruct (set_flag f value p) as [p2|] eqn:Ev; [|discriminate]; destruct (set_flag_args _ _ _ _ Ev) as (E & Hv).
        destruct (IH args p2 ltac:(lia) H) as (words & E1 & Hk); exists words; split; [congruence|].
        destruct f; try discriminate; assert (c = Test /\ m = lit "coverprofile") as (-> & ->).
        { destruct c; cbn [flag_names In] in Hin;
            (destruct Hin as [Hin|[Hin|Hin]]; [discriminate Hin|discriminate Hin|]); try (exfalso; exact Hin).
          destruct Hin as [Hin|[Hin|[]]]; [discriminate Hin|]; injection Hin as <-; auto. }
        apply kept_profile; [reflexivity|exact Hk].
  - destruct (parse_short (tl s) p) as [p2|] eqn:Ep; [|discriminate]; destruct (parse_short_spelled _ _ _ Ep) as (E & letters & tail & Ht & Hl & Hc).
    destruct (IH args p2 ltac:(lia) H) as (words & E1 & Hk); exists words; split; [congruence|].
    apply kept_flag; [|exact Hk]; rewrite Hs1 in *; change (tl (lit "-" ++ s1)) with s1 in Ht; subst s1.
    destruct Hc as [->|[(v & -> & Hv & Hne)|(r & ->)]].
    + left; rewrite app_nil_r in *; apply spelled_short; [|exact Hl]; intros ->; discriminate Hlen.
    + left; apply spelled_short_value; assumption.
    + right; exists letters, r; auto.
Qed.

(** The walk that looks for the name of the command, and the one that takes it away *)
Lemma first_minus args n : first_command args = Some n -> exists pre post, args = pre ++ n :: post /\ minus_first n args = pre ++ post.
Proof.
  remember (length args) as k eqn:Ek; assert (length args <= k)%nat as Hk by lia; clear Ek.
  revert args Hk; induction k as [|k IH]; intros [|s args] Hk H; cbn [length] in Hk; try lia; cbn [first_command] in H; try discriminate.
  cbn [minus_first]; destruct (beqb s (lit "--")) eqn:Ed; [discriminate|].
  destruct (takes_next s) eqn:Et.
  - destruct args as [|v [|w args]]; try discriminate; cbn [length] in Hk.
    destruct (IH (w :: args) ltac:(cbn [length]; lia) H) as (pre & post & E & Em); exists (s :: v :: pre), post; split; [rewrite E; reflexivity|].
    rewrite Em; reflexivity.
  - destruct (negb (has_prefix s (lit "-"))) eqn:Ep.
    + destruct (beqb s []) eqn:En; cbn [negb andb] in H.
      * destruct (IH args ltac:(lia) H) as (pre & post & E & Em); exists (s :: pre), post; split; [rewrite E; reflexivity|].
        apply beqb_eq in En; subst s; cbn [andb].
        destruct (beqb [] n) eqn:E0; [|rewrite Em; reflexivity].
        exfalso; apply beqb_eq in E0; subst n; clear -H; remember (length args) as k eqn:Ek; assert (length args <= k)%nat as Hk by lia; clear Ek.
        revert args Hk H; induction k as [|k IH]; intros [|s args] Hk H; cbn [length] in Hk; try lia; cbn [first_command] in H; try discriminate.
        destruct (beqb s (lit "--")); [discriminate|]; destruct (takes_next s); [destruct args as [|v [|w args]]; try discriminate; cbn [length] in Hk; apply (IH (w :: args)); [cbn [length]; lia|exact H]|].
        destruct (negb (beqb s []) && negb (has_prefix s (lit "-")))%bool eqn:E; [|apply (IH args); [lia|exact H]].
        injection H as ->; discriminate E.
      * injection H as <-; exists [], args; rewrite (proj2 (beqb_eq s s) eq_refl); auto.
    + rewrite andb_false_r in H; destruct (IH args ltac:(lia) H) as (pre & post & E & Em); exists (s :: pre), post; split; [rewrite E; reflexivity|].
      cbn [andb]; rewrite Em; reflexivity.
Qed.

(** Every argument arrives, in its order, but the name of the command, the flags of the command
    as they may be spelled, and what is spelled like a flag of Go's tests. An argument that looks
    like a flag and is none is an error. *)
Theorem C92_kept_partial : forall args c p, command_line args = Runs c p ->
  exists rest, kept c rest (pa_args p) /\
    (c = Root /\ rest = args \/ exists name pre post, In (name, c) command_names /\ args = pre ++ name :: post /\ rest = pre ++ post).
Proof.
  intros args c p H; unfold command_line in H; destruct (find_command args) as [c0 rest] eqn:Ef.
  assert (exists p0, parse_args c0 rest unparsed = Some p0 /\ Runs c0 p0 = Runs c p) as (p0 & Ep & E).
  { destruct c0; try discriminate; (destruct (parse_args _ rest unparsed) as [p0|]; [|discriminate]); exists p0; (split; [reflexivity|]);
      (destruct (pa_help p0); [discriminate|]); (destruct (number_ok _ _); [exact H|discriminate]). }
  injection E as -> ->; destruct (parse_kept _ _ _ _ Ep) as (words & E & Hk); cbn [unparsed pa_args app] in E; rewrite E.
  exists rest; split; [exact Hk|]; unfold find_command in Ef; destruct (first_command args) as [n|] eqn:En; [|injection Ef as <- <-; auto].
  destruct (lookup command_names n) as [c1|] eqn:El; [|injection Ef as <- <-; auto].
  injection Ef as <- <-; right; destruct (first_minus _ _ En) as (pre & post & Ea & Em); exists n, pre, post.
  split; [apply PropBundled.lookup_in; exact El|auto].
Qed.
Print Assumptions C92_kept_partial.
(** Such a word is dropped without a message. *)
Theorem C92_kept_refuted : exists args p, command_line args = Runs Root p /\
  exists word, In word args /\ ~ In word (pa_args p) /\ ~ spelled Root word /\ word <> lit "--".
Proof.
  exists [lit "ita"; lit "-test.drive"; lit "gloria"]; eexists; split; [reflexivity|].
  exists (lit "-test.drive"); repeat split; [right; left; reflexivity| | |discriminate].
  - cbn; intros [H|[H|[]]]; discriminate.
  - intros H; remember (lit "-test.drive") as w; destruct H as [name f Hi Hf|name f v Hi Hv|letters Hl Hf|letters v Hl Hf Hv]; try discriminate.
    + injection Heqw as ->; inversion Hf as [|x l [Hx|Hx] _]; discriminate.
    + destruct letters as [|x letters]; [contradiction|]; injection Heqw as -> _; inversion Hf as [|y l [Hx|Hx] _]; discriminate.
Qed.
Print Assumptions C92_kept_refuted.

(** ** The bundled languages *)

Lemma langs_checked : forallb (fun l => negb (has_prefix l (lit "-")) && negb (beqb l []) &&
  match lookup command_names l with Some _ => false | None => true end) (list_langs bundled_files) = true.
Proof. vm_compute; reflexivity. Qed.
(** No bundled language has the name of a command or looks like a flag: after the words, each of
    them is transcribed, as C46 says, with traces or without as the flags say. *)
Theorem C92_bundled : forall W (H : hangul_lib) c (ts : list (translit W)) lang width w args words b stdin,
  choices_ok c -> In lang (list_langs bundled_files) -> flagged false args (lang :: words) b -> words <> [] ->
  (forall t w x, In t ts -> returns (snd (tl_run t w x))) ->
  exists p run, command_line args = Runs Root p /\ pa_args p = lang :: words /\ pa_verbose p = b /\
    cli_hangulizer H bundled_files c ts (pa_verbose p) lang = Ok (Some run) /\
    exists lines e, always_prints width run (cli_start w words stdin) lines e /\ (forall q, e <> Crash q) /\
      (e = ExitOk -> length lines = length (filter (fun a => negb (beqb a [])) words)).
Proof.
  intros W H c ts lang width w args words b stdin Hc Hl Hf Hw Ht.
  pose proof langs_checked as Hk; rewrite forallb_forall in Hk; specialize (Hk _ Hl).
  apply andb_prop in Hk; destruct Hk as (Hk & Hn); apply andb_prop in Hk; destruct Hk as (Hp & He).
  assert (forall rest, lang <> 0x2D :: rest) as Hd by (intros [|x rest] ->; discriminate Hp).
  destruct (C46_bundled W H c ts b lang width w words stdin Hc Hl Hw Ht) as (run & Er & Hrun).
  exists (result b (lang :: words)), run; repeat split; try assumption.
  apply C92_words; [exact Hf| | | |].
  - intros ->; discriminate He.
  - intros rest E; exfalso; exact (Hd _ E).
  - apply Hd.
  - intros (k & Hi); revert Hn; destruct (lookup command_names lang) eqn:El; [discriminate|intros _].
    unfold command_names in Hi; repeat (destruct Hi as [Hi|Hi]; [injection Hi as <- <-; vm_compute in El; discriminate El|]); destruct Hi.
Qed.
Print Assumptions C92_bundled.

(** ** C49: the flag for traces *)

Lemma transliterate_silent {W} schemes (reg : list (bytes * translit W)) w word : snd (fst (transliterate schemes reg w None word)) = None.
Proof.
  revert w word; induction schemes as [|sc schemes IH]; intros w word; cbn [transliterate]; [reflexivity|].
  destruct (lookup reg sc) as [t|]; [|reflexivity]; destruct (tl_run t w word) as [w1 [x| | | | |]]; try reflexivity; apply IH.
Qed.
Lemma silent {W} H s (reg : list (bytes * translit W)) w word w' tr r : forward H s reg false w word = (w', tr, r) -> tr = None.
Proof.
  unfold forward; pose proof (transliterate_silent (l_translit (s_lang s)) reg w word) as Ht.
  change (trace_word (new_tracer false) SInput word []) with (@None (bytes * list trace)).
  destruct (transliterate _ reg w None word) as [[w1 tr1] r1]; cbn [fst snd] in Ht; subst tr1.
  destruct r1 as [word1| | | | |]; try (intros [= _ <- _]; reflexivity).
  destruct (after_translit H s None word1) as [[tr2 word2]| | | | |] eqn:E; intros [= _ <- _]; try reflexivity.
  revert E; unfold after_translit, normalize, rewrite, transcribe, syllabify, localize, trace_word, trace_commit; cbn [emit].
  destruct (partition s _) as [sws| | | | |]; cbn [bind]; try discriminate.
  destruct (rewrite_loop _ _ _ _ _ _ _) as [[b1 r1]| | | | |]; cbn [bind]; try discriminate.
  destruct (transcribe_loop _ _ _ _ _ _ _) as [[b2 r2]| | | | |]; cbn [bind emit]; try discriminate.
  intros [= <- _]; reflexivity.
Qed.
Lemma given_words args stdin words : given args stdin words -> Forall (fun x => x <> []) words.
Proof.
  destruct args as [|a args]; cbn [given].
  - induction 1; constructor; assumption.
  - intros ->; apply Forall_forall; intros x Hx ->; apply filter_In in Hx; destruct Hx as [_ Hx]; discriminate.
Qed.
(** At every moment of the command for a bundled language: without the flag, nothing is
    printed for any word; with it, what is printed for a word begins with the word as read. *)
Theorem C49_verbose : forall W (H : hangul_lib) c (ts : list (translit W)) verbose lang width run w args stdin words n st,
  choices_ok c -> In lang (list_langs bundled_files) -> cli_hangulizer H bundled_files c ts verbose lang = Ok (Some run) ->
  given args stdin words -> execution width run n (cli_start w args stdin) st ->
  exists before after, words = before ++ after /\
    Forall2 (fun word text => if verbose then exists rest, text = lit "[Input]" ++ [10] ++ lit "  " ++ word ++ rest else text = [])
      before (cl_err st).
Proof.
  intros W H c ts verbose lang width run w args stdin words n st Hc Hl Hrun Hg Hx.
  destruct (C05_loads lang c [] Hl Hc) as (specs' & s & El & _ & Hs); destruct (Hs eq_refl) as (src & _ & Hp).
  unfold cli_hangulizer in Hrun; rewrite El in Hrun; cbn [snd] in Hrun; injection Hrun as <-.
  pose proof (given_words _ _ _ Hg) as Hne.
  destruct (C49_command _ _ _ _ _ _ _ _ _ Hg Hx) as (before & after & w' & -> & Ht & _).
  exists before, after; split; [reflexivity|]; apply Forall_app in Hne; destruct Hne as [Hne _]; clear Hg Hx; revert Ht Hne.
  generalize (cl_out st) (cl_err st); clear st; intros lines texts Ht; induction Ht as [w0|w0 words lines texts w1 word w2 tr line text Ht IH Er Hnone Hsome]; intros Hne; [constructor|].
  apply Forall_app in Hne; destruct Hne as [Hne Hw]; inversion_clear Hw as [|x l Hword _].
  apply Forall2_app; [apply IH; exact Hne|]; constructor; [|constructor].
  unfold run_hangulizer in Er; destruct (forward H s _ verbose w1 word) as [[w3 tr1] r] eqn:Ef.
  destruct r as [out| | | | |]; try discriminate Er; injection Er as -> -> ->.
  destruct verbose; [|apply Hnone; eapply silent; exact Ef].
  destruct (C79_log W H c src s _ _ _ _ _ _ Hp Ef) as (prev & evs & tevs & word1 & word2 & word3 & sws & cols & sws1 & cols1 & sws2 & word4 & -> & _ & _ & _ & _ & _ & _ & _ & _ & _ & _ & Erev).
  specialize (Hsome prev evs eq_refl); rewrite Erev in Hsome; cbn [app changes] in Hsome.
  destruct (beqb [] (t_word (word_event SInput word []))) eqn:E0; [apply beqb_eq in E0; cbn in E0; exfalso; apply Hword; symmetry; exact E0|].
  cbn [map] in Hsome; inversion Hsome as [|step cols0 t ts0 heading cols' pad rest Hsame Hother _ _ _ Hrest]; subst.
  rewrite Hother by discriminate; cbn [to_print pt_step pt_word word_event t_step t_word].
  eexists; rewrite <- !app_assoc; reflexivity.
Qed.
Print Assumptions C49_verbose.

(** A flag between the words, a word that is a command, words after two dashes; a command that
    would be a language; a flag of the tests. *)
Example C92_example :
  command_line [lit "ita"; lit "-v"; lit "ls"; lit "--"; lit "-v"] = Runs Root (result true [lit "ita"; lit "ls"; lit "-v"]) /\
  flagged false [lit "ita"; lit "-v"; lit "ls"; lit "--"; lit "-v"] [lit "ita"; lit "ls"; lit "-v"] true /\
  command_line [lit "--verbose=0"; lit "--"; lit "ls"] = Runs Root (result false [lit "ls"]) /\
  command_line [lit "-v"; lit "test"; lit "a.hsl"; lit "test"] = Runs Test (result true [lit "a.hsl"; lit "test"]) /\
  command_line [lit "dev"; lit "a.hsl"; lit "b.hsl"] = UsageError /\
  command_line [lit "ita"; lit "-x"; lit "gloria"] = UsageError /\
  command_line [lit "ita"; lit "gloria"; lit "-h"; lit "cappuccino"] = ShowsHelp Root.
Proof.
  repeat split; try reflexivity.
  apply flagged_plain; [intros r; discriminate|]; eapply flagged_says; [constructor|].
  apply flagged_plain; [intros r; discriminate|]; constructor.
Qed.
