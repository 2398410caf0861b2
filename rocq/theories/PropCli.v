(** C46, C47, C49: the command hangulize and the printing of traces. *)
From Coq Require Import String.
From Verif Require Import GoBase Utf8 Utf8Facts Unicode RuleFacts TranslitFacts Hre Rule Spec Jamo Procedure Api
  BString Bundled Tracefmt Cli CliFacts ApiFacts PropBundled PropApi.
Open Scope N_scope.

(** ** C49: printing traces *)

(** What stands after a word. *)
Definition note_of (t : ptrace) : bytes :=
  match pt_rule t, pt_why t with
  | Some r, _ => lit " | """ ++ p_expr (rule_from r) ++ lit """ -> """ ++ r_expr (rule_to r) ++ lit """"
  | None, [] => []
  | None, why => lit " | (" ++ why ++ lit ")"
  end.

(** [printed width step cols traces out]: after a trace of [step] in [cols] columns. A new
    step has a heading. Every word is padded to a multiple of eight columns, which are not
    narrower than the word, never shrink, and grow by need only. *)
Inductive printed (width : bytes -> Z) : bytes -> Z -> list ptrace -> bytes -> Prop :=
| printed_nil step cols : printed width step cols [] []
| printed_cons step cols t ts heading cols' pad rest :
    (pt_step t = step -> heading = []) ->
    (pt_step t <> step -> heading = lit "[" ++ pt_step t ++ lit "]" ++ [10]) ->
    (width (pt_word t) <= cols' /\ cols <= cols' /\ cols' mod 8 = 0 /\
     (cols' = cols \/ cols < width (pt_word t) /\ cols' <= width (pt_word t) + 8))%Z ->
    Forall (fun b => b = 32) pad -> Z.of_nat (length pad) = (cols' - width (pt_word t))%Z ->
    printed width (pt_step t) cols' ts rest ->
    printed width step cols (t :: ts)
      (heading ++ lit "  " ++ pt_word t ++ pad ++ note_of t ++ [10] ++ rest).

Lemma fprint_loop_printed width traces step cols :
  (0 <= cols)%Z -> (cols mod 8 = 0)%Z ->
  exists out, fprint_loop width step cols traces = Ok out /\ printed width step cols traces out.
Proof.
  revert step cols; induction traces as [|t ts IH]; intros step cols H0 H8; [exists []; split; [reflexivity|constructor]|].
  cbn [fprint_loop].
  set (w := width (pt_word t)).
  set (cols' := if (cols <? w)%Z then (Z.quot w 8 * 8 + 8)%Z else cols).
  assert ((w <= cols' /\ cols <= cols' /\ cols' mod 8 = 0 /\ (cols' = cols \/ cols < w /\ cols' <= w + 8))%Z) as Hc.
  { unfold cols'; destruct (Z.ltb_spec cols w) as [Hlt|Hge]; [|repeat split; auto; lia].
    rewrite Z.quot_div_nonneg by lia.
    pose proof (Z.div_mod w 8 ltac:(lia)); pose proof (Z.mod_pos_bound w 8 ltac:(lia)).
    replace (w / 8 * 8 + 8)%Z with ((w / 8 + 1) * 8)%Z by lia; rewrite Z.mod_mul by lia; lia. }
  destruct (IH (pt_step t) cols' ltac:(lia) ltac:(tauto)) as (rest & Er & Hr).
  unfold go_repeat; destruct (Z.ltb_spec (cols' - w) 0) as [Hlt|Hge]; [lia|].
  cbn [bind]; rewrite Er; cbn [bind].
  eexists; split; [reflexivity|].
  assert (forall n, concat (repeat (lit " ") n) = repeat 32 n) as Hrep
    by (induction n as [|n IHn]; [reflexivity|]; cbn [repeat concat]; rewrite IHn; reflexivity).
  rewrite Hrep.
  replace (match pt_rule t with Some r => lit " | " ++ rule_string r
           | None => match pt_why t with [] => [] | _ :: _ => lit " | (" ++ pt_why t ++ lit ")" end end)
    with (note_of t) by (unfold note_of, rule_string; destruct (pt_rule t), (pt_why t); reflexivity).
  apply printed_cons with (cols' := cols'); auto.
  - intros <-; rewrite beqb_refl; reflexivity.
  - intros Hne; destruct (beqb step (pt_step t)) eqn:E; [apply beqb_eq in E; congruence|reflexivity].
  - clear; generalize (Z.to_nat (cols' - w)); induction n; constructor; auto.
  - rewrite repeat_length, Z2Nat.id by lia; reflexivity.
Qed.

(** Whatever the widths are, printing returns, and prints as described. *)
Theorem C49_prints : forall width traces,
  exists out, fprint_traces width traces = Ok out /\ printed width [] 0 traces out.
Proof. intros; apply fprint_loop_printed; reflexivity || lia. Qed.
Print Assumptions C49_prints.

Example C49_example :
  fprint_traces (fun w => Z.of_nat (length (runes w)))
    [{| pt_step := lit "Input"; pt_word := lit "Capp"; pt_why := []; pt_rule := None |};
     {| pt_step := lit "Input"; pt_word := lit "cappuccino"; pt_why := lit "Latn"; pt_rule := None |};
     {| pt_step := lit "Syllabify"; pt_word := lit "x"; pt_why := []; pt_rule := None |}] =
  Ok (lit "[Input]" ++ [10] ++ lit "  Capp    " ++ [10] ++ lit "  cappuccino       | (Latn)" ++ [10] ++
      lit "[Syllabify]" ++ [10] ++ lit "  x               " ++ [10]).
Proof. vm_compute; reflexivity. Qed.

(** ** C46, C47: the words and the lines *)

(** [session run w words lines e]: one word after the other is transcribed and gives a
    line; an error or a panic ends the process. *)
Inductive session {W} (run : W -> bytes -> W * tracer * res returned) : W -> list bytes -> list bytes -> exit -> Prop :=
| session_end w : session run w [] [] ExitOk
| session_line w word words w1 tr line lines e :
    run w word = (w1, tr, Ok (line, None)) -> session run w1 words lines e ->
    session run w (word :: words) (line :: lines) e
| session_error w word words w1 tr out e :
    run w word = (w1, tr, Ok (out, Some e)) -> session run w (word :: words) [] (ExitError e)
| session_panic w word words w1 tr p :
    run w word = (w1, tr, Panic p) -> session run w (word :: words) [] (Crash p).

(** Executions: any number of steps, of any goroutine that can go on. *)
Inductive execution {W} width run : nat -> cli_state W -> cli_state W -> Prop :=
| execution_none st : execution width run 0 st st
| execution_step n st st1 st2 :
    execution width run n st st1 -> cli_step width run st1 st2 -> execution width run (S n) st st2.

Definition stuck {W} width run (st : cli_state W) : Prop := forall st', ~ cli_step width run st st'.

(** Under every schedule the process ends after [bound] steps at most, has printed exactly
    [lines] when it can do no more, ended by [e], and has printed the first of them before. *)
Definition always_prints {W} width run (st : cli_state W) (lines : list bytes) (e : exit) : Prop :=
  (exists bound, forall n st', execution width run n st st' -> (n <= bound)%nat) /\
  (forall n st', execution width run n st st' ->
     (stuck width run st' <-> exists e', cl_consumer st' = CEnd e') /\
     (stuck width run st' -> cl_out st' = lines /\ cl_consumer st' = CEnd e) /\
     exists rest, lines = cl_out st' ++ rest).

Definition inv {W} run (lines : list bytes) (e : exit) (st : cli_state W) : Prop :=
  exists rest, lines = cl_out st ++ rest /\
  match cl_consumer st with
  | CReceive => exists ws, sends (cl_reader st) ws /\ session run (cl_world st) ws rest e
  | CRun word => exists ws, sends (cl_reader st) ws /\ session run (cl_world st) (word :: ws) rest e
  | CEnd e' => e' = e /\ rest = []
  end.
Definition measure {W} (st : cli_state W) : nat :=
  2 * rmeasure (cl_reader st) + match cl_consumer st with CRun _ => 1 | _ => 0 end.

Lemma session_cons {W} (run : W -> bytes -> W * tracer * res returned) w word ws lines e :
  session run w (word :: ws) lines e ->
  (exists w1 tr line rest, run w word = (w1, tr, Ok (line, None)) /\ lines = line :: rest /\ session run w1 ws rest e) \/
  (lines = [] /\ exists w1 tr, (exists out er, run w word = (w1, tr, Ok (out, Some er)) /\ e = ExitError er) \/
                               (exists p, run w word = (w1, tr, Panic p) /\ e = Crash p)).
Proof.
  intros H; inversion H as [|? ? ? w1 tr line rest ? E H'|? ? ? w1 tr out er E|? ? ? w1 tr p E]; subst.
  - left; exists w1, tr, line, rest; auto.
  - right; split; [reflexivity|]; exists w1, tr; left; exists out, er; auto.
  - right; split; [reflexivity|]; exists w1, tr; right; exists p; auto.
Qed.

(** A step keeps the invariant and decreases the measure. *)
Lemma inv_step {W} width run lines e (st st' : cli_state W) :
  inv run lines e st -> cli_step width run st st' -> inv run lines e st' /\ (measure st' < measure st)%nat.
Proof.
  intros (rest & El & Hi) Hs.
  assert (forall word, cl_consumer st = CRun word -> exists st1, cli_word width run st word = Some st1 /\
            inv run lines e st1 /\ (measure st1 < measure st)%nat) as Hrun.
  { intros word Hc; rewrite Hc in Hi; destruct Hi as (ws & Hsend & Hses).
    unfold cli_word; destruct (session_cons _ _ _ _ _ _ Hses)
      as [(w1 & tr & line & rest' & Er & -> & Hses')|(-> & w1 & tr & [(out & er & Er & ->)|(p & Er & ->)])]; rewrite Er.
    - destruct (C49_prints width (map to_print (match tr with Some (_, evs) => rev evs | None => [] end))) as (text & -> & _).
      eexists; split; [reflexivity|]; unfold inv, measure; cbn [cl_out cl_consumer cl_reader cl_world]; rewrite Hc; split; [|lia].
      exists rest'; split; [rewrite <- app_assoc; exact El|]; exists ws; auto.
    - eexists; split; [reflexivity|]; unfold inv, measure; cbn [cl_out cl_consumer cl_reader cl_world]; rewrite Hc; split; [|lia].
      exists []; auto.
    - eexists; split; [reflexivity|]; unfold inv, measure; cbn [cl_out cl_consumer cl_reader cl_world]; rewrite Hc; split; [|lia].
      exists []; auto. }
  destruct Hs as [r r' c w out err Hc Hr|word next w out err|st word st' Hc Hw|st word Hc Hw].
  - split.
    + exists rest; cbn [cl_out cl_consumer cl_reader cl_world] in *; split; [exact El|].
      destruct c as [|word|e']; [| |exact Hi]; destruct Hi as (ws & Hsend & Hses); exists ws;
        (split; [exact (sends_inv_step _ _ _ Hr Hsend)|exact Hses]).
    + apply reader_step_less in Hr; unfold measure; cbn [cl_consumer cl_reader]; lia.
  - cbn [cl_out cl_consumer cl_reader cl_world] in *; destruct Hi as (ws & Hsend & Hses).
    apply sends_inv_send in Hsend; destruct Hsend as [[-> ->]|[Hne (ws' & -> & Hsend)]].
    + split; [|unfold measure; cbn; lia]; inversion Hses; subst rest e; exists [].
      cbn [cl_out cl_consumer]; auto.
    + destruct word as [|b word]; [contradiction|].
      split; [exists rest; split; [exact El|]; exists ws'; auto|unfold measure; cbn; lia].
  - destruct (Hrun word Hc) as (st1 & E1 & H1); rewrite Hw in E1; injection E1 as <-; exact H1.
  - destruct (Hrun word Hc) as (st1 & E1 & H1); rewrite Hw in E1; discriminate.
Qed.
Lemma inv_stuck {W} width run lines e (st : cli_state W) : inv run lines e st ->
  (stuck width run st <-> exists e', cl_consumer st = CEnd e').
Proof.
  intros (rest & El & Hi); split.
  - intros Hst; destruct st as [r c w out err]; cbn [cl_out cl_consumer cl_reader cl_world] in *.
    destruct c as [|word|e']; [exfalso|exfalso|eauto].
    + destruct Hi as (ws & Hsend & _); destruct Hsend as [r r' ws E H|next|word next ws Hw H].
      * eapply Hst, step_reader; [discriminate|exact E].
      * eapply Hst, step_meet.
      * eapply Hst, step_meet.
    + destruct (cli_word width run {| cl_reader := r; cl_consumer := CRun word; cl_world := w; cl_out := out; cl_err := err |} word) eqn:E.
      * eapply Hst, step_run; [reflexivity|exact E].
      * eapply Hst, step_loop; [reflexivity|exact E].
  - intros (e' & Hc) st' Hs; destruct Hs as [r r' c w out err Hne Hr|word next w out err|st word st' Hc' Hw|st word Hc' Hw];
      cbn [cl_consumer] in *; try congruence; eapply Hne; exact Hc.
Qed.
Lemma stream_prints {W} width run (st : cli_state W) lines e :
  inv run lines e st -> always_prints width run st lines e.
Proof.
  intros Hi.
  assert (forall n st', execution width run n st st' -> inv run lines e st' /\ (measure st' + n <= measure st)%nat) as H.
  { induction 1 as [st|n st st1 st2 Hx IH Hs]; [split; [exact Hi|lia]|].
    destruct (IH Hi) as [H1 H2]; destruct (inv_step _ _ _ _ _ _ H1 Hs) as [H3 H4]; split; [exact H3|lia]. }
  split.
  - exists (measure st); intros n st' Hx; apply H in Hx; lia.
  - intros n st' Hx; destruct (H n st' Hx) as [H1 _]; pose proof (inv_stuck width run lines e st' H1) as Hst.
    split; [exact Hst|]; destruct H1 as (rest & El & Hc); split; [|eauto].
    intros Hs; apply Hst in Hs; destruct Hs as (e' & Ee); rewrite Ee in Hc; destruct Hc as [-> ->].
    rewrite app_nil_r in El; auto.
Qed.

Lemma sends_args ws : sends (RArgs ws) (filter (fun w => negb (beqb w [])) ws).
Proof.
  induction ws as [|w ws IH]; [eapply sends_step; [reflexivity|constructor]|].
  eapply sends_step; [reflexivity|]; destruct w as [|b w]; cbn [filter beqb negb]; [exact IH|].
  constructor; [discriminate|exact IH].
Qed.

(** With words on the command line: one line for each word that is not empty, in their
    order, whatever the schedule. An error or a panic of one ends the process. *)
Theorem C46_arguments : forall W width (run : W -> bytes -> W * tracer * res returned) w args stdin lines e,
  args <> [] -> session run w (filter (fun a => negb (beqb a [])) args) lines e ->
  always_prints width run (cli_start w args stdin) lines e.
Proof.
  intros W width run w args stdin lines e Hne Hs; apply stream_prints.
  exists lines; cbn [cl_out cli_start cl_consumer cl_reader cl_world]; split; [reflexivity|].
  exists (filter (fun a => negb (beqb a [])) args); split; [|exact Hs].
  destruct args; [contradiction|]; apply sends_args.
Qed.
Print Assumptions C46_arguments.

(** For a bundled language the process ends without a crash when the transliterators
    return: there is a session for all arguments. *)
Lemma session_total {W} (run : W -> bytes -> W * tracer * res returned) :
  (forall w x, exists w1 tr out err, run w x = (w1, tr, Ok (out, err))) ->
  forall words w, exists lines e, session run w words lines e /\ (forall p, e <> Crash p) /\
    (e = ExitOk -> length lines = length words).
Proof.
  intros Hrun; induction words as [|word words IH]; intros w.
  - exists [], ExitOk; split; [constructor|]; split; [discriminate|reflexivity].
  - destruct (Hrun w word) as (w1 & tr & out & [er|] & E).
    + exists [], (ExitError er); split; [eapply session_error; exact E|]; split; discriminate.
    + destruct (IH w1) as (lines & e & Hs & He & Hl); exists (out :: lines), e.
      split; [eapply session_line; eassumption|]; split; [exact He|]; intros H; cbn; rewrite Hl by exact H; reflexivity.
Qed.
Theorem C46_bundled : forall W (H : hangul_lib) c (ts : list (translit W)) verbose lang width w args stdin,
  choices_ok c -> In lang (list_langs bundled_files) -> args <> [] ->
  (forall t w x, In t ts -> returns (snd (tl_run t w x))) ->
  exists run, cli_hangulizer H bundled_files c ts verbose lang = Ok (Some run) /\
    exists lines e, always_prints width run (cli_start w args stdin) lines e /\ (forall p, e <> Crash p) /\
      (e = ExitOk -> length lines = length (filter (fun a => negb (beqb a [])) args)).
Proof.
  intros W H c ts verbose lang width w args stdin Hc Hl Hne Ht.
  destruct (C05_loads lang c [] Hl Hc) as (specs' & s & El & _ & Hs).
  destruct (Hs eq_refl) as (src & Hsrc & Hp).
  unfold cli_hangulizer; rewrite El; cbn [snd]; eexists; split; [reflexivity|].
  set (reg := fst (install tl_scheme ts [])).
  assert (forall sc t, lookup reg sc = Some t -> In t ts) as Hreg.
  { intros sc t E; unfold reg in E.
    pose proof (install_loop_spec tl_scheme ts [] [] [] (fun _ => eq_refl) (fun t (H : In t []) => match H with end)) as Hi.
    unfold install in E; destruct (install_loop tl_scheme [] ts []) as [r' [|]]; cbn [fst app] in *.
    - destruct Hi as (Hi & _); rewrite Hi in E; destruct (List.find _ ts) as [t'|] eqn:Ef; [|discriminate].
      injection E as ->; apply find_some in Ef; tauto.
    - destruct Hi as (Hi & _); rewrite Hi in E; discriminate. }
  destruct (session_total (run_hangulizer H s reg verbose)) with (words := filter (fun a => negb (beqb a [])) args) (w := w)
    as (lines & e & Hses & He & Hlen).
  { intros w0 x; unfold run_hangulizer; destruct (forward H s reg verbose w0 x) as [[w' tr] r] eqn:Ef.
    destruct (C06_returns W H _ src c s reg verbose w0 x w' tr r Hsrc Hc Hp) as [(out & ->)|(sc & Hr)]; try assumption.
    - intros sc t w1 x1 _ Hlk; apply Ht; eapply Hreg; exact Hlk.
    - exists w', tr, out, None; reflexivity.
    - exists w', tr, []; destruct Hr as [->| ->]; eexists; reflexivity. }
  exists lines, e; split; [apply C46_arguments; assumption|auto].
Qed.
Print Assumptions C46_bundled.

(** ** C47: the standard input *)

(** The words of an input: of each line without the white space around it, up to the first
    blank line, and without the text after the last newline. *)
Inductive typed : bytes -> list bytes -> Prop :=
| typed_end rest : ~ In 10 rest -> typed rest []
| typed_blank line rest : ~ In 10 line -> spaces_text line -> typed (line ++ [10] ++ rest) []
| typed_word line word rest words :
    ~ In 10 line -> word <> [] -> trimmed line word -> typed rest words ->
    typed (line ++ [10] ++ rest) (word :: words).

Lemma typed_sends stdin words : typed stdin words -> sends (RInput stdin) words.
Proof.
  induction 1 as [rest Hn|line rest Hn Hb|line word rest words Hn Hw Ht H IH].
  - eapply sends_step; [cbn [reader_step]; rewrite read_string_none by exact Hn; reflexivity|constructor].
  - eapply sends_step; [cbn [reader_step]; cbn [app]; rewrite read_string_line by exact Hn; reflexivity|].
    rewrite blank_newline by exact Hb; constructor.
  - eapply sends_step; [cbn [reader_step]; cbn [app]; rewrite read_string_line by exact Hn; reflexivity|].
    rewrite (trimmed_newline line word) by assumption; constructor; assumption.
Qed.
Lemma first_line s : ~ In 10 s \/ exists line rest, ~ In 10 line /\ s = line ++ [10] ++ rest.
Proof.
  induction s as [|c s IH]; [left; intros []|].
  destruct (N.eq_dec c 10) as [->|Hc]; [right; exists [], s; split; [intros []|reflexivity]|].
  destruct IH as [Hn|(line & rest & Hn & ->)].
  - left; intros [E|Hi]; auto.
  - right; exists (c :: line), rest; split; [intros [E|Hi]; auto|reflexivity].
Qed.
Lemma typed_total stdin : exists words, typed stdin words.
Proof.
  remember (length stdin) as n eqn:En; revert stdin En.
  induction n as [n IH] using (well_founded_induction lt_wf); intros stdin En.
  destruct (first_line stdin) as [Hn|(line & rest & Hn & ->)]; [exists []; constructor; exact Hn|].
  destruct (trimmed_exists line) as [Hb|(word & Hw & Ht)]; [exists []; constructor; assumption|].
  destruct (IH (length rest)) with (stdin := rest) as (words & Hr); [subst; rewrite !app_length; cbn; lia|reflexivity|].
  exists (word :: words); constructor; assumption.
Qed.

(** Any input has such words, and the process prints a line for each of them, whatever the
    schedule. *)
Theorem C47_input : forall W width (run : W -> bytes -> W * tracer * res returned) w stdin,
  (exists words, typed stdin words) /\
  forall words lines e, typed stdin words -> session run w words lines e ->
    always_prints width run (cli_start w [] stdin) lines e.
Proof.
  intros W width run w stdin; split; [apply typed_total|]; intros words lines e Ht Hs; apply stream_prints.
  exists lines; cbn [cl_out cli_start cl_consumer cl_reader cl_world]; split; [reflexivity|].
  exists words; split; [apply typed_sends; exact Ht|exact Hs].
Qed.
Print Assumptions C47_input.

(** The property itself: one result for each line. It holds when every line is ended by a
    newline and none is blank. *)
Definition line_of (text word : bytes) : Prop := ~ In 10 text /\ trimmed text word.
Theorem C47_lines_partial : forall W width (run : W -> bytes -> W * tracer * res returned) w texts words lines e,
  Forall2 line_of texts words -> Forall (fun word => word <> []) words -> session run w words lines e ->
  always_prints width run (cli_start w [] (concat (map (fun t => t ++ [10]) texts))) lines e.
Proof.
  intros W width run w texts words lines e Hl Hn Hs; eapply (proj2 (C47_input W width run w _)); [|exact Hs].
  clear Hs; induction Hl as [|t word texts words [Ht Htr] Hl IH]; [constructor; intros []|].
  inversion Hn as [|? ? H1 H2]; subst; cbn [map concat]; rewrite <- app_assoc; constructor; auto.
Qed.
Print Assumptions C47_lines_partial.

Lemma trimmed_ascii b : b < 128 -> is_space b = false -> trimmed [b] [b].
Proof.
  intros Hb Hs; exists [], []; repeat split; try apply spaces_nil.
  - intros r t Hr E.
    assert (fst (decode_rune [b]) = r) as Hd by (rewrite E, decode_encode by (apply space_scalar; exact Hr); reflexivity).
    cbn [decode_rune] in Hd; apply N.ltb_lt in Hb; rewrite Hb in Hd; cbn in Hd; congruence.
  - intros r t Hr E; destruct t as [|x t].
    + assert (fst (decode_rune [b]) = r) as Hd.
      { rewrite E; cbn [app]; rewrite <- (app_nil_r (encode_rune r)), decode_encode by (apply space_scalar; exact Hr); reflexivity. }
      cbn [decode_rune] in Hd; apply N.ltb_lt in Hb; rewrite Hb in Hd; cbn in Hd; congruence.
    + injection E as _ E; symmetry in E; apply app_eq_nil in E; destruct E as [_ E]; exact (encode_rune_nonnil _ E).
Qed.
(** A blank line ends the process before the next line, and a last line without a newline
    is lost. *)
Definition echo (w : unit) (x : bytes) : unit * tracer * res returned := (w, None, Ok (x, None)).
Theorem C47_lines_refuted : forall width,
  (exists before after, before = lit "a" /\ after = lit "b" /\
    always_prints width echo (cli_start tt [] (before ++ [10] ++ [10] ++ after ++ [10])) [before] ExitOk) /\
  (exists first last, first = lit "a" /\ last = lit "b" /\
    always_prints width echo (cli_start tt [] (first ++ [10] ++ last)) [first] ExitOk).
Proof.
  pose proof trimmed_ascii as Htr.
  assert (~ In 10 (lit "a")) as Ha by (vm_compute; intros [H|[]]; discriminate).
  assert (~ In 10 (lit "b")) as Hb by (vm_compute; intros [H|[]]; discriminate).
  assert (forall rest, typed rest [] -> typed (lit "a" ++ [10] ++ rest) [lit "a"]) as Ht.
  { intros rest H; constructor; [exact Ha|discriminate|apply Htr; reflexivity|exact H]. }
  assert (session echo tt [lit "a"] [lit "a"] ExitOk) as Hs by (econstructor; [reflexivity|constructor]).
  intros width; split; exists (lit "a"), (lit "b"); repeat (split; [reflexivity|]);
    (eapply (proj2 (C47_input unit width echo tt _)); [|exact Hs]); apply Ht.
  - apply (typed_blank []); [intros []|apply spaces_nil].
  - constructor; exact Hb.
Qed.
Print Assumptions C47_lines_refuted.

(** A session of three arguments, one of them empty, and one of input lines. *)
Example C46_example :
  always_prints (fun w => 0%Z) echo (cli_start tt [lit "a"; []; lit "b"] []) [lit "a"; lit "b"] ExitOk.
Proof. apply C46_arguments; [discriminate|]; repeat (econstructor; [reflexivity|]); constructor. Qed.

(** ** C49: what the command prints of its traces *)

(** The words read, from the arguments or from the input *)
Definition given (args : list bytes) (stdin : bytes) (words : list bytes) : Prop :=
  match args with [] => typed stdin words | _ => words = filter (fun a => negb (beqb a [])) args end.

(** [told width run w words lines texts w']: the words are transcribed one after the other
    without an error; for each there is a line, and a text that shows the traces of the call
    for this word, from the first to the last. *)
Inductive told {W} (width : bytes -> Z) (run : W -> bytes -> W * tracer * res returned) : W -> list bytes -> list bytes -> list bytes -> W -> Prop :=
| told_none w : told width run w [] [] [] w
| told_word w words lines texts w1 word w2 tr line text :
    told width run w words lines texts w1 -> run w1 word = (w2, tr, Ok (line, None)) ->
    (tr = None -> text = []) ->
    (forall prev evs, tr = Some (prev, evs) -> printed width [] 0 (map to_print (rev evs)) text) ->
    told width run w (words ++ [word]) (lines ++ [line]) (texts ++ [text]) w2.

(** At every moment of every execution, the words told are the first of those given. *)
Theorem C49_command : forall W width (run : W -> bytes -> W * tracer * res returned) w args stdin words n st,
  given args stdin words -> execution width run n (cli_start w args stdin) st ->
  exists before after w', words = before ++ after /\ told width run w before (cl_out st) (cl_err st) w' /\
    (cl_consumer st = CEnd ExitOk -> after = []).
Proof.
  intros W width run w args stdin words n st Hg Hx.
  assert (sends (read_words args stdin) words) as Hs.
  { destruct args as [|a args]; cbn [given] in Hg; [apply typed_sends; exact Hg|subst words; apply sends_args]. }
  enough (exists before after, words = before ++ after /\ exists w', told width run w before (cl_out st) (cl_err st) w' /\
    match cl_consumer st with
    | CReceive => sends (cl_reader st) after /\ cl_world st = w'
    | CRun word => (exists ws, after = word :: ws /\ sends (cl_reader st) ws) /\ cl_world st = w'
    | CEnd e => e = ExitOk -> after = []
    end) as (before & after & E & w' & Ht & Hend).
  { exists before, after, w'; split; [exact E|]; split; [exact Ht|]; intros Hc; rewrite Hc in Hend; auto. }
  remember (cli_start w args stdin) as st0 eqn:E0; induction Hx as [st|n st st1 st2 Hx IH Hstep]; subst.
  - exists [], words; split; [reflexivity|]; exists w; split; [constructor|]; cbn; auto.
  - destruct (IH eq_refl) as (before & after & -> & w' & Ht & Hc); clear IH.
    destruct Hstep as [r r' c v out err Hne Hr|word next v out err|st word st' Hrun Hw|st word Hrun Hw];
      cbn [cl_out cl_err cl_consumer cl_reader cl_world] in *.
    + exists before, after; split; [reflexivity|]; exists w'; split; [exact Ht|].
      destruct c as [|word|e]; [| |exact Hc]; destruct Hc as [Hc Hv].
      * split; [exact (sends_inv_step _ _ _ Hr Hc)|exact Hv].
      * destruct Hc as (ws & -> & Hc); split; [exists ws; split; [reflexivity|exact (sends_inv_step _ _ _ Hr Hc)]|exact Hv].
    + destruct Hc as [Hc Hv]; exists before, after; split; [reflexivity|]; exists w'; split; [exact Ht|].
      apply sends_inv_send in Hc; destruct Hc as [[-> ->]|[Hne (ws & -> & Hc)]]; [reflexivity|].
      destruct word as [|b word]; [contradiction|]; split; [exists ws; auto|exact Hv].
    + rewrite Hrun in Hc; destruct Hc as [(ws & -> & Hc) Hv]; revert Hw; unfold cli_word.
      destruct (run (cl_world st) word) as [[w2 tr] r] eqn:Er.
      assert (forall e, e <> ExitOk -> Some {| cl_reader := cl_reader st; cl_consumer := CEnd e; cl_world := w2; cl_out := cl_out st; cl_err := cl_err st |} = Some st' ->
        exists before0 after, before ++ word :: ws = before0 ++ after /\ exists w', told width run w before0 (cl_out st') (cl_err st') w' /\
          match cl_consumer st' with CReceive => sends (cl_reader st') after /\ cl_world st' = w'
          | CRun word => (exists ws, after = word :: ws /\ sends (cl_reader st') ws) /\ cl_world st' = w' | CEnd e => e = ExitOk -> after = [] end) as Hends.
      { intros e He [= <-]; exists before, (word :: ws); split; [reflexivity|]; exists w'; split; [exact Ht|intros E; contradiction]. }
      destruct r as [[line [er|]]| | | | |]; try discriminate; try (apply Hends; discriminate).
      destruct (C49_prints width (map to_print (match tr with Some (_, evs) => rev evs | None => [] end))) as (text & -> & Hp).
      intros [= <-]; cbn [cl_out cl_err cl_consumer cl_reader cl_world]; exists (before ++ [word]), ws; rewrite <- app_assoc; split; [reflexivity|].
      exists w2; split; [|auto]; rewrite Hv in Er; eapply told_word; [exact Ht|exact Er| |].
      * intros ->; inversion Hp; reflexivity.
      * intros prev evs ->; exact Hp.
    + rewrite Hrun in Hc; exists before, after; split; [reflexivity|]; exists w'; split; [exact Ht|]; rewrite Hrun; exact Hc.
Qed.
Print Assumptions C49_command.

(** Two words, each with two traces of the same step *)
Definition spoken (w : nat) (x : bytes) : nat * tracer * res returned :=
  (S w, Some (x, [{| t_step := SInput; t_word := x ++ x; t_why := lit "twice"; t_rule := None |};
                  {| t_step := SInput; t_word := x; t_why := []; t_rule := None |}]), Ok (x ++ x, None)).
Example C49_command_example : exists n st,
  given [lit "a"; []; lit "bc"] [] [lit "a"; lit "bc"] /\
  execution (fun w => Z.of_nat (length w)) spoken n (cli_start 0%nat [lit "a"; []; lit "bc"] []) st /\
  cl_consumer st = CEnd ExitOk /\ cl_out st = [lit "aa"; lit "bcbc"] /\
  cl_err st = [lit "[Input]" ++ [10] ++ lit "  a       " ++ [10] ++ lit "  aa       | (twice)" ++ [10];
               lit "[Input]" ++ [10] ++ lit "  bc      " ++ [10] ++ lit "  bcbc     | (twice)" ++ [10]].
Proof.
  assert (forall n st st1 st2, cli_step (fun w => Z.of_nat (length w)) spoken st st1 ->
    execution (fun w => Z.of_nat (length w)) spoken n st1 st2 -> execution (fun w => Z.of_nat (length w)) spoken (S n) st st2) as Hcons.
  { intros n st st1 st2 Hs Hx; induction Hx as [x|n x x1 x2 Hx IH Hs2]; [eapply execution_step; [constructor|exact Hs]|].
    eapply execution_step; [apply IH; exact Hs|exact Hs2]. }
  do 2 eexists; split; [reflexivity|]; split; [|shelve]; cbn [cli_start read_words].
  eapply Hcons; [eapply step_reader; [discriminate|reflexivity]|].
  eapply Hcons; [eapply step_meet|].
  eapply Hcons; [eapply step_run; [reflexivity|vm_compute; reflexivity]|].
  eapply Hcons; [eapply step_reader; [discriminate|reflexivity]|].
  eapply Hcons; [eapply step_reader; [discriminate|reflexivity]|].
  eapply Hcons; [eapply step_meet|].
  eapply Hcons; [eapply step_run; [reflexivity|vm_compute; reflexivity]|].
  eapply Hcons; [eapply step_reader; [discriminate|reflexivity]|].
  eapply Hcons; [eapply step_meet|].
  apply execution_none.
  Unshelve. vm_compute; auto.
Qed.
