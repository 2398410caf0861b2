(** procedure.go and trace.go *)
From Coq Require Import String.
From Verif Require Import GoBase Utf8 Unicode Replacer Hre Subword Rule Scripts Spec Jamo.
Open Scope Z_scope.

(** ** trace.go *)

(** The names of the steps (trace.go:46-95). *)
Inductive step_name := SInput | STransliterate | SNormalize | SRewrite | STranscribe
                     | SSyllabify | SLocalize.

(** trace.go:10-15 Trace *)
Record trace := { t_step : step_name; t_word : bytes; t_why : bytes; t_rule : option rule }.

(** trace.go:18-29 tracer: nil, or the previous word and the events delivered so
    far (latest first). The trace function itself is only observed through them. *)
Definition tracer := option (bytes * list trace).
Definition new_tracer (on : bool) : tracer := if on then Some ([], []) else None.

(** trace.go:32-42 trace *)
Definition emit (tr : tracer) (t : trace) : tracer :=
  match tr with
  | None => None
  | Some (prev, evs) => if beqb prev (t_word t) then tr else Some (t_word t, t :: evs)
  end.

(** trace.go:44-57,88-95 *)
Definition trace_word (tr : tracer) (step : step_name) (word why : bytes) : tracer :=
  emit tr {| t_step := step; t_word := word; t_why := why; t_rule := None |}.

(** trace.go:111-117 subwordsTracerRecord; None is a nil pointer. *)
Record strecord := { st_rule : rule; st_subwords : list (option bytes) }.
(** trace.go:98-108 subwordsTracer.records; nil is None. *)
Definition records := list (option strecord).

Fixpoint set_nth {A} (l : list A) (i : nat) (x : A) : option (list A) :=
  match l, i with
  | [], _ => None
  | _ :: l', O => Some (x :: l')
  | y :: l', S i' => match set_nth l' i' x with Some t => Some (y :: t) | None => None end
  end.
Definition set_index {A} (l : list A) (i : Z) (x : A) : res (list A) :=
  if i <? 0 then Panic PIndex
  else match set_nth l (Z.to_nat i) x with Some t => Ok t | None => Panic PIndex end.

(** trace.go:120-135 RecordSubword; [nsub] is len(r.subwords). *)
Definition record_subword (on : bool) (nsub : nat) (recs : records) (i : Z) (word : bytes) (r : rule)
  : res records :=
  if negb on then Ok recs
  else
    let recs1 := if len recs <? rule_id r + 1
                 then recs ++ repeat None (Z.to_nat (rule_id r + 1 - len recs))
                 else recs in
    let! cur := index recs1 (rule_id r) in
    let rec1 := match cur with
                | Some x => x
                | None => {| st_rule := r; st_subwords := repeat None nsub |}
                end in
    let! sws := set_index (st_subwords rec1) i (Some word) in
    set_index recs1 (rule_id r) (Some {| st_rule := st_rule rec1; st_subwords := sws |}).

(** trace.go:149-155: overwrite the subwords a record names. *)
Fixpoint overlay (sws : list subword) (words : list (option bytes)) : list subword :=
  match sws, words with
  | s :: sws', w :: words' =>
    match w with
    | Some b => {| sw_word := b; sw_level := 0 |}
    | None => s
    end :: overlay sws' words'
  | _, _ => sws
  end.
Definition is_some {A} (o : option A) : bool := match o with Some _ => true | None => false end.

(** trace.go:139-165 Commit *)
Fixpoint commit_records (tr : tracer) (step : step_name) (sws : list subword) (recs : records)
  : res tracer :=
  match recs with
  | [] => Ok tr
  | None :: _ => Panic PNil
  | Some r :: recs' =>
    let sws' := overlay sws (st_subwords r) in
    let tr' := if existsb is_some (st_subwords r)
               then emit tr {| t_step := step;
                               t_word := replace_byte 0 (lit ".") (builder_string sws');
                               t_why := []; t_rule := Some (st_rule r) |}
               else tr in
    commit_records tr' step sws' recs'
  end.
Definition trace_commit (tr : tracer) (step : step_name) (sws : list subword) (recs : records)
  : res tracer :=
  match tr with
  | None => Ok None
  | Some _ => commit_records tr step sws recs
  end.

(** ** procedure.go *)

(** translit.go:6-12 Translit, with a state [W] of the outside world that a
    transliterator may use. *)
Record translit (W : Type) := {
  tl_scheme : bytes;
  tl_run : W -> bytes -> W * res bytes
}.
Arguments tl_scheme {W}.
Arguments tl_run {W}.

(** procedure.go:54-71 transliterate. Any error of a transliterator becomes
    ErrTranslit with the scheme in the message. *)
Fixpoint transliterate {W} (schemes : list bytes) (reg : list (bytes * translit W))
         (w : W) (tr : tracer) (word : bytes) : W * tracer * res bytes :=
  match schemes with
  | [] => (w, tr, Ok word)
  | scheme :: schemes' =>
    match lookup reg scheme with
    | None => (w, tr, Err (ErrTranslitNotImported scheme))
    | Some t =>
      let '(w1, r) := tl_run t w word in
      match r with
      | Ok word1 =>
        transliterate schemes' reg w1 (trace_word tr STransliterate word1 (tl_scheme t)) word1
      | Err _ => (w1, tr, Err (ErrTranslit scheme))
      | r => (w1, tr, r)
      end
    end
  end.

(** procedure.go:87-97 *)
Definition norm_rune (s : spec) (l : rune) : rune :=
  if nmem l (s_normLetters s) || negb (script_is (s_script s) l) then l
  else script_normalize (s_script s) l.

(** procedure.go:78-100 normalize *)
Definition normalize (s : spec) (tr : tracer) (word : bytes) : tracer * bytes :=
  let word1 := replacer_replace (s_normReplacer s) word in
  let tr1 := trace_word tr SNormalize word1 [] in
  let word2 := encode (map (norm_rune s) (runes word1)) in
  (trace_word tr1 SNormalize word2 (l_script (s_lang s)), word2).

(** procedure.go:116-121 *)
Definition meaningful (s : spec) (l : rune) : bool :=
  script_is (s_script s) l || nmem l (s_puncts s) || has_space_only (encode_rune l).

(** procedure.go:113-124 *)
Fixpoint partition_repls (s : spec) (gs : list (rune * nat)) (i : Z) : list replacement :=
  match gs with
  | [] => []
  | (l, w) :: gs' =>
    let rest := partition_repls s gs' (i + Z.of_nat w) in
    if meaningful s l
    then {| rp_start := i; rp_stop := i + len (encode_rune l); rp_word := encode_rune l |} :: rest
    else rest
  end.

(** procedure.go:110-127 partition *)
Definition partition (s : spec) (word : bytes) : res (list subword) :=
  let! '(_, sws) :=
    replacer_subwords (replace_by (new_replacer word 0 1) (partition_repls s (glyphs word) 0)) in
  Ok sws.

(** procedure.go:150-156: the rules on one subword. *)
Fixpoint rewrite_rules (on : bool) (nsub : nat) (rules : list rule) (i : Z) (word : bytes)
         (rep : replacer) (recs : records) : res (replacer * records) :=
  match rules with
  | [] => Ok (rep, recs)
  | r :: rules' =>
    let! repls := replacements r word in
    let! '(rep1, word1) := replacer_string (replace_by rep repls) in
    let! recs1 := record_subword on nsub recs i word1 r in
    rewrite_rules on nsub rules' i word1 rep1 recs1
  end.

(** procedure.go:144-159 *)
Fixpoint rewrite_loop (on : bool) (nsub : nat) (rules : list rule) (i : Z) (sws : list subword)
         (buf : list subword) (recs : records) : res (list subword * records) :=
  match sws with
  | [] => Ok (buf, recs)
  | sw :: sws' =>
    let! '(rep, recs1) :=
      rewrite_rules on nsub rules i (sw_word sw)
                    (new_replacer (sw_word sw) (sw_level sw) 1) recs in
    let! '(_, out) := replacer_subwords rep in
    rewrite_loop on nsub rules (i + 1) sws' (buf ++ out) recs1
  end.

(** procedure.go:138-162 rewrite *)
Definition rewrite (s : spec) (tr : tracer) (sws : list subword) : res (tracer * list subword) :=
  let! '(buf, recs) := rewrite_loop (is_some tr) (length sws) (s_rewrite s) 0 sws [] [] in
  let! tr' := trace_commit tr SRewrite sws recs in
  Ok (tr', builder_subwords buf).

(** procedure.go:199-202: strings.Repeat of NUL, as many as bytes are written. *)
Definition mask (x : replacement) : replacement :=
  {| rp_start := rp_start x; rp_stop := rp_stop x;
     rp_word := repeat 0%N (length (rp_word x)) |}.

(** procedure.go:195-206: the rules on one subword. *)
Fixpoint transcribe_rules (on : bool) (nsub : nat) (rules : list rule) (i : Z) (word : bytes)
         (rep dummy : replacer) (recs : records) : res (replacer * records) :=
  match rules with
  | [] => Ok (rep, recs)
  | r :: rules' =>
    let! repls := replacements r word in
    let! '(dummy1, word1) := replacer_string (replace_by dummy (map mask repls)) in
    let! '(rep1, shown) := replacer_string (replace_by rep repls) in
    let! recs1 := record_subword on nsub recs i shown r in
    transcribe_rules on nsub rules' i word1 rep1 dummy1 recs1
  end.

(** procedure.go:179-209 *)
Fixpoint transcribe_loop (on : bool) (nsub : nat) (rules : list rule) (i : Z) (sws : list subword)
         (buf : list subword) (recs : records) : res (list subword * records) :=
  match sws with
  | [] => Ok (buf, recs)
  | sw :: sws' =>
    if sw_level sw =? 0
    then transcribe_loop on nsub rules (i + 1) sws' (buf ++ [sw]) recs
    else
      let! '(rep, recs1) :=
        transcribe_rules on nsub rules i (sw_word sw)
                         (new_replacer (sw_word sw) (sw_level sw) 2)
                         (new_replacer (sw_word sw) 0 0) recs in
      let! '(_, out) := replacer_subwords rep in
      transcribe_loop on nsub rules (i + 1) sws' (buf ++ out) recs1
  end.

(** procedure.go:211-224 *)
Definition discard_level1 (sws : list subword) : list subword :=
  flat_map (fun sw => if sw_level sw =? 1
                      then if has_space (sw_word sw)
                           then [{| sw_word := lit " "; sw_level := 1 |}] else []
                      else [sw]) sws.

(** procedure.go:173-227 transcribe *)
Definition transcribe (s : spec) (tr : tracer) (sws : list subword)
  : res (tracer * list subword) :=
  let! '(buf, recs) := transcribe_loop (is_some tr) (length sws) (s_transcribe s) 0 sws [] [] in
  let! tr' := trace_commit tr STranscribe sws recs in
  Ok (tr', builder_subwords (discard_level1 (builder_subwords buf))).

(** procedure.go:238-250 *)
Fixpoint syllabify_loop (H : hangul_lib) (sws : list subword) (jamoBuf : bytes) : bytes :=
  match sws with
  | [] => compose_hangul H jamoBuf
  | sw :: sws' =>
    if sw_level sw =? 0
    then compose_hangul H jamoBuf ++ sw_word sw ++ syllabify_loop H sws' []
    else syllabify_loop H sws' (jamoBuf ++ sw_word sw)
  end.

(** procedure.go:234-255 syllabify *)
Definition syllabify (H : hangul_lib) (tr : tracer) (sws : list subword) : tracer * bytes :=
  let word := syllabify_loop H sws [] in
  (trace_word tr SSyllabify word [], word).

(** procedure.go:272-280: punctuation or space. *)
Definition ps (ch : rune) : bool := is_punct ch || is_space ch.

(** procedure.go:284-310; [prev] tells whether the preceding character is
    punctuation or space (true at the beginning, line 279), and the end of the
    text counts as a space (line 280). *)
Fixpoint localize_loop (sc : script) (prev : bool) (chars : list rune) : list rune :=
  match chars with
  | [] => []
  | ch :: rest =>
    if N.eqb ch 0x200B then localize_loop sc (ps ch) rest
    else if negb (is_punct ch) then ch :: localize_loop sc (ps ch) rest
    else
      let p0 := localize_punct sc ch in
      let p1 := if prev then trim_left_r is_space p0 else p0 in
      let next := match rest with [] => true | n :: _ => ps n end in
      let p2 := if next then trim_right_r is_space p1 else p1 in
      p2 ++ localize_loop sc (ps ch) rest
  end.
Definition localize_word (sc : script) (word : bytes) : bytes :=
  encode (localize_loop sc true (runes word)).

(** procedure.go:266-315 localize *)
Definition localize (s : spec) (tr : tracer) (word : bytes) : tracer * bytes :=
  let word1 := localize_word (s_script s) word in
  (trace_word tr SLocalize word1 (l_script (s_lang s)), word1).

(** procedure.go:34-45: everything after transliteration. *)
Definition after_translit (H : hangul_lib) (s : spec) (tr : tracer) (word : bytes)
  : res (tracer * bytes) :=
  let '(tr1, word1) := normalize s tr word in
  let! sws0 := partition s word1 in
  let! '(tr2, sws1) := rewrite s tr1 sws0 in
  let! '(tr3, sws2) := transcribe s tr2 sws1 in
  let '(tr4, word2) := syllabify H tr3 sws2 in
  Ok (localize s tr4 word2).

(** The result of one call: the world, the tracer and the outcome. After a panic
    the tracer is the one before the phases that panicked. *)
Definition map_res {A B} (f : A -> B) (r : res A) : res B :=
  match r with
  | Ok a => Ok (f a)
  | Err e => Err e
  | Panic p => Panic p
  | Hang => Hang
  | NoFuel => NoFuel
  | Unmodelled => Unmodelled
  end.

(** procedure.go:26-46 forward; [reg] is the detached registry (hangulize.go:79). *)
Definition forward {W} (H : hangul_lib) (s : spec) (reg : list (bytes * translit W)) (on : bool)
           (w : W) (word : bytes) : W * tracer * res bytes :=
  let tr0 := trace_word (new_tracer on) SInput word [] in
  let '(w1, tr1, r) := transliterate (l_translit (s_lang s)) reg w tr0 word in
  match r with
  | Ok word1 =>
    match after_translit H s tr1 word1 with
    | Ok (tr2, word2) => (w1, tr2, Ok word2)
    | r2 => (w1, tr1, map_res snd r2)
    end
  | r => (w1, tr1, r)
  end.
