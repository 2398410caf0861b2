(** pkg/tracefmt/tracefmt.go. The display width of a text (github.com/mattn/go-runewidth)
    is a parameter. *)
From Coq Require Import String.
From Verif Require Import GoBase Utf8 Hre Rule Procedure.
Open Scope Z_scope.

(** The strings of trace.go:46-95. *)
Definition step_text (s : step_name) : bytes :=
  match s with
  | SInput => lit "Input"
  | STransliterate => lit "Transliterate"
  | SNormalize => lit "Normalize"
  | SRewrite => lit "Rewrite"
  | STranscribe => lit "Transcribe"
  | SSyllabify => lit "Syllabify"
  | SLocalize => lit "Localize"
  end.

(** trace.go:10-15 Trace, with any step: its fields are exported. A rule has both its
    patterns. *)
Record ptrace := { pt_step : bytes; pt_word : bytes; pt_why : bytes; pt_rule : option rule }.
Definition to_print (t : trace) : ptrace :=
  {| pt_step := step_text (t_step t); pt_word := t_word t; pt_why := t_why t; pt_rule := t_rule t |}.

(** rule.go:17-19 String; pkg/hre/pattern.go:54-56, rpattern.go:27-29 *)
Definition rule_string (r : rule) : bytes :=
  lit """" ++ p_expr (rule_from r) ++ lit """ -> """ ++ r_expr (rule_to r) ++ lit """".

(** strings.Repeat *)
Definition go_repeat (s : bytes) (count : Z) : res bytes :=
  if count <? 0 then Panic PRepeat else Ok (concat (repeat s (Z.to_nat count))).

(** tracefmt.go:21-46: the loop; the result is what it writes. *)
Fixpoint fprint_loop (width : bytes -> Z) (step : bytes) (columns : Z) (traces : list ptrace) : res bytes :=
  match traces with
  | [] => Ok []
  | t :: traces' =>
    let head := if beqb step (pt_step t) then [] else lit "[" ++ pt_step t ++ lit "]" ++ [10%N] in
    let w := width (pt_word t) in
    let columns := if columns <? w then Z.quot w 8 * 8 + 8 else columns in
    let! pad := go_repeat (lit " ") (columns - w) in
    let note := match pt_rule t with
                | Some r => lit " | " ++ rule_string r
                | None => match pt_why t with [] => [] | _ => lit " | (" ++ pt_why t ++ lit ")" end
                end in
    let! rest := fprint_loop width (pt_step t) columns traces' in
    Ok (head ++ lit "  " ++ pt_word t ++ pad ++ note ++ [10%N] ++ rest)
  end.

(** tracefmt.go:17-47 FprintTraces *)
Definition fprint_traces (width : bytes -> Z) (traces : list ptrace) : res bytes :=
  fprint_loop width [] 0 traces.
