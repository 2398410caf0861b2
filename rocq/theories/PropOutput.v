(** Properties C01, C02 and C41: what Hangulize returns. *)
From Coq Require Import String.
From Verif Require Import GoBase Utf8 Utf8Facts Unicode Scripts Spec Jamo Procedure LocalizeFacts.
Open Scope N_scope.

(** ** C01 Output is always valid UTF-8

    For every spec record (in particular every parsed one), every implementation of the
    Hangul library, every registry of transliterators with any state, tracing on or off,
    and every byte string. *)
Theorem C01_valid_utf8 :
  forall W (H : hangul_lib) (s : spec) (reg : list (bytes * translit W)) on w word w' tr out,
  forward H s reg on w word = (w', tr, Ok out) ->
  exists chars, Forall (fun c => is_scalar c = true) chars /\ out = encode chars.
Proof. intros; eapply forward_utf8; eassumption. Qed.
Print Assumptions C01_valid_utf8.

(** ** C02 Zero-width spaces never leak *)
Theorem C02_no_zwsp :
  forall W (H : hangul_lib) (s : spec) (reg : list (bytes * translit W)) on w word w' tr out,
  forward H s reg on w word = (w', tr, Ok out) -> ~ In 0x200B (runes out).
Proof. intros; eapply forward_no_zwsp; eassumption. Qed.
Print Assumptions C02_no_zwsp.

Definition empty_spec : spec :=
  {| s_lang := language0; s_config := {| c_authors := []; c_stage := [] |};
     s_macros := []; s_vars := []; s_normalize := []; s_rewrite := []; s_transcribe := [];
     s_test := []; s_source := []; s_script := Latn; s_puncts := []; s_normReplacer := [];
     s_normLetters := [] |}.
(** An ill-formed byte, a zero-width space and a full stop. *)
Example C01_C02_example :
  forward (W := unit) go_hangul empty_spec [] false tt [0xFF; 0xE2; 0x80; 0x8B; 0x2E]
  = (tt, None, Ok [0xEF; 0xBF; 0xBD; 0x2E]).
Proof. vm_compute; reflexivity. Qed.

(** ** C41 Localization only touches punctuation

    Specification (LocalizeFacts.v): [localized sc before ch after] is what becomes of one
    character between its neighbours: nothing for U+200B, the character itself unless it
    is punctuation, otherwise its Korean form from the table [punct_parts] whose spaces are
    left out next to punctuation, spaces and the edges of the text. *)
Theorem C41_localization : forall sc word,
  runes (localize_word sc word) = localized_text sc None (runes word).
Proof. exact localize_word_runes. Qed.
Print Assumptions C41_localization.

(** Spaces at the start, at the end and next to other spaces were already in the text. *)
Theorem C41_no_stray_spaces : forall sc word,
  ~ In 0x200B (runes word) ->
  (forall x rest, runes (localize_word sc word) = x :: rest -> is_space x = true ->
     hd_error (runes word) = Some x) /\
  (forall x pre, runes (localize_word sc word) = pre ++ [x] -> is_space x = true ->
     exists p, runes word = p ++ [x]) /\
  (forall x y, is_space x = true -> is_space y = true ->
     adjacent x y (runes (localize_word sc word)) -> adjacent x y (runes word)).
Proof.
  intros sc word Hz; rewrite localize_word_runes; split; [|split].
  - intros x rest; exact (localized_text_head sc None (runes word) x rest Hz eq_refl).
  - intros x pre; exact (localized_text_last sc None (runes word) x pre Hz).
  - intros x y Hx Hy; exact (localized_text_adjacent sc None (runes word) x y Hz Hx Hy).
Qed.
Print Assumptions C41_no_stray_spaces.

(** Ideographic full stop and corner brackets. *)
Example C41_example :
  localize_word Hrkt (encode [0x41; 0x300C; 0x42; 0x300D; 0x43; 0x3002])
  = lit "A 'B' C."%string.
Proof. vm_compute; reflexivity. Qed.

(** With a zero-width space after it, the last full stop still gets its space. *)
Theorem C41_zwsp_space_refuted : exists sc word,
  (exists p, runes (localize_word sc word) = p ++ [0x20]) /\ ~ In 0x20 (runes word).
Proof.
  exists Hrkt, (encode [0x41; 0x3002; 0x200B]); split.
  - exists [0x41; 0x2E]; vm_compute; reflexivity.
  - vm_compute; intuition discriminate.
Qed.
Print Assumptions C41_zwsp_space_refuted.
