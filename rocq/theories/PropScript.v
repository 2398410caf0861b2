(** Property C42: normalization of characters by internal/scripts. *)
From Verif Require Import GoBase Utf8 UniTables Unicode Scripts ScriptFacts.
Open Scope N_scope.

(** ** C42 Latin normalization yields plain lower-case letters

    [nfd ch] is the Unicode canonical decomposition, [basic_lower]/[basic_upper] are a-z
    and A-Z, [lower_basic] adds 32 to A-Z. *)

Theorem C42_latin_plain : forall ch base marks,
  nfd ch = Some (base :: marks) -> basic_lower base || basic_upper base = true ->
  script_normalize Latn ch = lower_basic base.
Proof. exact latn_normalize_decomposed. Qed.
Print Assumptions C42_latin_plain.

Theorem C42_latin_basic : forall ch,
  basic_lower ch || basic_upper ch = true -> script_normalize Latn ch = lower_basic ch.
Proof. exact latn_normalize_basic. Qed.
Print Assumptions C42_latin_basic.

(** U+00C9 (E with acute) and U+01D6 (u with diaeresis and macron). *)
Example C42_latin_example :
  nfd 0xC9 = Some [0x45; 0x301] /\ script_normalize Latn 0xC9 = 0x65 /\
  nfd 0x1D6 = Some [0x75; 0x308; 0x304] /\ script_normalize Latn 0x1D6 = 0x75.
Proof. vm_compute; auto. Qed.

(** Idempotence holds for every script and character except eight Latin ones. *)
Theorem C42_idempotent_partial : forall s ch,
  script_is s ch = true ->
  ~ (s = Latn /\ In ch [0x1E2; 0x1E3; 0x1EF; 0x1FC; 0x1FD; 0x1FE; 0x1FF; 0x1E9B]) ->
  script_normalize s (script_normalize s ch) = script_normalize s ch.
Proof.
  intros s ch Hs Hn; apply normalize_idempotent; [exact Hs|].
  intros Hin; apply Hn; destruct s; [split; [reflexivity|exact Hin]|destruct Hin ..].
Qed.
Print Assumptions C42_idempotent_partial.

(** They decompose into a letter outside of ASCII, of which the code takes the first byte
    of the UTF-8 form: U+01FD (ae with acute) becomes U+00E3 (a with tilde), which
    normalizes further to a. *)
Theorem C42_idempotent_refuted : exists ch,
  script_is Latn ch = true /\
  script_normalize Latn (script_normalize Latn ch) <> script_normalize Latn ch.
Proof. exists 0x1FD; vm_compute; split; [reflexivity|discriminate]. Qed.
Print Assumptions C42_idempotent_refuted.

(** Normalization never leaves the script. *)
Theorem C42_stays_in_script : forall s ch,
  script_is s ch = true -> script_is s (script_normalize s ch) = true.
Proof. exact normalize_in_script. Qed.
Print Assumptions C42_stays_in_script.
