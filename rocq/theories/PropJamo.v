(** Properties C29, C30 and C31: composing Hangul (internal/jamo).
    [hangul_laws] (JamoFacts.v) lists what is assumed of the external package go_hangul. *)
From Verif Require Import GoBase Utf8 Utf8Facts Jamo JamoFacts.
Open Scope N_scope.

(** The laws are those of an actual implementation. *)
Theorem go_hangul_satisfies_laws : hangul_laws go_hangul.
Proof. exact go_hangul_laws. Qed.
Print Assumptions go_hangul_satisfies_laws.

(** ** C29 Composing decomposed Hangul restores it *)
Theorem C29_compose_decompose : forall H, hangul_laws H -> forall text,
  Forall (fun r => is_syllable r = true) text ->
  compose_hangul H (encode (flat_map decompose text)) = encode text.
Proof.
  intros H laws text Ht; unfold compose_hangul; rewrite runes_encode.
  - rewrite compose_decompose by assumption; reflexivity.
  - exact (decompose_scalars text Ht).
Qed.
Print Assumptions C29_compose_decompose.

(** "han-geul" *)
Example C29_example :
  flat_map decompose [0xD55C; 0xAE00]
  = [0x314E; 0x314F; 0x2D; 0x3134; 0x3131; 0x3161; 0x2D; 0x3139] /\
  compose_hangul go_hangul (encode (flat_map decompose [0xD55C; 0xAE00])) = encode [0xD55C; 0xAE00].
Proof. vm_compute; auto. Qed.

(** ** C30 Composition output is well-formed *)

(** No hyphen; Hangul only as whole syllables (no lone Jamo). *)
Theorem C30_no_hyphen_no_jamo : forall H, hangul_laws H -> forall word r,
  In r (runes (compose_hangul H word)) ->
  r <> 0x2D /\ (hl_is_hangul H r = true -> is_syllable r = true).
Proof. exact compose_hangul_composed. Qed.
Print Assumptions C30_no_hyphen_no_jamo.

(** A fixed point of composition. *)
Theorem C30_idempotent : forall H, hangul_laws H -> forall word,
  compose_hangul H (compose_hangul H word) = compose_hangul H word.
Proof. exact compose_hangul_idempotent. Qed.
Print Assumptions C30_idempotent.

(** All other characters are kept in order, when every Jamo stands where Join can use it
    (as a tail after a hyphen, as a lead otherwise; all vowels). *)
Theorem C30_keeps_others : forall H, hangul_laws H -> forall word,
  well_placed H false (runes word) ->
  filter (fun r => negb (hl_is_hangul H r) && negb (r =? 0x2D)) (runes (compose_hangul H word))
  = filter (fun r => negb (hl_is_hangul H r) && negb (r =? 0x2D)) (runes word).
Proof. exact compose_hangul_keeps. Qed.
Print Assumptions C30_keeps_others.

(** "a", giyeok, a, "-", nieun, "-", "!", an empty-lead vowel, "z". *)
Example C30_example :
  let w := encode [0x61; 0x3131; 0x314F; 0x2D; 0x3134; 0x2D; 0x21; 0x314F; 0x7A] in
  well_placed go_hangul false (runes w) /\
  compose_hangul go_hangul w = encode [0x61; 0xAC04; 0x21; 0xC544; 0x7A].
Proof.
  split; [|vm_compute; reflexivity].
  change (runes _) with [0x61; 0x3131; 0x314F; 0x2D; 0x3134; 0x2D; 0x21; 0x314F; 0x7A].
  cbn -[compat_leads compat_tails hl_is_hangul is_syllable medial].
  repeat split; intros E1 E2;
    try (vm_compute in E1; discriminate);
    try (left; exists 0; split; [lia|reflexivity]); right; vm_compute; tauto.
Qed.

(** A cluster that cannot begin a syllable: go_hangul has no character for it, and a
    replacement character appears among the others. *)
Theorem C30_misplaced_jamo_refuted : exists word,
  filter (fun r => negb (hl_is_hangul go_hangul r) && negb (r =? 0x2D))
         (runes (compose_hangul go_hangul word))
  <> filter (fun r => negb (hl_is_hangul go_hangul r) && negb (r =? 0x2D)) (runes word).
Proof. exists (encode [0x3133; 0x314F]); vm_compute; discriminate. Qed.
Print Assumptions C30_misplaced_jamo_refuted.

(** ** C31 Composition is local *)
Theorem C31_local : forall H (a b : list rune) (c : rune),
  hl_is_hangul H c = false -> c <> 0x2D ->
  scalars a -> is_scalar c = true -> scalars b ->
  compose_hangul H (encode (a ++ c :: b))
  = compose_hangul H (encode a) ++ encode [c] ++ compose_hangul H (encode b).
Proof. exact compose_hangul_split. Qed.
Print Assumptions C31_local.

Example C31_example :
  hl_is_hangul go_hangul 0x20 = false /\
  compose_hangul go_hangul (encode [0x3131; 0x314F; 0x20; 0x314F])
  = encode [0xAC00; 0x20; 0xC544].
Proof. vm_compute; auto. Qed.
