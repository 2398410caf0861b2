(** UTF-8 as implemented by Go: unicode/utf8.DecodeRuneInString, the [range] loop
    over a string, [[]rune(s)], utf8.AppendRune and bytes.Buffer.WriteRune.
    Used for example in procedure.go:89,93,113,269,291, spec.go:181,
    internal/subword/replace.go:113,119, internal/jamo/jamo.go:50,84,
    pkg/hsl/lexer.go:33,61, pkg/hre/util.go:132. *)
From Verif Require Import GoBase.
Open Scope N_scope.

(** utf8.RuneError *)
Definition rune_error : rune := 0xFFFD.

Definition is_cont (b : N) : bool := (0x80 <=? b) && (b <=? 0xBF).

(** unicode/utf8.DecodeRuneInString: (rune, width). *)
Definition decode_rune (s : bytes) : rune * nat :=
  match s with
  | [] => (rune_error, O)
  | b0 :: s1 =>
    if b0 <? 0x80 then (b0, 1%nat)
    else if (b0 <? 0xC2) || (0xF4 <? b0) then (rune_error, 1%nat)
    else match s1 with
    | [] => (rune_error, 1%nat)
    | b1 :: s2 =>
      if b0 <? 0xE0 then
        if is_cont b1 then ((b0 - 0xC0) * 64 + (b1 - 0x80), 2%nat)
        else (rune_error, 1%nat)
      else if b0 <? 0xF0 then
        if is_cont b1 && (if b0 =? 0xE0 then 0xA0 <=? b1 else true)
                      && (if b0 =? 0xED then b1 <=? 0x9F else true)
        then match s2 with
        | [] => (rune_error, 1%nat)
        | b2 :: _ =>
          if is_cont b2
          then ((b0 - 0xE0) * 4096 + (b1 - 0x80) * 64 + (b2 - 0x80), 3%nat)
          else (rune_error, 1%nat)
        end
        else (rune_error, 1%nat)
      else
        if is_cont b1 && (if b0 =? 0xF0 then 0x90 <=? b1 else true)
                      && (if b0 =? 0xF4 then b1 <=? 0x8F else true)
        then match s2 with
        | b2 :: b3 :: _ =>
          if is_cont b2 && is_cont b3
          then ((b0 - 0xF0) * 262144 + (b1 - 0x80) * 4096
                + (b2 - 0x80) * 64 + (b3 - 0x80), 4%nat)
          else (rune_error, 1%nat)
        | _ => (rune_error, 1%nat)
        end
        else (rune_error, 1%nat)
    end
  end.

(** The Unicode scalar values. *)
Definition is_scalar (r : rune) : bool :=
  (r <? 0xD800) || ((0xDFFF <? r) && (r <=? 0x10FFFF)).

(** utf8.AppendRune / bytes.Buffer.WriteRune / string(rune). *)
Definition encode_rune (r : rune) : bytes :=
  if r <=? 0x7F then [r]
  else if r <=? 0x7FF then [0xC0 + r / 64; 0x80 + r mod 64]
  else if negb (is_scalar r) then [0xEF; 0xBF; 0xBD]
  else if r <=? 0xFFFF then [0xE0 + r / 4096; 0x80 + (r / 64) mod 64; 0x80 + r mod 64]
  else [0xF0 + r / 262144; 0x80 + (r / 4096) mod 64;
        0x80 + (r / 64) mod 64; 0x80 + r mod 64].

(** The successive (rune, width) pairs seen by [for i, ch := range s].
    [skip] counts the bytes of the current character still to be skipped. *)
Fixpoint glyphs_from (skip : nat) (s : bytes) : list (rune * nat) :=
  match s with
  | [] => []
  | _ :: s' =>
    match skip with
    | S k => glyphs_from k s'
    | O => let g := decode_rune s in g :: glyphs_from (snd g - 1) s'
    end
  end.
Definition glyphs (s : bytes) : list (rune * nat) := glyphs_from 0 s.

(** [[]rune(s)] *)
Definition runes (s : bytes) : list rune := map fst (glyphs s).

(** Writing runes one by one with WriteRune. *)
Definition encode (rs : list rune) : bytes := flat_map encode_rune rs.

(** Rune literal helper for examples: the runes of a Coq string. *)
Definition rlit s : list rune := runes (lit s).

(** unicode/utf8.ValidString, as "re-encoding changes nothing". *)
Definition valid_utf8 (s : bytes) : bool := beqb (encode (runes s)) s.
