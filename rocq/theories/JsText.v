(** web/src/hangulize/wasm_exec.js:92-93,201-205,400-406: how a string goes from JavaScript
    to Go and back. A string of JavaScript is a list of UTF-16 units, a string of Go a list
    of bytes. The file is part of Go; TextEncoder and TextDecoder are those of the browser,
    as the Encoding Standard describes them. *)
From Verif Require Import GoBase Utf8 Web.
Open Scope N_scope.

(** ** To Go: wasm_exec.js:403 encoder.encode(String(v)) *)
Definition is_high (u : N) : bool := (0xD800 <=? u) && (u <=? 0xDBFF).
Definition is_low (u : N) : bool := (0xDC00 <=? u) && (u <=? 0xDFFF).
(** Web IDL, conversion to a USVString: surrogates without a partner are replaced. *)
Fixpoint usv (s : jstring) : list rune :=
  match s with
  | [] => []
  | u :: s' =>
    if is_high u then
      match s' with
      | v :: s'' => if is_low v then 0x10000 + (u - 0xD800) * 0x400 + (v - 0xDC00) :: usv s'' else 0xFFFD :: usv s'
      | [] => [0xFFFD]
      end
    else if is_low u then 0xFFFD :: usv s'
    else u :: usv s'
  end.
(** TextEncoder.encode *)
Definition text_encode (s : jstring) : bytes := encode (usv s).

(** ** From Go: wasm_exec.js:204 decoder.decode(bytes) *)

(** Encoding Standard, the UTF-8 decoder: code point, bytes needed still, boundaries. *)
Record utf8_state := { ud_cp : N; ud_needed : nat; ud_lower : N; ud_upper : N }.
Definition utf8_start : utf8_state := {| ud_cp := 0; ud_needed := 0; ud_lower := 0x80; ud_upper := 0xBF |}.
(** A byte when none is needed: the code points written, and the next state. *)
Definition utf8_first (b : N) : list rune * utf8_state :=
  if b <=? 0x7F then ([b], utf8_start)
  else if (0xC2 <=? b) && (b <=? 0xDF) then ([], {| ud_cp := N.land b 0x1F; ud_needed := 1; ud_lower := 0x80; ud_upper := 0xBF |})
  else if (0xE0 <=? b) && (b <=? 0xEF) then
    ([], {| ud_cp := N.land b 0xF; ud_needed := 2; ud_lower := (if b =? 0xE0 then 0xA0 else 0x80);
            ud_upper := (if b =? 0xED then 0x9F else 0xBF) |})
  else if (0xF0 <=? b) && (b <=? 0xF4) then
    ([], {| ud_cp := N.land b 0x7; ud_needed := 3; ud_lower := (if b =? 0xF0 then 0x90 else 0x80);
            ud_upper := (if b =? 0xF4 then 0x8F else 0xBF) |})
  else ([0xFFFD], utf8_start).
Fixpoint utf8_decoder (st : utf8_state) (s : bytes) : list rune :=
  match s with
  | [] => match ud_needed st with O => [] | S _ => [0xFFFD] end
  | b :: s' =>
    match ud_needed st with
    | O => let '(out, st') := utf8_first b in out ++ utf8_decoder st' s'
    | S n =>
      if (ud_lower st <=? b) && (b <=? ud_upper st) then
        let cp := N.lor (N.shiftl (ud_cp st) 6) (N.land b 0x3F) in
        match n with
        | O => cp :: utf8_decoder utf8_start s'
        | S _ => utf8_decoder {| ud_cp := cp; ud_needed := n; ud_lower := 0x80; ud_upper := 0xBF |} s'
        end
      else let '(out, st') := utf8_first b in 0xFFFD :: out ++ utf8_decoder st' s'
    end
  end.
(** A code point as UTF-16 units *)
Definition units (r : rune) : jstring :=
  if r <=? 0xFFFF then [r] else [0xD800 + (r - 0x10000) / 0x400; 0xDC00 + (r - 0x10000) mod 0x400].
(** TextDecoder.decode, without the options ignoreBOM and fatal: a byte order mark at the
    beginning is dropped. *)
Definition text_decode (s : bytes) : jstring :=
  match utf8_decoder utf8_start s with
  | [] => []
  | r :: rs => if r =? 0xFEFF then flat_map units rs else flat_map units (r :: rs)
  end.
