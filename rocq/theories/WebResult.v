(** web/src/components/Result.tsx: the size of the letters of the result. *)
From Verif Require Import GoBase.

(** Result.tsx:14-16: the refs lo and hi and the state mid, numbers of sizes *)
Record sizing := { sz_lo : nat; sz_hi : nat; sz_mid : nat }.
(** Result.tsx:19-22 reset, for [n] sizes (13: there are five) *)
Definition sz_reset (n : nat) (st : sizing) : sizing := {| sz_lo := 0; sz_hi := n - 1; sz_mid := sz_mid st |}.
(** Result.tsx:26-51 update, when there is an element. [fits i]: the height of the paragraph
    in size [i] is not above the maximum (31-33). *)
Definition sz_update (fits : nat -> bool) (st : sizing) : sizing :=
  let '{| sz_lo := lo; sz_hi := hi; sz_mid := mid |} := st in
  if negb (fits mid) then {| sz_lo := lo; sz_hi := mid; sz_mid := (mid - lo) / 2 + lo |}       (* 33-37 *)
  else if Nat.leb (hi - lo) 1 then st                                                           (* 40-42 *)
  else if Nat.eqb mid hi then st
  else {| sz_lo := mid; sz_hi := hi; sz_mid := (hi - mid + 1) / 2 + mid |}.                     (* 45-48 *)
(** React: setMid with another value renders again, after which the layout effect (54-55) runs
    again. [sized fits st k st']: from [st] on, [k] times update and then no rendering. *)
Inductive sized (fits : nat -> bool) : sizing -> nat -> sizing -> Prop :=
| sized_stop st : sz_mid (sz_update fits st) = sz_mid st -> sized fits st 1 (sz_update fits st)
| sized_again st k st' : sz_mid (sz_update fits st) <> sz_mid st -> sized fits (sz_update fits st) k st' -> sized fits st (S k) st'.
