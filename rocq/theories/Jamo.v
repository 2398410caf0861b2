(** Package internal/jamo, over the external package github.com/suapapa/go_hangul. *)
From Verif Require Import GoBase Utf8.
Open Scope N_scope.

(** The functions of go_hangul used by jamo.go. *)
Record hangul_lib := {
  hl_is_hangul : rune -> bool;                       (* hangul.IsHangul *)
  hl_is_jaeum : rune -> bool;                        (* hangul.IsJaeum *)
  hl_is_moeum : rune -> bool;                        (* hangul.IsMoeum *)
  hl_join : rune -> rune -> rune -> rune;            (* hangul.Join *)
  hl_split : rune -> rune * rune * rune              (* hangul.Split *)
}.

(** jamo.go:38-42 composer.lmt: the buffered lead, medial and tail (0: none). *)
Definition lmt := (rune * rune * rune)%type.
Definition lmt0 : lmt := (0, 0, 0).

Definition is_lmt0 (b : lmt) : bool := let '(l, m, t) := b in (l =? 0) && (m =? 0) && (t =? 0).

(** jamo.go:69-88 write: what is written to the output; the buffer is cleared. *)
Definition write (H : hangul_lib) (b : lmt) : list rune :=
  if is_lmt0 b then []
  else let '(l, m, t) := b in
       [hl_join H (if l =? 0 then 0x3147 else l) (if m =? 0 then 0x3161 else m) t].

(** jamo.go:158-160 *)
Definition put (b : lmt) (score : nat) (ch : rune) : lmt :=
  let '(l, m, t) := b in
  match score with
  | O => (ch, m, t)
  | S O => (l, ch, t)
  | _ => (l, m, ch)
  end.

(** jamo.go:46-65,91-169 read and Compose. [is_tail] is set while the hyphens
    before a character are skipped. [score] is 0, 1 or 2 (the -1 that line 122
    assigns is overwritten by line 105). The result is the list of characters
    given to WriteRune. *)
Fixpoint compose_loop (H : hangul_lib) (rs : list rune) (is_tail : bool) (score : nat) (b : lmt)
  : list rune :=
  match rs with
  | [] => write H b
  | ch :: rs' =>
    if ch =? 0x2D then compose_loop H rs' true score b
    else if negb (hl_is_hangul H ch) then
      write H b ++ ch :: compose_loop H rs' false score lmt0
    else if negb (hl_is_jaeum H ch) && negb (hl_is_moeum H ch) then
      let b' := hl_split H ch in
      write H b ++ compose_loop H rs' false (if snd b' =? 0 then 1%nat else 2%nat) b'
    else
      let score' := if hl_is_moeum H ch then 1%nat else if is_tail then 2%nat else 0%nat in
      if (score' <=? score)%nat
      then write H b ++ compose_loop H rs' false score' (put lmt0 score' ch)
      else compose_loop H rs' false score' (put b score' ch)
  end.

(** jamo.go:23-28 ComposeHangul *)
Definition compose_runes (H : hangul_lib) (rs : list rune) : list rune :=
  compose_loop H rs false 0 lmt0.
Definition compose_hangul (H : hangul_lib) (word : bytes) : bytes :=
  encode (compose_runes H (runes word)).

(** ** A concrete go_hangul v1.2.1, from its documentation; the theorems only use
    the laws stated in JamoFacts. *)
Definition in_rg (lo hi r : N) : bool := (lo <=? r) && (r <=? hi).
Definition gh_is_jaeum (r : rune) : bool :=
  in_rg 0x3131 0x314E r || in_rg 0x1100 0x1112 r || in_rg 0x11A8 0x11C2 r.
Definition gh_is_moeum (r : rune) : bool := in_rg 0x314F 0x3163 r || in_rg 0x1161 0x1175 r.
Definition gh_is_hangul (r : rune) : bool :=
  in_rg 0xAC00 0xD7A3 r || gh_is_jaeum r || gh_is_moeum r.

(** Compatibility Jamo in the order of the leads and of the tails (first: no tail). *)
Definition compat_leads : list rune :=
  [0x3131; 0x3132; 0x3134; 0x3137; 0x3138; 0x3139; 0x3141; 0x3142; 0x3143; 0x3145; 0x3146;
   0x3147; 0x3148; 0x3149; 0x314A; 0x314B; 0x314C; 0x314D; 0x314E].
Definition compat_tails : list rune :=
  [0; 0x3131; 0x3132; 0x3133; 0x3134; 0x3135; 0x3136; 0x3137; 0x3139; 0x313A; 0x313B; 0x313C;
   0x313D; 0x313E; 0x313F; 0x3140; 0x3141; 0x3142; 0x3144; 0x3145; 0x3146; 0x3147; 0x3148;
   0x314A; 0x314B; 0x314C; 0x314D; 0x314E].

Fixpoint pos_in (x : N) (l : list N) (i : N) : option N :=
  match l with
  | [] => None
  | y :: l' => if x =? y then Some i else pos_in x l' (i + 1)
  end.
Definition lead_idx (r : rune) : option N :=
  if in_rg 0x1100 0x1112 r then Some (r - 0x1100) else pos_in r compat_leads 0.
Definition medial_idx (r : rune) : option N :=
  if in_rg 0x1161 0x1175 r then Some (r - 0x1161)
  else if in_rg 0x314F 0x3163 r then Some (r - 0x314F) else None.
Definition tail_idx (r : rune) : option N :=
  if in_rg 0x11A8 0x11C2 r then Some (r - 0x11A7) else pos_in r compat_tails 0.

Definition gh_join (l m t : rune) : rune :=
  match lead_idx l, medial_idx m, tail_idx t with
  | Some li, Some mi, Some ti => 0xAC00 + (li * 21 + mi) * 28 + ti
  | _, _, _ => 0xFFFD
  end.
Definition gh_split (c : rune) : rune * rune * rune :=
  let i := c - 0xAC00 in
  let t := i mod 28 in
  (0x1100 + i / 588, 0x1161 + (i mod 588) / 28, if t =? 0 then 0 else 0x11A7 + t).

Definition go_hangul : hangul_lib :=
  {| hl_is_hangul := gh_is_hangul; hl_is_jaeum := gh_is_jaeum; hl_is_moeum := gh_is_moeum;
     hl_join := gh_join; hl_split := gh_split |}.
