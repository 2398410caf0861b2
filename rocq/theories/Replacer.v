(** Package strings of the Go standard library: Replacer, Replace, Trim. *)
From Verif Require Import GoBase Utf8 Unicode.
Open Scope N_scope.

(** strings.genericReplacer.lookup: among the old strings that are prefixes of
    the text, the one given first to NewReplacer wins. [ignore_root] ignores the
    empty old string (set when the previous match was empty). The special-cased
    byteReplacer, byteStringReplacer and singleStringReplacer of the library
    compute the same function. *)
Fixpoint rep_lookup (oldnew : list (bytes * bytes)) (s : bytes) (ignore_root : bool)
  : option (bytes * nat) :=
  match oldnew with
  | [] => None
  | (old, new) :: rest =>
    if (match old with [] => negb ignore_root | _ => has_prefix s old end)
    then Some (new, length old)
    else rep_lookup rest s ignore_root
  end.

(** strings.genericReplacer.WriteString: [skip] counts the bytes of the last
    matched old string still to be passed over. Used by pkg/hre/macro.go:19-20,
    spec.go:174 with procedure.go:80, translit/cyrillic/cyrillic.go:32,47. *)
Fixpoint rep_from (skip : nat) (oldnew : list (bytes * bytes)) (s : bytes) : bytes :=
  match s with
  | [] =>
    match skip with
    | O => match rep_lookup oldnew [] false with Some (v, _) => v | None => [] end
    | S _ => []
    end
  | c :: s' =>
    match skip with
    | S k => rep_from k oldnew s'
    | O =>
      let '(pre, r) :=
        match rep_lookup oldnew s false with
        | Some (v, O) => (v, rep_lookup oldnew s true)
        | r => ([], r)
        end in
      match r with
      | Some (v, S k) => pre ++ v ++ rep_from k oldnew s'
      | _ => pre ++ c :: rep_from 0 oldnew s'
      end
    end
  end.
Definition replacer_replace (oldnew : list (bytes * bytes)) (s : bytes) : bytes :=
  rep_from 0 oldnew s.

(** strings.Replace(s, old, new, -1) for a one-byte [old]
    (pkg/hre/util.go:48, trace.go:160). *)
Definition replace_byte (old : N) (new : bytes) (s : bytes) : bytes :=
  flat_map (fun c => if c =? old then new else [c]) s.

(** strings.TrimLeftFunc / TrimRightFunc / TrimSpace on runes. *)
Fixpoint trim_left_r (f : rune -> bool) (rs : list rune) : list rune :=
  match rs with
  | [] => []
  | r :: rs' => if f r then trim_left_r f rs' else rs
  end.
Definition trim_right_r (f : rune -> bool) (rs : list rune) : list rune :=
  rev (trim_left_r f (rev rs)).

(** strings.Trim(s, cutset) for a cutset of ASCII characters (pkg/hre/var.go:39):
    works on bytes, because an ASCII byte is never part of another character. *)
Definition trim_bytes (cut : bytes) (s : bytes) : bytes :=
  trim_right_r (fun c => nmem c cut) (trim_left_r (fun c => nmem c cut) s).
