(** A compact representation of long byte strings, for the bundled specs. *)
From Coq Require Import Init.Byte.
From Verif Require Import GoBase.

Inductive bstr := BNil | BCons (b : byte) (s : bstr).

Fixpoint bstr_of_list (l : list byte) : bstr :=
  match l with [] => BNil | b :: l' => BCons b (bstr_of_list l') end.
Fixpoint list_of_bstr (s : bstr) : list byte :=
  match s with BNil => [] | BCons b s' => b :: list_of_bstr s' end.

Declare Scope bstr_scope.
Delimit Scope bstr_scope with bstr.
String Notation bstr bstr_of_list list_of_bstr : bstr_scope.

Fixpoint bstr_bytes (s : bstr) : bytes :=
  match s with BNil => [] | BCons b s' => Byte.to_N b :: bstr_bytes s' end.
Definition file_bytes (chunks : list bstr) : bytes := concat (map bstr_bytes chunks).
