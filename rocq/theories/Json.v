(** cmd/manifest.json/main.go:81-91 with package encoding/json (Go 1.19): the text of the
    manifest. *)
From Coq Require Import String.
From Verif Require Import GoBase Utf8 Hre Spec Jamo Procedure Api Tools.
Open Scope N_scope.

(** ** encoding/json *)

(** encode.go, hex *)
Definition hex_digit (n : N) : N := if n <? 10 then 0x30 + n else 0x57 + n.
(** tables.go, htmlSafeSet *)
Definition html_safe (c : N) : bool := (0x20 <=? c) && negb (existsb (N.eqb c) [0x22; 0x26; 0x3C; 0x3E; 0x5C]).
(** encode.go, encodeState.string, the body of the loop: a character with its width. *)
Definition json_char (g : rune * nat) : bytes :=
  let '(c, size) := g in
  if c <? 0x80 then
    if html_safe c then [c]
    else 0x5C :: (if (c =? 0x5C) || (c =? 0x22) then [c]
                  else if c =? 0xA then lit "n"
                  else if c =? 0xD then lit "r"
                  else if c =? 0x9 then lit "t"
                  else lit "u00" ++ [hex_digit (c / 16); hex_digit (c mod 16)])
  else if (c =? rune_error) && Nat.eqb size 1 then 0x5C :: lit "ufffd"
  else if (c =? 0x2028) || (c =? 0x2029) then 0x5C :: lit "u202" ++ [hex_digit (c mod 16)]
  else encode_rune c.
Definition json_string (s : bytes) : bytes := 0x22 :: flat_map json_char (glyphs s) ++ [0x22].
(** encode.go, arrayEncoder.encode and sliceEncoder.encode: no slice here is nil. *)
Definition json_array {A} (f : A -> bytes) (l : list A) : bytes := 0x5B :: join [0x2C] (map f l) ++ [0x5D].
(** encode.go, structEncoder.encode: the fields with their names. *)
Definition json_object (fields : list (bytes * bytes)) : bytes :=
  0x7B :: join [0x2C] (map (fun f => json_string (fst f) ++ 0x3A :: snd f) fields) ++ [0x7D].
(** encode.go, mapEncoder.encode: by sorted keys. *)
Definition json_map {A} (f : A -> bytes) (m : list (bytes * A)) : bytes :=
  json_object (flat_map (fun k => match lookup m k with Some v => [(k, f v)] | None => [] end) (sort_strings (map fst m))).

(** ** main.go *)

(** main.go:16-40: the tags of the fields. *)
Definition json_example (e : bytes * bytes) : bytes :=
  json_object [(lit "word", json_string (fst e)); (lit "result", json_string (snd e))].
Definition json_spec_text (j : json_spec) : bytes :=
  json_object
    [(lit "lang", json_object
        [(lit "id", json_string (j_id j)); (lit "code2", json_string (j_code2 j)); (lit "code3", json_string (j_code3 j));
         (lit "english", json_string (j_english j)); (lit "korean", json_string (j_korean j));
         (lit "script", json_string (j_script j)); (lit "translit", json_array json_string (j_translit j))]);
     (lit "config", json_object
        [(lit "authors", json_array json_string (j_authors j)); (lit "stage", json_string (j_stage j))]);
     (lit "test", json_array json_example (j_test j))].
(** main.go:10-14, 85-91: what is printed. The version is set by the linker. *)
Definition manifest_text (version : bytes) (m : list (bytes * json_spec) * list bytes) : bytes :=
  json_object
    [(lit "version", json_string version); (lit "specs", json_map json_spec_text (fst m));
     (lit "translits", json_array json_string (snd m))] ++ [0xA].
