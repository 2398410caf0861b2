(** web/src/hangulize/translit.worker.ts, web/src/hangulize/useHangulize.ts:65-90 and
    cmd/{cyrillic,furigana,pinyin}.translit.wasm/main.go: the transliterators of the page. For
    each there is a WebAssembly module that runs in a worker of its own, and the module of
    cmd/hangulize.wasm calls it through the page. Comlink carries calls and strings unchanged,
    and the modules can be loaded. *)
From Coq Require Import String.
From Verif Require Import GoBase Utf8 Translit Procedure Tools Wasm Web JsText.

(** ** translit.worker.ts *)

(** ECMAScript, the dot of a regular expression: anything but a line terminator *)
Definition line_end (u : N) : bool := existsb (N.eqb u) [0xA; 0xD; 0x2028; 0x2029]%N.
(** What follows a bracket, up to the end *)
Definition brackets_rest (s : jstring) : bool :=
  match rev s with
  | c :: m => (c =? 0x5D)%N && (negb (js_empty m) && forallb (fun u => negb (line_end u)) m)
  | [] => false
  end.
(** translit.worker.ts:22-24 normalizeMethod: the first match is removed. *)
Fixpoint normalize_method (method : jstring) : jstring :=
  match method with
  | [] => []
  | u :: m => if (u =? 0x5B)%N && brackets_rest m then [] else u :: normalize_method m
  end.

(** translit.worker.ts:11-15 urls. What every object has is not undefined, but no module
    either. *)
Inductive wasm_module := MCyrillic | MFurigana | MPinyin.
Definition urls : list (jstring * wasm_module) :=
  [(lit "cyrillic", MCyrillic); (lit "furigana", MFurigana); (lit "pinyin", MPinyin)].
Inductive js_url := Url (m : wasm_module) | NoUrl.
Definition url_of (name : jstring) : option js_url :=
  match lookup urls name with
  | Some m => Some (Url m)
  | None => if existsb (beqb name) object_prototype then Some NoUrl else None
  end.
(** translit.worker.ts:29-41 load: the variable ready, None for null; None when it throws. *)
Definition load_module (ready : option js_url) (method : jstring) : option js_url :=
  match ready with
  | Some _ => None
  | None => url_of (normalize_method method)
  end.

(** cmd/*.translit.wasm/main.go:12-20, jsTransliterate: an error is returned, not thrown. What
    comes of a panic is not modelled. *)
Definition module_reply (r : res bytes) : js_reply :=
  match r with
  | Ok s => Fulfils (JString (text_encode (text_decode s)))
  | Err e => Fulfils (JObject (JString (match e with ErrOther msg => msg | _ => [] end)))
  | _ => Pending
  end.
(** The modules; what the libraries do is in [nfc], [readings], [tokenize] and [order], as in
    [std_translits]. *)
Definition module_call (nfc : bytes -> bytes) (readings : rune -> list bytes) (tokenize : bytes -> list ktoken)
           (order : bytes -> list (bytes * bytes) -> list (bytes * bytes)) (m : wasm_module) (method word : bytes) : js_reply :=
  module_reply match m with
               | MCyrillic => snd (wasm_transliterate (translit_map (cyrillic_ts order)) tt method word)
               | MFurigana => furigana_transliterate nfc tokenize word
               | MPinyin => pinyin_transliterate nfc readings word
               end.
(** translit.worker.ts:43-50 transliterate: the rejections have an Error. *)
Definition worker_call (call : wasm_module -> bytes -> bytes -> js_reply) (ready : option js_url) (method word : jstring) : js_reply :=
  match ready with
  | None => Rejects (JObject (JString (lit "load() not called yet")))
  | Some NoUrl => Rejects (JObject (JString (lit "failed to load")))
  | Some (Url m) => call m (text_encode method) (text_encode word)
  end.

(** ** useHangulize.ts *)

(** The workers by the name of their module, with the variable ready of each, the calls of
    useTranslit, with the worker each method is bound to, and the calls of load that throw. *)
Record spawned := {
  sp_workers : list (jstring * option js_url);
  sp_uses : list (jstring * jstring);
  sp_failed : list jstring
}.
(** useHangulize.ts:75-89: the operator in looks into the prototype. *)
Definition spawn_method (sp : spawned) (method : jstring) : spawned :=
  let name := normalize_method method in
  let uses := sp_uses sp ++ [(method, name)] in
  if existsb (beqb name) (map fst (sp_workers sp) ++ object_prototype)
  then {| sp_workers := sp_workers sp; sp_uses := uses; sp_failed := sp_failed sp |}
  else let ready := load_module None method in
       {| sp_workers := sp_workers sp ++ [(name, ready)]; sp_uses := uses;
          sp_failed := sp_failed sp ++ match ready with Some _ => [] | None => [method] end |}.
(** useHangulize.ts:65-90 spawnWorkers *)
Definition spawn_workers (translits : list jstring) : spawned :=
  fold_left spawn_method translits {| sp_workers := []; sp_uses := []; sp_failed := [] |}.

(** useHangulize.ts:85-87: the function given to useTranslit, as Go sees it. *)
Definition page_translit (call : wasm_module -> bytes -> bytes -> js_reply) (sp : spawned) (use : jstring * jstring) : js_translit :=
  {| jt_scheme := text_encode (fst use);
     jt_fn := fun word => match lookup (sp_workers sp) (snd use) with
                          | Some ready => worker_call call ready (fst use) (text_decode word)
                          | None => Rejects (JObject (JString (lit "transliterate is not a function")))
                          end |}.
(** The calls of useTranslit as events of the module *)
Definition page_uses (call : wasm_module -> bytes -> bytes -> js_reply) (translits : list jstring) : list js_event :=
  let sp := spawn_workers translits in map (fun u => EUse (page_translit call sp u)) (sp_uses sp).
