(** web/src/components/App.tsx, web/src/components/Examples.tsx: the language and the word in the
    address of the page. URLSearchParams and URLs are those of the URL Standard, useSearchParams
    and Link those of react-router-dom 6.6. *)
From Coq Require Import String.
From Verif Require Import GoBase Utf8 Web JsText.
Open Scope N_scope.

(** ** URL Standard *)

(** Web IDL: a string given to URLSearchParams is made well-formed. *)
Definition usv_string (s : jstring) : jstring := flat_map units (usv s).
(** Strictly split on a byte *)
Fixpoint split_byte (c : N) (s : bytes) : list bytes :=
  match s with
  | [] => [[]]
  | b :: s' =>
    if b =? c then [] :: split_byte c s'
    else match split_byte c s' with l :: ls => (b :: l) :: ls | [] => [[b]] end
  end.
(** Up to the first =, and what follows *)
Fixpoint cut_equals (s : bytes) : bytes * bytes :=
  match s with
  | [] => ([], [])
  | b :: s' => if b =? 0x3D then ([], s') else let '(n, v) := cut_equals s' in (b :: n, v)
  end.
Definition hex_value (c : N) : option N :=
  if (0x30 <=? c) && (c <=? 0x39) then Some (c - 0x30)
  else if (0x41 <=? c) && (c <=? 0x46) then Some (c - 0x37)
  else if (0x61 <=? c) && (c <=? 0x66) then Some (c - 0x57)
  else None.
(** Percent-decode *)
Fixpoint percent_decode (s : bytes) : bytes :=
  match s with
  | [] => []
  | b :: s' =>
    if b =? 0x25 then
      match s' with
      | x :: y :: s'' =>
        match hex_value x, hex_value y with
        | Some h, Some l => h * 16 + l :: percent_decode s''
        | _, _ => b :: percent_decode s'
        end
      | _ => b :: percent_decode s'
      end
    else b :: percent_decode s'
  end.
Definition plus_space (s : bytes) : bytes := map (fun b => if b =? 0x2B then 0x20 else b) s.
(** UTF-8 decode without BOM, as a string of JavaScript *)
Definition utf8_string (s : bytes) : jstring := flat_map units (utf8_decoder utf8_start s).
Definition params := list (jstring * jstring).
(** The application/x-www-form-urlencoded parser *)
Definition form_part (part : bytes) : params :=
  match part with
  | [] => []
  | _ => let '(n, v) := cut_equals part in
         [(utf8_string (percent_decode (plus_space n)), utf8_string (percent_decode (plus_space v)))]
  end.
Definition form_parse (s : bytes) : params := flat_map form_part (split_byte 0x26 s).
(** new URLSearchParams(search) *)
Definition search_params (search : jstring) : params :=
  form_parse (text_encode match search with c :: s => if c =? 0x3F then s else search | [] => [] end).

Definition hex_upper (n : N) : N := if n <? 10 then 0x30 + n else 0x37 + n.
(** What the application/x-www-form-urlencoded percent-encode set leaves *)
Definition form_safe (b : N) : bool :=
  ((0x30 <=? b) && (b <=? 0x39)) || ((0x41 <=? b) && (b <=? 0x5A)) || ((0x61 <=? b) && (b <=? 0x7A)) ||
  existsb (N.eqb b) [0x2A; 0x2D; 0x2E; 0x5F].
Definition percent_byte (b : N) : bytes := [0x25; hex_upper (b / 16); hex_upper (b mod 16)].
Definition form_byte (b : N) : bytes := if b =? 0x20 then [0x2B] else if form_safe b then [b] else percent_byte b.
Definition form_encode (s : jstring) : bytes := flat_map form_byte (text_encode s).
(** The application/x-www-form-urlencoded serializer, URLSearchParams.toString *)
Fixpoint form_serialize (p : params) : bytes :=
  match p with
  | [] => []
  | [(n, v)] => form_encode n ++ 0x3D :: form_encode v
  | (n, v) :: p' => form_encode n ++ 0x3D :: form_encode v ++ 0x26 :: form_serialize p'
  end.

(** URLSearchParams.get, has and set *)
Definition param_get (p : params) (name : jstring) : option jstring := lookup p name.
Definition param_has (p : params) (name : jstring) : bool := existsb (fun e => beqb (fst e) name) p.
Fixpoint param_replace (p : params) (name value : jstring) : params :=
  match p with
  | [] => []
  | (n, v) :: p' =>
    if beqb n name then (n, value) :: filter (fun e => negb (beqb (fst e) name)) p'
    else (n, v) :: param_replace p' name value
  end.
Definition param_set (p : params) (name value : jstring) : params :=
  let name := usv_string name in
  let value := usv_string value in
  if param_has p name then param_replace p name value else p ++ [(name, value)].

(** The basic URL parser, as far as it changes what comes after the question mark: the ends,
    tabs and line breaks, and the special-query percent-encode set. *)
Definition c0_or_space (u : N) : bool := u <=? 0x20.
Fixpoint drop_ends (s : jstring) : jstring :=
  match s with u :: s' => if c0_or_space u then drop_ends s' else s | [] => [] end.
Definition query_byte (b : N) : bytes :=
  if (b <=? 0x20) || (0x7E <? b) || existsb (N.eqb b) [0x22; 0x23; 0x27; 0x3C; 0x3E] then percent_byte b else [b].
Definition url_query (search : jstring) : jstring :=
  flat_map query_byte (text_encode (filter (fun u => negb (existsb (N.eqb u) [0x9; 0xA; 0xD])) (rev (drop_ends (rev search))))).

(** ** react-router *)

(** parsePath for a path that begins with a question mark: up to the first # *)
Fixpoint parse_path (path : jstring) : jstring :=
  match path with [] => [] | u :: s => if u =? 0x23 then [] else u :: parse_path s end.
(** setSearchParams: navigate("?" + createSearchParams(nextInit)) *)
Definition params_search (p : params) : jstring := 0x3F :: form_serialize p.

(** ** Examples.tsx *)

(** Examples.tsx:37: the address of an example *)
Definition example_link (lang word : jstring) : jstring := lit "?lang=" ++ lang ++ lit "&word=" ++ word.

(** ** App.tsx *)

(** The query of the location, the object that the first rendering got from useSearchParams (38)
    and that handleChange (71-75) keeps, and whether it is that of the current rendering, which
    stays the same as long as the query does. *)
Record address := { ad_search : jstring; ad_first : params; ad_shared : bool }.
Definition first_address (search : jstring) : address :=
  {| ad_search := search; ad_first := search_params search; ad_shared := true |}.
Definition current_params (a : address) : params := if ad_shared a then ad_first a else search_params (ad_search a).
Definition navigate (a : address) (search : jstring) : address :=
  {| ad_search := search; ad_first := ad_first a; ad_shared := ad_shared a && beqb search (ad_search a) |}.

(** App.tsx:39-40; [sample] is the language chosen at random in this rendering. *)
Definition app_lang (sample : jstring) (p : params) : jstring :=
  match param_get p (lit "lang") with Some l => if js_empty l then sample else l | None => sample end.
Definition app_word (p : params) : jstring := match param_get p (lit "word") with Some w => w | None => [] end.
(** App.tsx:47-62: the effect after a rendering with the language [lang]; [example] is the word
    chosen at random among the examples, if there are any. The object of the rendering is
    changed even if it is that of handleChange. *)
Definition redirected (lang : jstring) (example : option jstring) (p : params) : params :=
  let p := if param_has p (lit "lang") then p else param_set p (lit "lang") lang in
  match example with
  | Some w => if param_has p (lit "word") then p else param_set p (lit "word") w
  | None => p
  end.
Definition redirects (example : option jstring) (p : params) : bool :=
  negb (param_has p (lit "lang")) || match example with Some _ => negb (param_has p (lit "word")) | None => false end.
Definition redirect (lang : jstring) (example : option jstring) (a : address) : address :=
  let p := current_params a in
  if redirects example p then
    let p' := redirected lang example p in
    navigate {| ad_search := ad_search a; ad_first := (if ad_shared a then p' else ad_first a); ad_shared := ad_shared a |} (params_search p')
  else a.
(** App.tsx:71-75 handleChange *)
Definition handle_change (lang word : jstring) (a : address) : address :=
  let p := param_set (param_set (ad_first a) (lit "lang") lang) (lit "word") word in
  navigate {| ad_search := ad_search a; ad_first := p; ad_shared := ad_shared a |} (params_search p).

(** What happens to the address; strings of JavaScript have units of 16 bits. A link is followed as react-router resolves it; whether it takes
    the query as written or as the browser does, is left open. *)
Definition js_units (s : jstring) : Prop := Forall (fun u => u <= 0xFFFF) s.
Inductive address_step : address -> address -> Prop :=
| step_redirect sample example a : js_units sample -> (forall w, example = Some w -> js_units w) ->
    address_step a (redirect (app_lang sample (current_params a)) example a)
| step_change lang word a : js_units lang -> js_units word -> address_step a (handle_change lang word a)
| step_link lang word a : address_step a (navigate a (parse_path (example_link lang word)))
| step_link_query lang word a : address_step a (navigate a (url_query (parse_path (example_link lang word))))
| step_history search a : address_step a (navigate a search).
Inductive visited : address -> Prop :=
| visited_first search : visited (first_address search)
| visited_step a a' : visited a -> address_step a a' -> visited a'.
