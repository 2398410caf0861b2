(** The transliterators of the page: C73. *)
From Coq Require Import String Permutation Lia.
From Verif Require Import GoBase Utf8 Utf8Facts Spec Procedure Api ApiFacts Translit Tools Wasm Web JsText WebTranslit
  SpecOrder PropBundled PropTools PropWasm PropJsText.

(** ** C73 The page has the transliterators *)

(** The name of a method is what stands before its brackets. *)
Theorem C73_name : forall scheme params, ~ In 0x5B%N scheme ->
  normalize_method scheme = scheme /\
  (params <> [] -> (forall u, In u params -> ~ In u [0xA; 0xD; 0x2028; 0x2029]%N) ->
   normalize_method (scheme ++ 0x5B%N :: params ++ [0x5D%N]) = scheme).
Proof.
  intros scheme params Hs; split.
  - induction scheme as [|u s IH]; [reflexivity|]; cbn [normalize_method].
    assert ((u =? 0x5B)%N = false) as -> by (apply N.eqb_neq; intros ->; apply Hs; left; reflexivity).
    cbn [andb]; rewrite IH; [reflexivity|]; intros Hin; apply Hs; right; exact Hin.
  - intros Hp Hu; induction scheme as [|u s IH]; cbn [app normalize_method].
    + rewrite N.eqb_refl; assert (brackets_rest (params ++ [0x5D%N]) = true) as ->; [|reflexivity].
      unfold brackets_rest; rewrite rev_app_distr; cbn [rev app]; rewrite N.eqb_refl; cbn [andb]; apply andb_true_iff; split.
      * destruct params as [|x l]; [contradiction|]; cbn [rev]; destruct (rev l); reflexivity.
      * apply forallb_forall; intros u Hin; apply in_rev in Hin; apply negb_true_iff; unfold line_end.
        destruct (existsb (N.eqb u) _) eqn:E; [|reflexivity]; apply existsb_exists in E; destruct E as (v & Hv & E).
        apply N.eqb_eq in E; subst v; contradiction (Hu u Hin Hv).
    + assert ((u =? 0x5B)%N = false) as -> by (apply N.eqb_neq; intros ->; apply Hs; left; reflexivity).
      cbn [andb]; rewrite IH; [reflexivity|]; intros Hin; apply Hs; right; exact Hin.
Qed.
Print Assumptions C73_name.

Definition spawned0 : spawned := {| sp_workers := []; sp_uses := []; sp_failed := [] |}.
Lemma existsb_beqb x l : existsb (beqb x) l = true <-> In x l.
Proof.
  rewrite existsb_exists; split; [intros (y & Hy & E); apply beqb_eq in E; subst y; exact Hy|].
  intros Hx; exists x; split; [exact Hx|apply beqb_refl].
Qed.
Lemma spawn_uses translits sp : sp_uses (fold_left spawn_method translits sp) =
  sp_uses sp ++ map (fun m => (m, normalize_method m)) translits.
Proof.
  revert sp; induction translits as [|m ts IH]; intros sp; cbn [fold_left map]; [symmetry; apply app_nil_r|].
  rewrite IH; unfold spawn_method; destruct (existsb _ _); cbn [sp_uses]; rewrite <- app_assoc; reflexivity.
Qed.

(** For any list of methods there is one worker for each name, its module has been loaded,
    once, and every method is handed on, once and in that order. A name is not one that every
    object has. *)
Theorem C73_once_partial : forall translits,
  (forall m, In m translits -> ~ In (normalize_method m) object_prototype) ->
  let sp := spawn_workers translits in
  map fst (sp_uses sp) = translits /\ Forall (fun u => snd u = normalize_method (fst u)) (sp_uses sp) /\
  NoDup (map fst (sp_workers sp)) /\
  (forall name, In name (map fst (sp_workers sp)) <-> exists m, In m translits /\ normalize_method m = name) /\
  (forall name m ready, In (name, m) urls -> In (name, ready) (sp_workers sp) -> ready = Some (Url m)) /\
  ((forall m, In m translits -> In (normalize_method m) [lit "cyrillic"; lit "furigana"; lit "pinyin"]) -> sp_failed sp = []).
Proof.
  intros translits Hp sp.
  assert (sp_uses sp = map (fun m => (m, normalize_method m)) translits) as Hu by (unfold sp, spawn_workers; rewrite spawn_uses; reflexivity).
  rewrite Hu; split; [rewrite map_map; apply map_id|]; split; [apply Forall_map, Forall_forall; reflexivity|]; clear Hu.
  unfold sp, spawn_workers; clear sp.
  assert (forall sp, NoDup (map fst (sp_workers sp)) ->
    (forall name ready, In (name, ready) (sp_workers sp) -> ready = url_of name) ->
    let sp' := fold_left spawn_method translits sp in
    NoDup (map fst (sp_workers sp')) /\
    (forall name, In name (map fst (sp_workers sp')) <-> In name (map fst (sp_workers sp)) \/ exists m, In m translits /\ normalize_method m = name) /\
    (forall name ready, In (name, ready) (sp_workers sp') -> ready = url_of name) /\
    ((forall m, In m translits -> In (normalize_method m) [lit "cyrillic"; lit "furigana"; lit "pinyin"]) -> sp_failed sp' = sp_failed sp)) as G.
  { induction translits as [|m ts IH]; intros sp Hn Hr; cbn [fold_left]; cbv zeta.
    - split; [exact Hn|]; split; [|split; [exact Hr|reflexivity]]; intros name; split; [tauto|]; intros [H|(m & [] & _)]; exact H.
    - assert (forall m0, In m0 ts -> ~ In (normalize_method m0) object_prototype) as Hp' by (intros m0 H; apply Hp; right; exact H).
      specialize (IH Hp'); pose proof (Hp m (or_introl eq_refl)) as Hm.
      destruct (existsb (beqb (normalize_method m)) (map fst (sp_workers sp) ++ object_prototype)) eqn:E.
      + assert (spawn_method sp m = {| sp_workers := sp_workers sp; sp_uses := sp_uses sp ++ [(m, normalize_method m)]; sp_failed := sp_failed sp |}) as ->
          by (unfold spawn_method; rewrite E; reflexivity).
        apply existsb_beqb, in_app_or in E; destruct E as [E|E]; [|contradiction].
        destruct (IH {| sp_workers := sp_workers sp; sp_uses := sp_uses sp ++ [(m, normalize_method m)]; sp_failed := sp_failed sp |} Hn Hr)
          as (G1 & G2 & G3 & G4).
        split; [exact G1|]; split; [|split; [exact G3|intros H; apply G4; intros m0 H0; apply H; right; exact H0]].
        intros name; rewrite G2; cbn [sp_workers]; split.
        * intros [H|(m0 & H0 & <-)]; [left; exact H|right; exists m0; split; [right; exact H0|reflexivity]].
        * intros [H|(m0 & [<-|H0] & <-)]; [left; exact H|left; exact E|right; exists m0; split; [exact H0|reflexivity]].
      + assert (spawn_method sp m = {| sp_workers := sp_workers sp ++ [(normalize_method m, load_module None m)];
                        sp_uses := sp_uses sp ++ [(m, normalize_method m)];
                        sp_failed := sp_failed sp ++ match load_module None m with Some _ => [] | None => [m] end |}) as ->
          by (unfold spawn_method; rewrite E; reflexivity).
        assert (~ In (normalize_method m) (map fst (sp_workers sp))) as Hnew.
        { intros Hin; rewrite (proj2 (existsb_beqb _ _)) in E by (apply in_or_app; left; exact Hin); discriminate. }
        destruct (IH {| sp_workers := sp_workers sp ++ [(normalize_method m, load_module None m)];
                        sp_uses := sp_uses sp ++ [(m, normalize_method m)];
                        sp_failed := sp_failed sp ++ match load_module None m with Some _ => [] | None => [m] end |})
          as (G1 & G2 & G3 & G4); cbn [sp_workers sp_failed] in *.
        * rewrite map_app; cbn [map fst]; apply NoDup_rev in Hn; rewrite <- (rev_involutive (map fst (sp_workers sp) ++ _)).
          apply NoDup_rev; rewrite rev_app_distr; cbn [rev app]; constructor; [|exact Hn].
          intros Hin; apply in_rev in Hin; contradiction.
        * intros name ready Hin; apply in_app_or in Hin; destruct Hin as [Hin|[Hin|[]]]; [apply Hr; exact Hin|].
          injection Hin as <- <-; reflexivity.
        * split; [exact G1|]; split; [|split; [exact G3|]].
          -- intros name; rewrite G2, map_app, in_app_iff; cbn [map fst In]; split.
             ++ intros [[H|[<-|[]]]|(m0 & H0 & <-)]; [left; exact H|right; exists m; split; [left; reflexivity|reflexivity]|].
                right; exists m0; split; [right; exact H0|reflexivity].
             ++ intros [H|(m0 & [<-|H0] & <-)]; [left; left; exact H|left; right; left; reflexivity|].
                right; exists m0; split; [exact H0|reflexivity].
          -- intros H; rewrite G4 by (intros m0 H0; apply H; right; exact H0).
             unfold load_module; destruct (H m (or_introl eq_refl)) as [<-|[<-|[<-|[]]]]; apply app_nil_r. }
  destruct (G spawned0) as (G1 & G2 & G3 & G4); [constructor|intros ? ? []|].
  split; [exact G1|]; split; [|split; [|exact G4]].
  - intros name; rewrite G2; cbn; split; [intros [[]|H]; exact H|intros H; right; exact H].
  - intros name m ready Hu Hin; rewrite (G3 _ _ Hin); destruct Hu as [E|[E|[E|[]]]]; injection E as <- <-; reflexivity.
Qed.
Print Assumptions C73_once_partial.

(** Of such a name there is no worker, and the call fails. *)
Theorem C73_once_refuted : exists method, sp_workers (spawn_workers [method]) = [] /\ sp_failed (spawn_workers [method]) = [] /\
  forall call word, exists e, promise_transliterate (page_translit call (spawn_workers [method]) (method, normalize_method method)) word = Err e.
Proof. exists (lit "constructor"); split; [reflexivity|]; split; [reflexivity|]; intros call word; eexists; reflexivity. Qed.
Print Assumptions C73_once_refuted.

(** *** The bundled languages *)
Lemma described_translits lang src s0 : lookup bundled_files (specs_dir ++ lang ++ ext) = Some src ->
  parse_spec choices0 src = Ok s0 -> forall t, In t (l_translit (s_lang s0)) -> In t known_translits.
Proof.
  intros Es E0 t Ht; pose proof bundled_fits as Hf; rewrite forallb_forall in Hf; specialize (Hf _ (PropBundled.lookup_in _ _ _ Es)).
  unfold file_fits in Hf; cbn [fst snd] in Hf; rewrite E0 in Hf; apply andb_true_iff in Hf; destruct Hf as [_ Hf].
  apply andb_true_iff in Hf; destruct Hf as [_ Hf]; apply andb_true_iff in Hf; destruct Hf as [_ Hf].
  apply andb_true_iff in Hf; destruct Hf as [Hf _]; unfold spec_described in Hf; apply andb_true_iff in Hf; destruct Hf as [_ Hf]; rewrite forallb_forall in Hf.
  apply existsb_beqb; apply Hf; exact Ht.
Qed.
Lemma registered_uses ts sc : registered (map EUse ts) sc = List.find (fun t => beqb (jt_scheme t) sc) ts.
Proof.
  revert sc; induction ts as [|t ts IH] using rev_ind; intros sc; [reflexivity|].
  rewrite map_app; cbn [map]; rewrite registered_snoc, IH.
  assert (forall l, List.find (fun t0 => beqb (jt_scheme t0) sc) (l ++ [t]) =
    match List.find (fun t0 => beqb (jt_scheme t0) sc) l with Some x => Some x | None => if beqb (jt_scheme t) sc then Some t else None end) as ->.
  { induction l as [|x l IHl]; cbn [app List.find]; [reflexivity|]; destruct (beqb (jt_scheme x) sc); [reflexivity|exact IHl]. }
  destruct (List.find (fun t0 => beqb (jt_scheme t0) (jt_scheme t)) ts) as [x|] eqn:E.
  - rewrite IH; destruct (List.find (fun t0 => beqb (jt_scheme t0) sc) ts) as [y|] eqn:Ey; [reflexivity|].
    destruct (beqb (jt_scheme t) sc) eqn:Et; [|reflexivity]; apply beqb_eq in Et; subst sc; congruence.
  - destruct (beqb (jt_scheme t) sc) eqn:Et.
    + apply beqb_eq in Et; subst sc; rewrite E; reflexivity.
    + rewrite IH; destruct (List.find (fun t0 => beqb (jt_scheme t0) sc) ts); reflexivity.
Qed.

(** Text that does not begin with a byte order mark *)
Definition plain (s : bytes) : Prop := utf8_text s /\ hd_error (runes s) <> Some 0xFEFF%N.
(** The methods in the manifest, as JavaScript reads them *)
Definition methods_of (translits : list bytes) (methods : list jstring) : Prop :=
  Forall2 (fun t m => utf16 m (runes t)) translits methods.

Lemma ascii_utf16 (t : bytes) m : forallb (fun b => (b <? 0x80)%N) t = true -> utf16 m (runes t) -> m = t.
Proof.
  intros Ha H; apply utf16_units in H; rewrite H; clear H m.
  assert (scalars t /\ encode t = t /\ flat_map units t = t) as (Hs & He & Hu).
  { induction t as [|b t IH]; [repeat split; constructor|]; cbn [forallb] in Ha; apply andb_true_iff in Ha; destruct Ha as [Hb Ha].
    destruct (IH Ha) as (Hs & He & Hu); split; [|split].
    - constructor; [unfold is_scalar; lia|exact Hs].
    - cbn [encode flat_map]; unfold encode_rune at 1; assert ((b <=? 0x7F)%N = true) as -> by lia; cbn [app]; f_equal; exact He.
    - cbn [flat_map]; unfold units at 1; assert ((b <=? 0xFFFF)%N = true) as -> by lia; cbn [app]; f_equal; exact Hu. }
  rewrite <- He at 1; rewrite runes_encode by exact Hs; exact Hu.
Qed.
Lemma known_methods translits methods : (forall t, In t translits -> In t known_translits) -> methods_of translits methods -> methods = translits.
Proof.
  intros Hk H; induction H as [|t m ts ms Hm H IH]; [reflexivity|]; rewrite IH by (intros x Hx; apply Hk; right; exact Hx).
  f_equal; apply ascii_utf16; [|exact Hm].
  assert (forallb (forallb (fun b => (b <? 0x80)%N)) known_translits = true) as Ha by (vm_compute; reflexivity).
  rewrite forallb_forall in Ha; apply Ha, Hk; left; reflexivity.
Qed.
Lemma known_name t : In t known_translits ->
  exists m, In (normalize_method t, m) urls /\ ~ In (normalize_method t) object_prototype /\ text_encode t = t.
Proof.
  intros [<-|[<-|[<-|[<-|[<-|[<-|[]]]]]]]; [exists MCyrillic|exists MCyrillic|exists MCyrillic|exists MCyrillic|exists MFurigana|exists MPinyin];
    (split; [vm_compute; tauto|]; split; [vm_compute; intuition discriminate|reflexivity]).
Qed.
Lemma find_use {A} (f : A -> js_translit) l (a : A) : In a l -> (forall x y, In x l -> In y l -> jt_scheme (f x) = jt_scheme (f y) -> f x = f y) ->
  List.find (fun t => beqb (jt_scheme t) (jt_scheme (f a))) (map f l) = Some (f a).
Proof.
  induction l as [|x l IH]; [intros []|]; intros Hin Hi; cbn [map List.find]; destruct (beqb (jt_scheme (f x)) (jt_scheme (f a))) eqn:E.
  - apply beqb_eq in E; rewrite (Hi x a (or_introl eq_refl) Hin E); reflexivity.
  - destruct Hin as [<-|Hin]; [rewrite beqb_refl in E; discriminate|].
    apply IH; [exact Hin|]; intros y z Hy Hz; apply Hi; right; assumption.
Qed.

(** Every transliterator a bundled language needs is handed to the module by the page, and is
    the one of translit/translit.go: it gives the same for plain text. No other is. *)
Theorem C73_bundled : forall c order0 nfc readings tokenize order specs translits methods,
  (forall lang, choices_ok (c lang)) -> (forall l, Permutation l (order0 l)) ->
  manifest bundled_files c order0 = Ok (specs, translits) -> methods_of translits methods ->
  let have := registered (page_uses (module_call nfc readings tokenize order) methods) in
  (forall sc t, have sc = Some t -> exists lang src s0, lookup bundled_files (specs_dir ++ lang ++ ext) = Some src /\
     parse_spec choices0 src = Ok s0 /\ In sc (l_translit (s_lang s0))) /\
  (forall lang src s0 sc, lookup bundled_files (specs_dir ++ lang ++ ext) = Some src -> parse_spec choices0 src = Ok s0 ->
     In sc (l_translit (s_lang s0)) ->
     exists t std, have sc = Some t /\ In std (std_translits (W := unit) nfc readings tokenize order) /\ tl_scheme std = sc /\
       forall word r, plain word -> snd (tl_run std tt word) = Ok r -> plain r -> promise_transliterate t word = Ok r).
Proof.
  intros c order0 nfc readings tokenize order specs translits methods Hc Ho Em Hm have.
  destruct (C61_manifest c order0 Hc Ho) as (specs' & translits' & Em' & _ & _ & _ & Hnd & Ht).
  rewrite Em in Em'; injection Em' as <- <-.
  assert (forall t, In t translits -> In t known_translits) as Hk.
  { intros t Hin; apply Ht in Hin; destruct Hin as (lang & src & s0 & Es & E0 & Hin); exact (described_translits lang src s0 Es E0 t Hin). }
  pose proof (known_methods translits methods Hk Hm) as ->; clear Hm.
  destruct (C73_once_partial translits) as (U1 & U2 & U3 & U4 & U5 & _).
  { intros m Hin; destruct (known_name m (Hk m Hin)) as (_ & _ & H & _); exact H. }
  set (sp := spawn_workers translits) in *.
  set (call := module_call nfc readings tokenize order) in *.
  assert (sp_uses sp = map (fun m => (m, normalize_method m)) translits) as Hu by (unfold sp, spawn_workers; rewrite spawn_uses; reflexivity).
  assert (forall sc, have sc = List.find (fun t => beqb (jt_scheme t) sc) (map (page_translit call sp) (sp_uses sp))) as Hh.
  { intros sc; unfold have, page_uses; fold sp; rewrite <- registered_uses, map_map; reflexivity. }
  split.
  - intros sc t H; rewrite Hh in H; apply find_some in H; destruct H as [Hin E]; apply beqb_eq in E; apply in_map_iff in Hin.
    destruct Hin as (u & <- & Hin); rewrite Hu in Hin; apply in_map_iff in Hin; destruct Hin as (m & <- & Hin).
    cbn [page_translit jt_scheme fst] in E; destruct (known_name m (Hk m Hin)) as (_ & _ & _ & Ee).
    assert (sc = m) as -> by (exact (eq_trans (eq_sym E) Ee)); apply Ht; exact Hin.
  - intros lang src s0 sc Es E0 Hsc; assert (In sc translits) as Hin by (apply Ht; exists lang, src, s0; auto).
    destruct (known_name sc (Hk sc Hin)) as (m & Hurl & _ & Ee).
    assert (have sc = Some (page_translit call sp (sc, normalize_method sc))) as Eh.
    { rewrite Hh.
      assert (jt_scheme (page_translit call sp (sc, normalize_method sc)) = sc) as Ej by exact Ee.
      pose proof (find_use (page_translit call sp) (sp_uses sp) (sc, normalize_method sc)) as F; rewrite Ej in F; apply F; clear F.
      - rewrite Hu; apply in_map_iff; exists sc; split; [reflexivity|exact Hin].
      - intros x y Hx Hy E; rewrite Hu in Hx, Hy; apply in_map_iff in Hx, Hy; destruct Hx as (a & <- & Ha), Hy as (b & <- & Hb).
        cbn [page_translit jt_scheme fst] in E.
        destruct (known_name a (Hk a Ha)) as (_ & _ & _ & Ea), (known_name b (Hk b Hb)) as (_ & _ & _ & Eb).
        assert (a = b) as -> by (exact (eq_trans (eq_sym Ea) (eq_trans E Eb))); reflexivity. }
    assert (lookup (sp_workers sp) (normalize_method sc) = Some (Some (Url m))) as El.
    { destruct (lookup (sp_workers sp) (normalize_method sc)) as [ready|] eqn:El.
      - rewrite (U5 _ _ _ Hurl (PropBundled.lookup_in _ _ _ El)); reflexivity.
      - apply lookup_key in El; contradiction El; apply U4; exists sc; split; [exact Hin|reflexivity]. }
    assert (forall word r, plain word -> plain r -> call m sc word = module_reply (Ok r) ->
      promise_transliterate (page_translit call sp (sc, normalize_method sc)) word = Ok r) as Hgo.
    { intros word r [Hw1 Hw2] [Hr1 Hr2] E; unfold promise_transliterate; cbn [page_translit jt_fn fst snd]; rewrite El; cbn [worker_call].
      rewrite C72_round_go by assumption; rewrite Ee, E; cbn [module_reply js_string]; rewrite C72_round_go by assumption; reflexivity. }
    exists (page_translit call sp (sc, normalize_method sc)).
    assert (exists std, In std (std_translits (W := unit) nfc readings tokenize order) /\ tl_scheme std = sc /\
      forall word, call m sc word = module_reply (snd (tl_run std tt word))) as (std & H1 & H2 & H3).
    { assert (In sc (map tl_scheme (std_translits (W := unit) nfc readings tokenize order))) as Hs.
      { specialize (Hk sc Hin); clear - Hk; unfold known_translits in Hk; cbn; unfold cyrillic_scheme; cbn; cbn in Hk; tauto. }
      apply in_map_iff in Hs; destruct Hs as (std & Es' & Hs); exists std; split; [exact Hs|]; split; [exact Es'|].
      specialize (Hk sc Hin); clear - Hk Hurl Hs Es'; subst sc; unfold std_translits in Hs; cbn [cyrillic_countries map In] in Hs.
      destruct Hs as [<-|[<-|[<-|[<-|[<-|[<-|[]]]]]]]; destruct Hurl as [E|[E|[E|[]]]]; try discriminate E; injection E as <-; reflexivity. }
    exists std; split; [exact Eh|]; split; [exact H1|]; split; [exact H2|].
    intros word r Hw E Hr; apply Hgo; [exact Hw|exact Hr|]; rewrite H3, E; reflexivity.
Qed.
Print Assumptions C73_bundled.

(** A transliterator that fails does not make the call fail: the text to transcribe becomes
    that of an object. *)
Theorem C73_failure_refuted : exists (translate : bytes -> res bytes) word e, translate word = Err e /\
  forall sc, promise_transliterate {| jt_scheme := sc; jt_fn := fun w => module_reply (translate w) |} word = Ok (lit "<object>").
Proof. exists (fun _ => Err (ErrOther (lit "no dictionary"))), [], (ErrOther (lit "no dictionary")); split; reflexivity. Qed.
Print Assumptions C73_failure_refuted.

(** Two methods of one module, and the others: three workers. *)
Example C73_example :
  let translits := [lit "cyrillic[ru]"; lit "pinyin"; lit "cyrillic[bg]"; lit "furigana"] in
  sp_workers (spawn_workers translits) =
    [(lit "cyrillic", Some (Url MCyrillic)); (lit "pinyin", Some (Url MPinyin)); (lit "furigana", Some (Url MFurigana))] /\
  map fst (sp_uses (spawn_workers translits)) = translits /\
  normalize_method (lit "a[b][c]") = lit "a" /\ normalize_method (lit "a[]") = lit "a[]" /\
  promise_transliterate (page_translit (module_call (fun x => x) (fun _ => []) (fun _ => []) (fun _ t => t)) (spawn_workers translits)
    (lit "cyrillic[ru]", lit "cyrillic")) (lit "Moskva") = Ok (lit "Москва").
Proof. vm_compute; repeat split; reflexivity. Qed.
