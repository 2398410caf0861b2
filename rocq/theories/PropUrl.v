(** The address of the page: C77, C78. *)
From Coq Require Import String Permutation Lia.
From Verif Require Import GoBase Utf8 Utf8Facts Spec Bundled Api TestCmd Cli Tools PropBundled PropTools Web JsText PropJsText WebUrl.
Open Scope N_scope.

(** ** C77 The address has what is typed *)

Definition text (s : jstring) : Prop := exists rs, utf16 s rs.
Lemma usv_text s : text s -> usv_string s = s.
Proof. intros (rs & H); unfold usv_string; rewrite (usv_utf16 _ _ H); symmetry; apply utf16_units; exact H. Qed.
Lemma usv_scalars s : js_units s -> scalars (usv s).
Proof.
  intros Hj; destruct (C72_repaired s Hj) as (rs & _ & E & Hr); unfold text_encode in *.
  remember (length s) as n eqn:En; assert (length s <= n)%nat as Hn by lia; clear En E Hr rs; revert s Hj Hn.
  induction n as [|n IH]; intros [|u s] Hj Hn; [constructor|cbn in Hn; lia|constructor|].
  cbn [usv length] in *; inversion Hj as [|? ? Hu Hs]; subst; unfold is_high at 1.
  destruct ((0xD800 <=? u) && (u <=? 0xDBFF)) eqn:Eh.
  - destruct s as [|v s2]; [repeat constructor|]; destruct (is_low v) eqn:El; unfold is_low in El.
    + constructor; [unfold is_scalar; lia|apply IH; [inversion Hs; assumption|cbn in Hn; lia]].
    + constructor; [reflexivity|apply IH; [exact Hs|lia]].
  - unfold is_low at 1; destruct ((0xDC00 <=? u) && (u <=? 0xDFFF)) eqn:El.
    + constructor; [reflexivity|apply IH; [exact Hs|lia]].
    + constructor; [unfold is_scalar; lia|apply IH; [exact Hs|lia]].
Qed.
Lemma usv_string_text s : js_units s -> text (usv_string s).
Proof. intros H; exists (usv s); apply utf16_exists, usv_scalars, H. Qed.
Lemma utf8_string_text s : text (utf8_string s).
Proof. eexists; apply utf16_exists, decoder_scalars; left; reflexivity. Qed.
Lemma text_units s : text s -> js_units s.
Proof. intros (rs & H); induction H; repeat constructor; try assumption; lia. Qed.

(** *** The form encoding *)
Lemma encode_rune_bytes r : Forall (fun b => b < 256) (encode_rune r).
Proof.
  unfold encode_rune; destruct (r <=? 0x7F) eqn:E1; [repeat constructor; lia|].
  destruct (r <=? 0x7FF) eqn:E2; [repeat constructor; lia|].
  destruct (is_scalar r) eqn:Es; cbn [negb]; [|repeat constructor; lia].
  unfold is_scalar in Es; destruct (r <=? 0xFFFF) eqn:E3; repeat constructor; lia.
Qed.
Lemma text_encode_bytes s : Forall (fun b => b < 256) (text_encode s).
Proof. unfold text_encode; induction (usv s) as [|r l IH]; [constructor|]; cbn [encode flat_map]; apply Forall_app; split; [apply encode_rune_bytes|exact IH]. Qed.
Lemma hex_upper_value n : n < 16 -> hex_value (hex_upper n) = Some n.
Proof.
  intros H; unfold hex_upper, hex_value; destruct (n <? 10) eqn:E.
  - assert ((0x30 <=? 0x30 + n) && (0x30 + n <=? 0x39) = true) as -> by lia; f_equal; lia.
  - assert ((0x30 <=? 0x37 + n) && (0x37 + n <=? 0x39) = false) as -> by lia.
    assert ((0x41 <=? 0x37 + n) && (0x37 + n <=? 0x46) = true) as -> by lia; f_equal; lia.
Qed.
(** The characters of the encoding: letters, digits, and five others *)
Definition form_char (c : N) : Prop :=
  0x30 <= c <= 0x39 \/ 0x41 <= c <= 0x5A \/ 0x61 <= c <= 0x7A \/ In c [0x25; 0x2A; 0x2B; 0x2D; 0x2E; 0x5F].
Lemma form_byte_chars b : b < 256 -> Forall form_char (form_byte b).
Proof.
  intros H; unfold form_byte; destruct (b =? 0x20); [constructor; [right; right; right; cbn; tauto|constructor]|].
  destruct (form_safe b) eqn:E.
  - constructor; [|constructor]; unfold form_safe in E; cbn [existsb] in E; unfold form_char; cbn [In]; lia.
  - assert (forall n, n < 16 -> form_char (hex_upper n)) as Hx by (intros n Hn; unfold hex_upper, form_char; destruct (n <? 10) eqn:En; lia).
    constructor; [right; right; right; cbn; tauto|]; constructor; [apply Hx; apply N.div_lt_upper_bound; lia|]; constructor; [apply Hx, N.mod_lt; lia|constructor].
Qed.
Lemma form_encode_chars s : Forall form_char (form_encode s).
Proof.
  unfold form_encode; pose proof (text_encode_bytes s) as H; induction H as [|b l Hb H IH]; [constructor|].
  cbn [flat_map]; apply Forall_app; split; [apply form_byte_chars; exact Hb|exact IH].
Qed.
Lemma form_decode s : Forall (fun b => b < 256) s -> percent_decode (plus_space (flat_map form_byte s)) = s.
Proof.
  intros H; induction H as [|b s Hb H IH]; [reflexivity|]; cbn [flat_map]; unfold plus_space in *; rewrite map_app.
  set (t := map _ (flat_map form_byte s)) in *; clearbody t; unfold form_byte; destruct (b =? 0x20) eqn:E.
  { apply N.eqb_eq in E; subst b; cbn; rewrite IH; reflexivity. }
  destruct (form_safe b) eqn:Es.
  - cbn [map app]; unfold form_safe in Es; cbn [existsb] in Es; assert (b =? 0x2B = false) as -> by lia.
    cbn [percent_decode]; assert (b =? 0x25 = false) as -> by lia; rewrite IH; reflexivity.
  - assert (b / 16 < 16 /\ b mod 16 < 16) as [H1 H2] by (split; [apply N.div_lt_upper_bound; lia|apply N.mod_lt; lia]).
    assert (forall n, n < 16 -> (if hex_upper n =? 0x2B then 0x20 else hex_upper n) = hex_upper n) as Hx
      by (intros n Hn; unfold hex_upper; destruct (n <? 10); [assert (0x30 + n =? 0x2B = false) as -> by lia|assert (0x37 + n =? 0x2B = false) as -> by lia]; reflexivity).
    unfold percent_byte; cbn [map app]; change (0x25 =? 0x2B) with false; cbv iota; rewrite !Hx by assumption.
    cbn [percent_decode]; change (0x25 =? 0x25) with true; cbv iota; rewrite !hex_upper_value by assumption.
    rewrite IH; f_equal; pose proof (N.div_mod b 16 ltac:(lia)); lia.
Qed.
Lemma split_none c s : ~ In c s -> split_byte c s = [s].
Proof.
  induction s as [|b s IH]; intros H; [reflexivity|]; cbn [split_byte]; cbn [In] in H.
  assert (b =? c = false) as -> by (apply N.eqb_neq; intros ->; tauto); rewrite IH by tauto; reflexivity.
Qed.
Lemma split_first c s r : ~ In c s -> split_byte c (s ++ c :: r) = s :: split_byte c r.
Proof.
  induction s as [|b s IH]; intros H; cbn [app split_byte]; [rewrite N.eqb_refl; reflexivity|]; cbn [In] in H.
  assert (b =? c = false) as -> by (apply N.eqb_neq; intros ->; tauto); rewrite IH by tauto; reflexivity.
Qed.
Lemma cut_first s r : ~ In 0x3D s -> cut_equals (s ++ 0x3D :: r) = (s, r).
Proof.
  induction s as [|b s IH]; intros H; cbn [app cut_equals]; [reflexivity|]; cbn [In] in H.
  assert (b =? 0x3D = false) as -> by (apply N.eqb_neq; intros ->; tauto); rewrite IH by tauto; reflexivity.
Qed.
Lemma not_form_char c s : ~ form_char c -> Forall form_char s -> ~ In c s.
Proof. intros Hc H Hin; rewrite Forall_forall in H; exact (Hc (H c Hin)). Qed.
Lemma no_amp : ~ form_char 0x26. Proof. unfold form_char; cbn [In]; lia. Qed.
Lemma no_equals : ~ form_char 0x3D. Proof. unfold form_char; cbn [In]; lia. Qed.
Lemma form_decoded s : text s -> utf8_string (percent_decode (plus_space (form_encode s))) = s.
Proof.
  intros (rs & H); unfold form_encode; rewrite form_decode by apply text_encode_bytes.
  destruct (C72_to_go s rs H) as [-> _]; unfold utf8_string; rewrite decoder_encode by (eapply utf16_scalars; exact H).
  symmetry; apply utf16_units; exact H.
Qed.

Definition texts (p : params) : Prop := Forall (fun e => text (fst e) /\ text (snd e)) p.
Theorem C77_serialized : forall p, texts p -> search_params (params_search p) = p.
Proof.
  intros p Hp; unfold search_params, params_search; change (0x3F =? 0x3F) with true; cbv iota.
  assert (forall n v, ~ In 0x26 (form_encode n ++ 0x3D :: form_encode v)) as Hamp.
  { intros n v Hin; apply in_app_or in Hin; destruct Hin as [Hin|[Hin|Hin]]; [|discriminate Hin|];
      exact (not_form_char 0x26 _ no_amp (form_encode_chars _) Hin). }
  assert (text_encode (form_serialize p) = form_serialize p) as ->.
  { assert (Forall (fun c => c < 0x80) (form_serialize p)) as Ha.
    { assert (forall s, Forall (fun c => c < 0x80) (form_encode s)) as Hf.
      { intros s; eapply Forall_impl; [|apply form_encode_chars]; unfold form_char; cbn [In]; intros c Hc; lia. }
      clear Hp; induction p as [|[n v] [|e p] IH]; [constructor| |].
      - cbn [form_serialize]; apply Forall_app; split; [apply Hf|constructor; [lia|apply Hf]].
      - change (form_serialize ((n, v) :: e :: p)) with (form_encode n ++ 0x3D :: form_encode v ++ 0x26 :: form_serialize (e :: p)).
        apply Forall_app; split; [apply Hf|]; constructor; [lia|]; apply Forall_app; split; [apply Hf|]; constructor; [lia|exact IH]. }
    unfold text_encode; induction Ha as [|c s Hc Ha IH]; [reflexivity|]; cbn [usv].
    assert (is_high c = false) as -> by (unfold is_high; lia); assert (is_low c = false) as -> by (unfold is_low; lia).
    cbn [encode flat_map]; unfold encode in IH; rewrite IH; unfold encode_rune; assert (c <=? 0x7F = true) as -> by lia; reflexivity. }
  unfold form_parse; induction Hp as [|[n v] p [Hn Hv] Hp IH]; [reflexivity|]; cbn [fst snd] in *.
  assert (form_part (form_encode n ++ 0x3D :: form_encode v) = [(n, v)]) as Hone.
  { unfold form_part; assert (exists b l, form_encode n ++ 0x3D :: form_encode v = b :: l) as (b & l & E)
      by (destruct (form_encode n); [eexists; eexists; reflexivity|eexists; eexists; reflexivity]).
    rewrite E; rewrite <- E at 1; rewrite cut_first by (exact (not_form_char _ _ no_equals (form_encode_chars n))).
    rewrite (form_decoded n Hn), (form_decoded v Hv); reflexivity. }
  destruct p as [|e p].
  - cbn [form_serialize]; rewrite split_none by apply Hamp; cbn [flat_map]; rewrite Hone; reflexivity.
  - change (form_serialize ((n, v) :: e :: p)) with (form_encode n ++ 0x3D :: form_encode v ++ 0x26 :: form_serialize (e :: p)).
    rewrite (app_comm_cons (form_encode v) (0x26 :: form_serialize (e :: p)) 0x3D), app_assoc, split_first by apply Hamp.
    cbn [flat_map]; rewrite Hone, IH; reflexivity.
Qed.
Print Assumptions C77_serialized.

Lemma lit_text s : forallb (fun c => c <? 0x80) s = true -> text s.
Proof. intros H; exists s; induction s as [|c s IH]; [constructor|]; cbn [forallb] in H; apply andb_true_iff in H; constructor; [lia|apply IH, H]. Qed.
Lemma lang_text : text (lit "lang"). Proof. apply lit_text; reflexivity. Qed.
Lemma word_text : text (lit "word"). Proof. apply lit_text; reflexivity. Qed.

(** *** Getting and setting *)
Lemma has_get p n : param_has p n = true <-> exists v, param_get p n = Some v.
Proof.
  unfold param_has, param_get; induction p as [|[k v] p IH]; cbn [existsb lookup fst]; [split; [discriminate|intros (v & H); discriminate]|].
  destruct (beqb k n); cbn [orb]; [split; eauto|exact IH].
Qed.
Lemma get_set p n v m : text n -> param_get (param_set p n v) m = if beqb n m then Some (usv_string v) else param_get p m.
Proof.
  intros Hn; unfold param_set; rewrite (usv_text n Hn); set (w := usv_string v); clearbody w.
  unfold param_has; destruct (existsb (fun e => beqb (fst e) n) p) eqn:E.
  - induction p as [|[k x] p IH]; [discriminate|]; cbn [param_replace existsb fst] in *; destruct (beqb k n) eqn:Ek.
    + apply beqb_eq in Ek; subst k; unfold param_get; cbn [lookup]; destruct (beqb n m) eqn:Em; [reflexivity|].
      clear IH E; induction p as [|[k' x'] p IH]; [reflexivity|]; cbn [filter fst]; destruct (beqb k' n) eqn:Ek'; cbn [negb lookup].
      * apply beqb_eq in Ek'; subst k'; rewrite Em; exact IH.
      * destruct (beqb k' m); [reflexivity|exact IH].
    + unfold param_get in *; cbn [lookup orb] in *; destruct (beqb k m) eqn:Em; [|exact (IH E)].
      apply beqb_eq in Em; subst m; destruct (beqb n k) eqn:Enk; [|reflexivity].
      apply beqb_eq in Enk; subst k; rewrite beqb_refl in Ek; discriminate.
  - unfold param_get; induction p as [|[k x] p IH]; cbn [app lookup existsb fst] in *; [reflexivity|].
    destruct (beqb k n) eqn:Ek; [discriminate|]; destruct (beqb k m) eqn:Em; [|exact (IH E)].
    apply beqb_eq in Em; subst m; destruct (beqb n k) eqn:Enk; [|reflexivity].
    apply beqb_eq in Enk; subst k; rewrite beqb_refl in Ek; discriminate.
Qed.
Lemma set_texts p n v : texts p -> text n -> js_units v -> texts (param_set p n v).
Proof.
  intros Hp Hn Hv; unfold param_set; rewrite (usv_text n Hn); pose proof (usv_string_text v Hv) as Hw; set (w := usv_string v) in *; clearbody w.
  destruct (param_has p n); [|apply Forall_app; split; [exact Hp|repeat constructor; assumption]].
  induction Hp as [|[k x] p [Hk Hx] Hp IH]; [constructor|]; cbn [param_replace fst snd] in *; destruct (beqb k n).
  - constructor; [split; assumption|]; unfold texts; apply Forall_forall; intros e He; apply filter_In in He; destruct He as [He _].
    rewrite Forall_forall in Hp; apply Hp; exact He.
  - constructor; [split; assumption|exact IH].
Qed.
Lemma search_texts s : texts (search_params s).
Proof.
  unfold search_params, form_parse; apply Forall_forall; intros e He; apply in_flat_map in He; destruct He as (part & _ & He).
  unfold form_part in He; destruct part as [|b part]; [destruct He|]; destruct (cut_equals (b :: part)) as [n v].
  destruct He as [<-|[]]; split; apply utf8_string_text.
Qed.
Lemma get_text p n v : texts p -> param_get p n = Some v -> text v.
Proof.
  unfold param_get; intros Hp; induction Hp as [|[k x] p [_ Hx] Hp IH]; cbn [lookup]; [discriminate|].
  destruct (beqb k n); [intros E; injection E as <-; exact Hx|exact IH].
Qed.
Lemma app_lang_units sample p : texts p -> js_units sample -> js_units (app_lang sample p).
Proof.
  intros Hp Hs; unfold app_lang; destruct (param_get p (lit "lang")) as [l|] eqn:E; [|exact Hs].
  destruct (js_empty l); [exact Hs|]; apply text_units; exact (get_text _ _ _ Hp E).
Qed.
Lemma redirected_texts lang example p : texts p -> js_units lang -> (forall w, example = Some w -> js_units w) -> texts (redirected lang example p).
Proof.
  intros Hp Hl Hw; unfold redirected; set (p1 := if param_has p (lit "lang") then p else param_set p (lit "lang") lang).
  assert (texts p1) as H1 by (unfold p1; destruct (param_has p (lit "lang")); [exact Hp|apply set_texts; [exact Hp|exact lang_text|exact Hl]]).
  destruct example as [w|]; [|exact H1]; destruct (param_has p1 (lit "word")); [exact H1|]; apply set_texts; [exact H1|exact word_text|apply Hw; reflexivity].
Qed.

Definition good (a : address) : Prop :=
  texts (ad_first a) /\ (ad_shared a = true -> ad_first a = search_params (ad_search a)).
Lemma good_current a : good a -> current_params a = search_params (ad_search a).
Proof. intros [_ H]; unfold current_params; destruct (ad_shared a); auto. Qed.
Lemma good_navigate a s : good a -> good (navigate a s).
Proof.
  intros [H1 H2]; split; [exact H1|]; cbn [navigate ad_first ad_search ad_shared]; intros E; apply andb_true_iff in E; destruct E as [E1 E2].
  apply beqb_eq in E2; rewrite E2; exact (H2 E1).
Qed.
Lemma good_change lang word a : js_units lang -> js_units word -> good a -> good (handle_change lang word a).
Proof.
  intros Hl Hw [H1 _]; unfold handle_change; set (p := param_set _ _ word).
  assert (texts p) as Hp by (unfold p; repeat apply set_texts; auto using lang_text, word_text).
  split; [exact Hp|]; cbn [navigate ad_first ad_search ad_shared]; intros _; symmetry; apply C77_serialized; exact Hp.
Qed.
Lemma good_redirect lang example a : js_units lang -> (forall w, example = Some w -> js_units w) -> good a -> good (redirect lang example a).
Proof.
  intros Hl Hw Ha; unfold redirect; destruct (redirects example (current_params a)); [|exact Ha].
  assert (texts (redirected lang example (current_params a))) as Hp by (apply redirected_texts; [rewrite (good_current a Ha); apply search_texts|exact Hl|exact Hw]).
  split; cbn [navigate ad_first ad_search ad_shared].
  - destruct (ad_shared a); [exact Hp|apply Ha].
  - intros E; apply andb_true_iff in E; destruct E as [-> _]; symmetry; apply C77_serialized; exact Hp.
Qed.
Lemma visited_good a : visited a -> good a.
Proof.
  induction 1 as [search|a a' H IH Hs]; [split; [apply search_texts|reflexivity]|].
  destruct Hs as [sample example a Hsa Hex|lang word a Hl Hw|lang word a|lang word a|search a]; [|apply good_change; assumption|apply good_navigate; exact IH..].
  apply good_redirect; [|exact Hex|exact IH]; apply app_lang_units; [rewrite (good_current a IH); apply search_texts|exact Hsa].
Qed.

(** What the browser leaves as it is *)
Definition plain_char (c : N) : Prop := 0x20 < c /\ c <= 0x7E /\ ~ In c [0x22; 0x23; 0x27; 0x3C; 0x3E].
Lemma query_plain s : Forall plain_char s -> url_query s = s.
Proof.
  unfold plain_char; intros Hq; unfold url_query.
  assert (rev (drop_ends (rev s)) = s) as ->.
  { rewrite <- (rev_involutive s) at 2; f_equal; apply Forall_rev in Hq; destruct (rev s) as [|c l]; [reflexivity|].
    cbn [drop_ends]; unfold c0_or_space; inversion Hq as [|? ? H _]; subst; assert (c <=? 0x20 = false) as -> by lia; reflexivity. }
  unfold text_encode; induction Hq as [|c s (H1 & H2 & H3) Hq IH]; [reflexivity|]; cbn [filter].
  assert (existsb (N.eqb c) [0x9; 0xA; 0xD] = false) as -> by (cbn [existsb]; lia); cbn [negb usv].
  assert (is_high c = false) as -> by (unfold is_high; lia); assert (is_low c = false) as -> by (unfold is_low; lia).
  cbn [encode flat_map]; rewrite flat_map_app; unfold encode in IH; rewrite IH; unfold encode_rune; assert (c <=? 0x7F = true) as -> by lia.
  cbn [flat_map app]; unfold query_byte; cbn [In existsb] in *.
  assert (((c <=? 0x20) || (0x7E <? c) || ((c =? 0x22) || ((c =? 0x23) || ((c =? 0x27) || ((c =? 0x3C) || ((c =? 0x3E) || false))))))%bool = false) as -> by lia; reflexivity.
Qed.

(** *** What is typed *)
Theorem C77_typed : forall a lang word, visited a -> js_units lang -> js_units word -> usv_string lang <> [] ->
  let a' := handle_change lang word a in
  visited a' /\
  (forall sample, app_lang sample (current_params a') = usv_string lang) /\ app_word (current_params a') = usv_string word /\
  (forall example, redirect (usv_string lang) example a' = a') /\
  (* loaded again *)
  current_params (first_address (ad_search a')) = current_params a' /\ url_query (ad_search a') = ad_search a'.
Proof.
  intros a lang word Ha Hl Hw Hne a'; assert (visited a') as Ha' by (eapply visited_step; [exact Ha|constructor; assumption]).
  pose proof (visited_good a' Ha') as Hg; pose proof (good_current a' Hg) as Ec; split; [exact Ha'|].
  pose proof (visited_good a Ha) as [Ht _].
  set (p := param_set (param_set (ad_first a) (lit "lang") lang) (lit "word") word) in *.
  assert (texts p) as Hp by (unfold p; repeat apply set_texts; auto using lang_text, word_text).
  assert (current_params a' = p) as Ep by (rewrite Ec; unfold a', handle_change; cbn [navigate ad_search]; apply C77_serialized; exact Hp).
  assert (param_get p (lit "lang") = Some (usv_string lang)) as El.
  { unfold p; rewrite get_set by exact word_text; change (beqb (lit "word") (lit "lang")) with false; cbv iota.
    rewrite get_set by exact lang_text; reflexivity. }
  assert (param_get p (lit "word") = Some (usv_string word)) as Ew by (unfold p; rewrite get_set by exact word_text; reflexivity).
  rewrite Ep; split; [|split; [|split; [|split]]].
  - intros sample; unfold app_lang; rewrite El; destruct (usv_string lang); [contradiction|reflexivity].
  - unfold app_word; rewrite Ew; reflexivity.
  - intros example; unfold redirect; rewrite Ep; unfold redirects.
    rewrite (proj2 (has_get p (lit "lang")) (ex_intro _ _ El)), (proj2 (has_get p (lit "word")) (ex_intro _ _ Ew)); destruct example; reflexivity.
  - rewrite <- Ep, Ec; reflexivity.
  - unfold a', handle_change; cbn [navigate ad_search]; fold p.
    assert (Forall (fun c => form_char c \/ c = 0x26 \/ c = 0x3D \/ c = 0x3F) (params_search p)) as Hc.
    { constructor; [auto|]; assert (forall s, Forall (fun c => form_char c \/ c = 0x26 \/ c = 0x3D \/ c = 0x3F) (form_encode s)) as Hf
        by (intros s; eapply Forall_impl; [|apply form_encode_chars]; auto).
      clearbody p; clear - Hf; induction p as [|[n v] p IH]; [constructor|]; destruct p as [|e p].
      - cbn [form_serialize]; apply Forall_app; split; [apply Hf|constructor; [auto|apply Hf]].
      - change (form_serialize ((n, v) :: e :: p)) with (form_encode n ++ 0x3D :: form_encode v ++ 0x26 :: form_serialize (e :: p)).
        apply Forall_app; split; [apply Hf|]; constructor; [auto|]; apply Forall_app; split; [apply Hf|]; constructor; [auto|exact IH]. }
    assert (Forall (fun c => 0x20 < c /\ c <= 0x7E /\ ~ In c [0x22; 0x23; 0x27; 0x3C; 0x3E]) (params_search p)) as Hq.
    { eapply Forall_impl; [|exact Hc]; unfold form_char; cbn [In]; intros c H; lia. }
    exact (query_plain _ Hq).
Qed.
Print Assumptions C77_typed.

(** *** The first visit *)
Theorem C77_start_partial : forall a sample w, visited a -> text sample -> sample <> [] -> text w ->
  param_get (current_params a) (lit "lang") <> Some [] ->
  let lang := app_lang sample (current_params a) in
  let a' := redirect lang (Some w) a in
  visited a' /\ (forall sample', app_lang sample' (current_params a') = lang) /\
  app_word (current_params a') = match param_get (current_params a) (lit "word") with Some x => x | None => w end /\
  forall w', redirect lang w' a' = a'.
Proof.
  intros a sample w Ha Hs Hne Hw Hl lang a'.
  assert (visited a') as Ha' by (eapply visited_step; [exact Ha|]; apply step_redirect; [apply text_units; exact Hs|intros x E; injection E as <-; apply text_units; exact Hw]).
  pose proof (visited_good a Ha) as Hg; pose proof (good_current a' (visited_good a' Ha')) as Ec'; pose proof (good_current a Hg) as Ec.
  split; [exact Ha'|].
  assert (texts (current_params a)) as Ht by (rewrite Ec; apply search_texts).
  assert (text lang /\ lang <> []) as [Hlt Hln].
  { unfold lang, app_lang; destruct (param_get (current_params a) (lit "lang")) as [l|] eqn:E; [|auto].
    destruct l as [|u l]; [contradiction Hl; reflexivity|]; split; [exact (get_text _ _ _ Ht E)|discriminate]. }
  set (p := current_params a) in *; set (p' := redirected lang (Some w) p).
  assert (texts p') as Hp' by (apply redirected_texts; [exact Ht|apply text_units; exact Hlt|intros x E; injection E as <-; apply text_units; exact Hw]).
  assert (current_params a' = p') as Ep.
  { rewrite Ec'; unfold a', redirect; fold p; destruct (redirects (Some w) p) eqn:E; [cbn [navigate ad_search]; apply C77_serialized; exact Hp'|].
    rewrite <- Ec; unfold p', redirected; fold p; unfold redirects in E; destruct (param_has p (lit "lang")); [|discriminate].
    destruct (param_has p (lit "word")); [reflexivity|discriminate]. }
  assert (param_get p' (lit "lang") = Some lang /\ param_get p' (lit "word") = Some (match param_get p (lit "word") with Some x => x | None => w end)) as [El Ew].
  { unfold p', redirected; set (p1 := if param_has p (lit "lang") then p else param_set p (lit "lang") lang).
    assert (param_get p1 (lit "lang") = Some lang /\ param_get p1 (lit "word") = param_get p (lit "word")) as [L1 W1].
    { unfold p1; destruct (param_has p (lit "lang")) eqn:E.
      - apply has_get in E; destruct E as (l & E); split; [|reflexivity]; rewrite E; f_equal; unfold lang, app_lang; rewrite E.
        destruct l; [contradiction Hl; exact E|reflexivity].
      - rewrite !get_set by exact lang_text; rewrite (usv_text lang Hlt); split; reflexivity. }
    destruct (param_has p1 (lit "word")) eqn:E.
    - apply has_get in E; destruct E as (x & E); split; [exact L1|]; rewrite <- W1, E; reflexivity.
    - rewrite !get_set by exact word_text; split; [exact L1|]; rewrite <- W1.
      destruct (param_get p1 (lit "word")) eqn:Ex; [|rewrite (usv_text w Hw); reflexivity].
      rewrite (proj2 (has_get p1 (lit "word")) (ex_intro _ _ Ex)) in E; discriminate. }
  rewrite Ep; split; [|split].
  - intros sample'; unfold app_lang; rewrite El; destruct lang; [contradiction|reflexivity].
  - unfold app_word; rewrite Ew; reflexivity.
  - intros w'; unfold redirect; rewrite Ep; unfold redirects.
    rewrite (proj2 (has_get p' (lit "lang")) (ex_intro _ _ El)), (proj2 (has_get p' (lit "word")) (ex_intro _ _ Ew)); destruct w'; reflexivity.
Qed.
Print Assumptions C77_start_partial.
(** With an empty language in the address, every rendering is in another language. *)
Theorem C77_start_refuted : exists a, visited a /\
  forall sample w, let a' := redirect (app_lang sample (current_params a)) (Some w) a in
    a' = a /\ forall sample', app_lang sample' (current_params a') = sample'.
Proof.
  exists (first_address (lit "?lang=&word=a")); split; [constructor|]; intros sample w.
  assert (redirect (app_lang sample (current_params (first_address (lit "?lang=&word=a")))) (Some w) (first_address (lit "?lang=&word=a")) =
          first_address (lit "?lang=&word=a")) as E by (vm_compute; reflexivity).
  cbv zeta; rewrite E; split; [reflexivity|]; intros sample'; vm_compute; reflexivity.
Qed.
Print Assumptions C77_start_refuted.

(** The other parameters are those of the first rendering and of what was typed since. *)
Theorem C77_others_partial : forall a lang word m, visited a -> js_units lang -> js_units word -> m <> lit "lang" -> m <> lit "word" ->
  param_get (current_params (handle_change lang word a)) m = param_get (ad_first a) m /\
  (ad_shared a = true -> param_get (current_params (handle_change lang word a)) m = param_get (current_params a) m).
Proof.
  intros a lang word m Ha Hl Hw H1 H2; assert (visited (handle_change lang word a)) as Ha' by (eapply visited_step; [exact Ha|constructor; assumption]).
  assert (param_get (current_params (handle_change lang word a)) m = param_get (ad_first a) m) as E.
  { pose proof (visited_good a Ha) as [Ht _]; rewrite (good_current _ (visited_good _ Ha')); unfold handle_change; cbn [navigate ad_search].
    rewrite C77_serialized by (repeat apply set_texts; auto using lang_text, word_text).
    rewrite !get_set by (exact lang_text || exact word_text).
    assert (beqb (lit "word") m = false) as -> by (destruct (beqb (lit "word") m) eqn:E; [apply beqb_eq in E; congruence|reflexivity]).
    assert (beqb (lit "lang") m = false) as -> by (destruct (beqb (lit "lang") m) eqn:E; [apply beqb_eq in E; congruence|reflexivity]).
    reflexivity. }
  split; [exact E|]; intros Hs; rewrite E; unfold current_params; rewrite Hs; reflexivity.
Qed.
Print Assumptions C77_others_partial.
(** After a link, a parameter that the address does not have comes back. *)
Theorem C77_others_refuted : exists a lang word m, visited a /\ text lang /\ text word /\ m <> lit "lang" /\ m <> lit "word" /\
  param_get (current_params a) m = None /\ param_get (current_params (handle_change lang word a)) m <> None.
Proof.
  exists (navigate (first_address (lit "?lang=ita&word=ciao&x=1")) (parse_path (example_link (lit "ita") (lit "casa")))), (lit "ita"), (lit "ca"), (lit "x").
  split; [eapply visited_step; [constructor|apply step_link]|]; split; [apply lit_text; reflexivity|]; split; [apply lit_text; reflexivity|].
  split; [discriminate|]; split; [discriminate|]; split; [reflexivity|vm_compute; discriminate].
Qed.
Print Assumptions C77_others_refuted.

Example C77_example :
  (* typing a word with a sign of every kind *)
  let a := handle_change (lit "jpn") [0x41; 0x26; 0x20; 0x25; 0xAC00; 0xD83D; 0xDE00] (first_address (lit "?lang=eng&x=1")) in
  ad_search a = lit "?lang=jpn&x=1&word=A%26+%25%EA%B0%80%F0%9F%98%80" /\
  app_word (current_params a) = [0x41; 0x26; 0x20; 0x25; 0xAC00; 0xD83D; 0xDE00] /\
  (* a visit without a query *)
  ad_search (redirect (lit "ita") (Some (lit "ciao")) (first_address [])) = lit "?lang=ita&word=ciao".
Proof. vm_compute; auto. Qed.

(** ** C78 The links of the examples *)

Lemma utf16_app a ra b rb : utf16 a ra -> utf16 b rb -> utf16 (a ++ b) (ra ++ rb).
Proof. induction 1; intros Hb; [exact Hb|..]; cbn [app]; constructor; auto. Qed.
Lemma ascii_utf16 s : forallb (fun c => c <? 0x80) s = true -> utf16 s s.
Proof. induction s as [|c s IH]; [constructor|]; cbn [forallb]; intros H; apply andb_true_iff in H; constructor; [lia|apply IH, H]. Qed.
Lemma ascii_text_encode s : Forall (fun c => c < 0x80) s -> text_encode s = s.
Proof.
  intros Ha; unfold text_encode; induction Ha as [|c s Hc Ha IH]; [reflexivity|]; cbn [usv].
  assert (is_high c = false) as -> by (unfold is_high; lia); assert (is_low c = false) as -> by (unfold is_low; lia).
  cbn [encode flat_map]; unfold encode in IH; rewrite IH; unfold encode_rune; assert (c <=? 0x7F = true) as -> by lia; reflexivity.
Qed.
(** Letters, digits and hyphens stand in the address as they are, and a space as a plus. *)
Theorem C77_plain : forall s, Forall (fun c => 0x30 <= c <= 0x39 \/ 0x41 <= c <= 0x5A \/ 0x61 <= c <= 0x7A \/ c = 0x2D \/ c = 0x20) s ->
  form_encode s = map (fun c => if c =? 0x20 then 0x2B else c) s.
Proof.
  intros s H; unfold form_encode.
  assert (text_encode s = s) as ->.
  { apply ascii_text_encode; eapply Forall_impl; [|exact H]; cbn beta; intros c Hc; lia. }
  induction H as [|c s Hc H IH]; [reflexivity|]; cbn [flat_map map]; rewrite IH; unfold form_byte.
  destruct (c =? 0x20) eqn:E; [reflexivity|].
  assert (form_safe c = true) as -> by (unfold form_safe; cbn [existsb]; lia); reflexivity.
Qed.
Print Assumptions C77_plain.

Lemma ascii_in_encode c rs : c < 0x80 -> In c (encode rs) -> In c rs.
Proof.
  intros Hc; unfold encode; intros Hin; apply in_flat_map in Hin; destruct Hin as (r & Hr & Hin).
  assert (c = r) as ->; [|exact Hr]; unfold encode_rune in Hin; destruct (r <=? 0x7F) eqn:E1; [destruct Hin as [Hin|[]]; auto|].
  exfalso; destruct (r <=? 0x7FF) eqn:E2; [cbn [In] in Hin; lia|]; destruct (is_scalar r) eqn:Es; cbn [negb] in Hin; [|cbn [In] in Hin; lia].
  destruct (r <=? 0xFFFF); cbn [In] in Hin; lia.
Qed.

(** Some bytes may be percent-encoded. *)
Definition recodes (q : N -> bytes) : Prop := forall b, q b = [b] \/ q b = percent_byte b.
Lemma q_in q c b : recodes q -> b < 256 -> In c (q b) -> c = b \/ form_char c /\ c <> 0x2B.
Proof.
  intros q_ok Hb Hin; destruct (q_ok b) as [E|E]; rewrite E in Hin; [destruct Hin as [Hin|[]]; auto|right].
  assert (forall n, n < 16 -> form_char (hex_upper n) /\ hex_upper n <> 0x2B) as Hx
    by (intros n Hn; unfold hex_upper, form_char; destruct (n <? 10) eqn:En; lia).
  destruct Hin as [<-|[<-|[<-|[]]]]; [split; [right; right; right; cbn; tauto|discriminate]|..]; apply Hx;
    [apply N.div_lt_upper_bound; lia|apply N.mod_lt; lia].
Qed.
Lemma q_none q c s : recodes q -> Forall (fun b => b < 256) s -> (form_char c -> c = 0x2B) -> ~ In c s -> ~ In c (flat_map q s).
Proof.
  intros Hq Hs Hc Hn Hin; apply in_flat_map in Hin; destruct Hin as (b & Hb & Hin); rewrite Forall_forall in Hs.
  destruct (q_in q c b Hq (Hs b Hb) Hin) as [->|[Hf Hd]]; [exact (Hn Hb)|exact (Hd (Hc Hf))].
Qed.
Lemma q_decode q s : recodes q -> Forall (fun b => b < 256) s -> ~ In 0x25 s -> ~ In 0x2B s -> percent_decode (plus_space (flat_map q s)) = s.
Proof.
  intros q_ok H; induction H as [|b s Hb H IH]; intros H5 HB; [reflexivity|]; cbn [flat_map In] in *; unfold plus_space in *; rewrite map_app.
  specialize (IH ltac:(tauto) ltac:(tauto)); set (t := map _ (flat_map q s)) in *; clearbody t; destruct (q_ok b) as [->| ->].
  - cbn [map app]; assert (b =? 0x2B = false) as -> by lia.
    cbn [percent_decode]; assert (b =? 0x25 = false) as -> by lia; rewrite IH; reflexivity.
  - assert (b / 16 < 16 /\ b mod 16 < 16) as [H1 H2] by (split; [apply N.div_lt_upper_bound; lia|apply N.mod_lt; lia]).
    assert (forall n, n < 16 -> (if hex_upper n =? 0x2B then 0x20 else hex_upper n) = hex_upper n) as Hx
      by (intros n Hn; unfold hex_upper; destruct (n <? 10); [assert (0x30 + n =? 0x2B = false) as -> by lia|assert (0x37 + n =? 0x2B = false) as -> by lia]; reflexivity).
    unfold percent_byte; cbn [map app]; change (0x25 =? 0x2B) with false; cbv iota; rewrite !Hx by assumption.
    cbn [percent_decode]; change (0x25 =? 0x25) with true; cbv iota; rewrite !hex_upper_value by assumption.
    rewrite IH; f_equal; pose proof (N.div_mod b 16 ltac:(lia)); lia.
Qed.
Lemma q_read q s rs : recodes q -> utf16 s rs -> ~ In 0x25 rs -> ~ In 0x2B rs -> utf8_string (percent_decode (plus_space (flat_map q (encode rs)))) = s.
Proof.
  intros Hq H H5 HB; destruct (C72_to_go s rs H) as [E _]; rewrite q_decode; [|exact Hq|..].
  - unfold utf8_string; rewrite decoder_encode by (eapply utf16_scalars; exact H); symmetry; apply utf16_units; exact H.
  - rewrite <- E; apply text_encode_bytes.
  - intros Hin; apply H5, ascii_in_encode; [lia|exact Hin].
  - intros Hin; apply HB, ascii_in_encode; [lia|exact Hin].
Qed.
Lemma q_form q lang rl word rw : recodes q -> utf16 lang rl -> utf16 word rw ->
  Forall (fun r => ~ In r [0x25; 0x26; 0x2B]) (rl ++ rw) ->
  form_parse (lit "lang=" ++ flat_map q (encode rl) ++ lit "&word=" ++ flat_map q (encode rw)) = [(lit "lang", lang); (lit "word", word)].
Proof.
  intros Hq Hl Hw Hs; apply Forall_app in Hs; destruct Hs as [Sl Sw].
  assert (forall rs c, Forall (fun r => ~ In r [0x25; 0x26; 0x2B]) rs -> In c [0x25; 0x26; 0x2B] -> ~ In c rs) as Hno
    by (intros rs c H Hc Hin; rewrite Forall_forall in H; exact (H c Hin Hc)).
  assert (forall w rs, utf16 w rs -> Forall (fun r => ~ In r [0x25; 0x26; 0x2B]) rs -> ~ In 0x26 (flat_map q (encode rs))) as Hamp.
  { intros w rs H Hf; apply q_none; [exact Hq|..].
    - destruct (C72_to_go w rs H) as [<- _]; apply text_encode_bytes.
    - intros Hc; destruct (no_amp Hc).
    - intros Hin; apply ascii_in_encode in Hin; [|lia]; exact (Hno rs 0x26 Hf ltac:(cbn; tauto) Hin). }
  unfold form_parse.
  change (lit "&word=") with (0x26 :: lit "word="); cbn [app]; rewrite app_assoc, split_first.
  2: { intros Hin; apply in_app_or in Hin; destruct Hin as [Hin|Hin]; [cbn [lit In] in Hin; vm_compute in Hin; intuition discriminate|exact (Hamp lang rl Hl Sl Hin)]. }
  rewrite split_none.
  2: { intros Hin; apply in_app_or in Hin; destruct Hin as [Hin|Hin]; [vm_compute in Hin; intuition discriminate|exact (Hamp word rw Hw Sw Hin)]. }
  assert (forall name w rs, name <> [] -> text name -> ~ In 0x3D name -> ~ In 0x25 name -> ~ In 0x2B name -> utf8_string (percent_decode (plus_space name)) = name ->
    utf16 w rs -> Forall (fun r => ~ In r [0x25; 0x26; 0x2B]) rs -> form_part ((name ++ [0x3D]) ++ flat_map q (encode rs)) = [(name, w)]) as Hone.
  { intros name w rs Hn Ht H1 H2 H3 Hd H Hf; unfold form_part; rewrite <- app_assoc; cbn [app].
    assert (exists b l, name ++ 0x3D :: flat_map q (encode rs) = b :: l) as (b & l & E) by (destruct name; [contradiction|eexists; eexists; reflexivity]).
    rewrite E; rewrite <- E at 1; rewrite cut_first by exact H1; rewrite Hd, (q_read q w rs Hq H); [reflexivity|apply Hno; [exact Hf|cbn; tauto]..]. }
  change (lit "lang=") with (lit "lang" ++ [0x3D]).
  change (lit "word=") with (lit "word" ++ [0x3D]).
  cbn [flat_map]; rewrite (Hone (lit "lang") lang rl), (Hone (lit "word") word rw); try assumption; try reflexivity; try discriminate;
    try exact lang_text; try exact word_text; vm_compute; intuition discriminate.
Qed.

(** Text that is safe in a link *)
Definition link_safe (s : jstring) : Prop := text s /\ Forall (fun u => ~ In u [0x9; 0xA; 0xD; 0x23; 0x25; 0x26; 0x2B]) s.
Lemma parse_path_safe s : ~ In 0x23 s -> parse_path s = s.
Proof.
  induction s as [|u s IH]; intros H; [reflexivity|]; cbn [parse_path]; cbn [In] in H.
  assert (u =? 0x23 = false) as -> by (apply N.eqb_neq; intros ->; tauto); rewrite IH by tauto; reflexivity.
Qed.
Lemma utf16_low s rs : utf16 s rs -> forall c, c < 0x80 -> In c s <-> In c rs.
Proof.
  induction 1 as [|u s rs Hu H IH|h l s rs Hh Hl H IH]; intros c Hc; cbn [In]; [tauto|rewrite (IH c Hc); tauto|].
  rewrite (IH c Hc); split; [intros [E|[E|E]]; [lia|lia|tauto]|intros [E|E]; [lia|tauto]].
Qed.

Theorem C78_link_partial : forall a lang word search, visited a -> link_safe lang -> lang <> [] -> link_safe word ->
  (forall w u, word = w ++ [u] -> 0x20 < u) ->
  search = parse_path (example_link lang word) \/ search = url_query (parse_path (example_link lang word)) ->
  let a' := navigate a search in
  visited a' /\ (forall sample, app_lang sample (current_params a') = lang) /\ app_word (current_params a') = word /\
  (forall example, redirect lang example a' = a') /\
  (* loaded again *)
  forall again, again = search \/ again = url_query search -> current_params (first_address again) = current_params a'.
Proof.
  intros a lang word search Ha [[rl Hl] Sl] Hne [[rw Hw] Sw] Hlast Hsearch a'.
  assert (visited a') as Ha' by (eapply visited_step; [exact Ha|apply step_history]).
  split; [exact Ha'|].
  assert (~ In 0x23 (example_link lang word)) as Hh.
  { assert (forall s, Forall (fun u => ~ In u [0x9; 0xA; 0xD; 0x23; 0x25; 0x26; 0x2B]) s -> ~ In 0x23 s) as Hx
      by (intros s H Hin; rewrite Forall_forall in H; apply (H _ Hin); cbn; tauto).
    unfold example_link; intros Hin; repeat (apply in_app_or in Hin; destruct Hin as [Hin|Hin]);
      [vm_compute in Hin; intuition discriminate|exact (Hx _ Sl Hin)|vm_compute in Hin; intuition discriminate|exact (Hx _ Sw Hin)]. }
  rewrite (parse_path_safe _ Hh) in Hsearch; set (link := example_link lang word) in *.
  assert (Forall (fun r => ~ In r [0x25; 0x26; 0x2B]) (rl ++ rw)) as Sr.
  { assert (forall s rs, utf16 s rs -> Forall (fun u => ~ In u [0x9; 0xA; 0xD; 0x23; 0x25; 0x26; 0x2B]) s -> Forall (fun r => ~ In r [0x25; 0x26; 0x2B]) rs) as Hx.
    { intros s rs H Hf; apply Forall_forall; intros r Hr Hin; rewrite Forall_forall in Hf; apply (Hf r); [|cbn in *; tauto].
      apply (utf16_low s rs H); [cbn [In] in Hin; lia|exact Hr]. }
    apply Forall_app; split; [exact (Hx lang rl Hl Sl)|exact (Hx word rw Hw Sw)]. }
  (* the bytes of the link *)
  assert (utf16 link (lit "?lang=" ++ rl ++ lit "&word=" ++ rw)) as Hlink.
  { unfold link, example_link; repeat apply utf16_app; try assumption; apply ascii_utf16; reflexivity. }
  assert (text_encode link = lit "?lang=" ++ encode rl ++ lit "&word=" ++ encode rw) as Eb.
  { destruct (C72_to_go _ _ Hlink) as [-> _]; rewrite !encode_app; reflexivity. }
  assert (search_params link = [(lit "lang", lang); (lit "word", word)]) as R1.
  { assert (link = 0x3F :: (lit "lang=" ++ lang ++ lit "&word=" ++ word)) as E by reflexivity.
    unfold search_params; rewrite E; change (0x3F =? 0x3F) with true; cbv iota; rewrite E in Eb, Hlink.
    assert (text_encode (lit "lang=" ++ lang ++ lit "&word=" ++ word) = lit "lang=" ++ encode rl ++ lit "&word=" ++ encode rw) as ->.
    { assert (utf16 (lit "lang=" ++ lang ++ lit "&word=" ++ word) (lit "lang=" ++ rl ++ lit "&word=" ++ rw)) as H'
        by (repeat apply utf16_app; try assumption; apply ascii_utf16; reflexivity).
      destruct (C72_to_go _ _ H') as [-> _]; rewrite !encode_app; reflexivity. }
    assert (recodes (fun b => [b])) as Hrec by (intros b; left; reflexivity).
    pose proof (q_form _ lang rl word rw Hrec Hl Hw Sr) as H.
    assert (forall s : bytes, flat_map (fun b => [b]) s = s) as Ef by (induction s as [|b s IH]; [reflexivity|]; cbn [flat_map app]; rewrite IH; reflexivity).
    rewrite !Ef in H; exact H. }
  assert (url_query link = lit "?lang=" ++ flat_map query_byte (encode rl) ++ lit "&word=" ++ flat_map query_byte (encode rw)) as Eq.
  { unfold url_query.
    assert (rev (drop_ends (rev link)) = link) as ->.
    { rewrite <- (rev_involutive link) at 2; f_equal; unfold link, example_link; rewrite app_assoc, app_assoc, rev_app_distr.
      destruct word as [|u0 w0]; [rewrite rev_app_distr; reflexivity|]; destruct (@exists_last _ (u0 :: w0) ltac:(discriminate)) as (w1 & u1 & Ew).
      specialize (Hlast w1 u1 Ew); rewrite Ew, rev_app_distr; cbn [rev app drop_ends]; unfold c0_or_space.
      assert (u1 <=? 0x20 = false) as -> by lia; reflexivity. }
    assert (filter (fun u => negb (existsb (N.eqb u) [0x9; 0xA; 0xD])) link = link) as ->.
    { assert (forall s, Forall (fun u => ~ In u [0x9; 0xA; 0xD; 0x23; 0x25; 0x26; 0x2B]) s -> filter (fun u => negb (existsb (N.eqb u) [0x9; 0xA; 0xD])) s = s) as Hx.
      { intros s H; induction H as [|u s Hu H IH]; [reflexivity|]; cbn [filter existsb]; cbn [In] in Hu.
        assert (((u =? 0x9) || ((u =? 0xA) || ((u =? 0xD) || false)))%bool = false) as -> by lia; cbn [negb]; rewrite <- IH at 2; reflexivity. }
      unfold link, example_link; rewrite !filter_app, (Hx lang Sl), (Hx word Sw); reflexivity. }
    rewrite Eb, !flat_map_app; reflexivity. }
  assert (search_params (url_query link) = [(lit "lang", lang); (lit "word", word)]) as R2.
  { rewrite Eq; unfold search_params.
    change (lit "?lang=") with (0x3F :: lit "lang="); cbn [app]; change (0x3F =? 0x3F) with true; cbv iota.
    assert (forall s, Forall (fun c => c < 0x80) (flat_map query_byte s) \/ exists b, In b s /\ ~ b < 256) as Hasc.
    { induction s as [|b s IH]; [left; constructor|]; destruct IH as [IH|(b' & Hb & Hb')]; [|right; exists b'; cbn [In]; auto].
      destruct (b <? 256) eqn:E; [left|right; exists b; cbn [In]; split; [auto|lia]].
      cbn [flat_map]; apply Forall_app; split; [|exact IH]; unfold query_byte.
      assert (forall n, n < 16 -> hex_upper n < 0x80) as Hx by (intros n Hn; unfold hex_upper; destruct (n <? 10); lia).
      destruct ((b <=? 0x20) || (0x7E <? b) || existsb (N.eqb b) [0x22; 0x23; 0x27; 0x3C; 0x3E])%bool eqn:Eq'.
      - constructor; [lia|]; constructor; [apply Hx, N.div_lt_upper_bound; lia|]; constructor; [apply Hx, N.mod_lt; lia|constructor].
      - constructor; [lia|constructor]. }
    assert (forall s rs, utf16 s rs -> Forall (fun c => c < 0x80) (flat_map query_byte (encode rs))) as Ha8.
    { intros s rs H; destruct (Hasc (encode rs)) as [Hok|(b & Hb & Hb')]; [exact Hok|exfalso; apply Hb'].
      destruct (C72_to_go s rs H) as [E _]; pose proof (text_encode_bytes s) as Hbytes; rewrite E in Hbytes; rewrite Forall_forall in Hbytes; exact (Hbytes b Hb). }
    rewrite ascii_text_encode.
    - apply q_form; try assumption; intros b; unfold query_byte; destruct (_ || _)%bool; [right|left]; reflexivity.
    - assert (forall s, forallb (fun c => c <? 0x80) s = true -> Forall (fun c => c < 0x80) s) as Hlit
        by (intros s H; apply Forall_forall; intros c Hc; rewrite forallb_forall in H; specialize (H c Hc); lia).
      change (Forall (fun c => c < 0x80) (lit "lang=" ++ flat_map query_byte (encode rl) ++ lit "&word=" ++ flat_map query_byte (encode rw))).
      repeat (apply Forall_app; split); [apply Hlit; reflexivity|exact (Ha8 lang rl Hl)|apply Hlit; reflexivity|exact (Ha8 word rw Hw)]. }
  assert (search_params search = [(lit "lang", lang); (lit "word", word)]) as R by (destruct Hsearch as [->| ->]; assumption).
  assert (current_params a' = [(lit "lang", lang); (lit "word", word)]) as Ec by (rewrite (good_current a' (visited_good a' Ha')); exact R).
  rewrite Ec; split; [|split; [|split]].
  - intros sample; unfold app_lang; change (param_get [(lit "lang", lang); (lit "word", word)] (lit "lang")) with (Some lang); cbv iota; destruct lang; [contradiction|reflexivity].
  - reflexivity.
  - intros example; unfold redirect; rewrite Ec; destruct example; reflexivity.
  - intros again Hag; cbn [current_params first_address ad_shared ad_first]; unfold current_params; cbn [first_address ad_shared ad_first].
    assert (url_query (url_query link) = url_query link) as E2.
    { apply query_plain; rewrite Eq.
      assert (forall s, forallb (fun c => (0x20 <? c) && (c <=? 0x7E) && negb (existsb (N.eqb c) [0x22; 0x23; 0x27; 0x3C; 0x3E])) s = true -> Forall plain_char s) as Hlit.
      { intros s H; apply Forall_forall; intros c Hc; rewrite forallb_forall in H; specialize (H c Hc); cbn [existsb] in H; unfold plain_char; cbn [In]; lia. }
      assert (forall s rs, utf16 s rs -> Forall plain_char (flat_map query_byte (encode rs))) as Hval.
      { intros s rs H; destruct (C72_to_go s rs H) as [E _]; pose proof (text_encode_bytes s) as Hb; rewrite E in Hb; clear E.
        induction Hb as [|b l Hb Hbs IH]; [constructor|]; cbn [flat_map]; apply Forall_app; split; [|exact IH]; unfold query_byte.
        assert (forall n, n < 16 -> plain_char (hex_upper n)) as Hx by (intros n Hn; unfold hex_upper, plain_char; cbn [In]; destruct (n <? 10) eqn:En; lia).
        destruct ((b <=? 0x20) || (0x7E <? b) || existsb (N.eqb b) [0x22; 0x23; 0x27; 0x3C; 0x3E])%bool eqn:Eq'.
        - constructor; [unfold plain_char; cbn [In]; lia|]; constructor; [apply Hx, N.div_lt_upper_bound; lia|]; constructor; [apply Hx, N.mod_lt; lia|constructor].
        - constructor; [|constructor]; cbn [existsb] in Eq'; unfold plain_char; cbn [In]; lia. }
      change (Forall plain_char (lit "?lang=" ++ flat_map query_byte (encode rl) ++ lit "&word=" ++ flat_map query_byte (encode rw))).
      apply Forall_app; split; [apply Hlit; reflexivity|]; apply Forall_app; split; [exact (Hval lang rl Hl)|].
      apply Forall_app; split; [apply Hlit; reflexivity|exact (Hval word rw Hw)]. }
    destruct Hag as [->| ->]; [exact R|]; destruct Hsearch as [->| ->]; [exact R2|rewrite E2; exact R2].
Qed.
Print Assumptions C78_link_partial.
(** The link is not encoded: another word is looked up. *)
Theorem C78_link_refuted : exists lang word, text lang /\ text word /\ lang <> [] /\
  forall a search, visited a -> search = parse_path (example_link lang word) \/ search = url_query (parse_path (example_link lang word)) ->
    app_word (current_params (navigate a search)) <> word.
Proof.
  exists (lit "eng"), (lit "R&B"); split; [apply lit_text; reflexivity|]; split; [apply lit_text; reflexivity|]; split; [discriminate|].
  intros a search Ha Hs; assert (visited (navigate a search)) as Ha' by (eapply visited_step; [exact Ha|apply step_history]).
  rewrite (good_current _ (visited_good _ Ha')); cbn [navigate ad_search].
  destruct Hs as [->| ->]; vm_compute; discriminate.
Qed.
Print Assumptions C78_link_refuted.

(** The examples of the bundled languages *)
Theorem C78_bundled : forall lang src s0 w r a l word search, lookup bundled_files (specs_dir ++ lang ++ ext) = Some src ->
  parse_spec choices0 src = Ok s0 -> In (w, r) (s_test s0) -> visited a ->
  utf16 l (runes (l_id (s_lang s0))) -> utf16 word (runes w) ->
  search = parse_path (example_link l word) \/ search = url_query (parse_path (example_link l word)) ->
  let a' := navigate a search in
  (forall sample, app_lang sample (current_params a') = l) /\ app_word (current_params a') = word /\
  (forall example, redirect l example a' = a') /\
  forall again, again = search \/ again = url_query search -> current_params (first_address again) = current_params a'.
Proof.
  intros lang src s0 w r a l word search Es E0 Hin Ha Hl Hw Hs.
  pose proof bundled_fits as Hf; rewrite forallb_forall in Hf; specialize (Hf _ (PropBundled.lookup_in _ _ _ Es)).
  unfold file_fits in Hf; cbn [fst snd] in Hf; rewrite E0 in Hf; apply andb_true_iff in Hf; destruct Hf as [_ Hf].
  apply andb_true_iff in Hf; destruct Hf as [_ Hf]; apply andb_true_iff in Hf; destruct Hf as [_ Hf]; apply andb_true_iff in Hf; destruct Hf as [_ Hf].
  apply andb_true_iff in Hf; destruct Hf as [Hf _]; unfold spec_links in Hf; apply andb_true_iff in Hf; destruct Hf as [Hid Hf].
  assert (forall s b, In b (l_id (s_lang s0) :: map fst (s_test s0)) -> utf16 s (runes b) ->
    link_safe s /\ forall w u, s = w ++ [u] -> 0x20 < u) as Hsafe.
  { intros s b Hb Hu; rewrite forallb_forall in Hf; specialize (Hf b Hb); unfold link_safe_runes in Hf; apply andb_true_iff in Hf; destruct Hf as [H1 H2].
    split; [split; [eexists; exact Hu|]|].
    - apply Forall_forall; intros u Hin' Hbad; rewrite forallb_forall in H1.
      assert (In u (runes b)) as Hr by (apply (utf16_low _ _ Hu); [cbn [In] in Hbad; lia|exact Hin']).
      specialize (H1 u Hr); cbn [existsb] in H1; cbn [In] in Hbad; lia.
    - intros w0 u E; destruct (N.le_gt_cases u 0x20) as [Hle|Hgt]; [exfalso|exact Hgt].
      assert (utf16 (w0 ++ [u]) (runes b)) as Hu' by (rewrite <- E; exact Hu); clear - Hu' H2 Hle; revert Hu' H2; generalize (runes b); intros rs Hu'.
      assert (exists rs0, rs = rs0 ++ [u]) as (rs0 & ->).
      { remember (w0 ++ [u]) as x eqn:Ex; revert w0 Ex; induction Hu' as [|v s rs Hv H IH|h l s rs Hh Hl H IH]; intros w0 Ex.
        - destruct w0; discriminate.
        - destruct w0 as [|v0 w0]; [injection Ex as -> ->; inversion H; subst; exists []; reflexivity|].
          injection Ex as -> Ex; destruct (IH w0 Ex) as (rs0 & ->); exists (v0 :: rs0); reflexivity.
        - destruct w0 as [|v0 [|v1 w0]]; [discriminate Ex|apply (f_equal (fun x : list N => nth 1 x 0)) in Ex; cbn [nth app] in Ex; lia|].
          apply (f_equal (fun x : list N => tl (tl x))) in Ex; cbn [tl app] in Ex; destruct (IH w0 Ex) as (rs0 & ->); eexists (_ :: rs0); reflexivity. }
      rewrite rev_app_distr; cbn [rev app]; intros H2; apply N.ltb_lt in H2; unfold rune in *; lia. }
  destruct (Hsafe l _ (or_introl eq_refl) Hl) as [Sl _].
  destruct (Hsafe word w (or_intror (in_map fst _ _ Hin)) Hw) as [Sw Hlast].
  assert (l <> []) as Hne.
  { intros ->; inversion Hl as [Ex| |]; rewrite (runes_nil_inv (l_id (s_lang s0))) in Hid; [discriminate|congruence]. }
  exact (proj2 (C78_link_partial a l word search Ha Sl Hne Sw Hlast Hs)).
Qed.
Print Assumptions C78_bundled.
Example C78_example :
  let link := example_link (lit "jpn") [0xAC00; 0x20; 0x22; 0x3D] in
  url_query (parse_path link) = lit "?lang=jpn&word=%EA%B0%80%20%22=" /\
  app_word (current_params (navigate (first_address []) link)) = [0xAC00; 0x20; 0x22; 0x3D] /\
  app_word (current_params (navigate (first_address []) (url_query link))) = [0xAC00; 0x20; 0x22; 0x3D] /\
  (* C++ is read with spaces *)
  app_word (current_params (navigate (first_address []) (example_link (lit "eng") (lit "C++")))) = lit "C  ".
Proof. vm_compute; auto. Qed.
