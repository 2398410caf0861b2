(** Properties C32 and C33: internal/subword. *)
From Coq Require Import String.
From Verif Require Import GoBase Utf8 Utf8Facts Subword SubwordFacts.
Open Scope Z_scope.

(** ** C32 Merging subwords loses nothing

    Specification: a piece is a text with a level; [tagged] (SubwordFacts.v) lists every
    byte of a sequence of pieces with its level; [levels_alternate] says that no two
    neighbours have the same level. *)

(** The text is kept for every sequence of pieces. *)
Theorem C32_text_kept : forall pieces,
  concat (map sw_word (builder_subwords pieces)) = concat (map sw_word pieces).
Proof. exact builder_text. Qed.
Print Assumptions C32_text_kept.

(** With levels other than the sentinel -1 (the procedure only uses levels >= 0) every byte
    keeps its level too and neighbours never have the same level. *)
Theorem C32_merging : forall pieces,
  Forall (fun p => 0 <= sw_level p) pieces ->
  tagged (builder_subwords pieces) = tagged pieces /\
  levels_alternate (builder_subwords pieces).
Proof.
  intros pieces H.
  assert (Forall (fun p => sw_level p <> -1) pieces) as H'
    by (eapply Forall_impl; [|exact H]; cbn; lia).
  exact (conj (builder_tagged pieces H') (builder_alternates pieces H')).
Qed.
Print Assumptions C32_merging.

Definition piece (w : string) (l : Z) : subword := {| sw_word := lit w; sw_level := l |}.

Example C32_merging_example :
  let ps := [piece "ab" 0; piece "c" 0; piece "" 1; piece "de" 1; piece "f" 0] in
  Forall (fun p => 0 <= sw_level p) ps /\
  builder_subwords ps = [piece "abc" 0; piece "de" 1; piece "f" 0].
Proof. split; [repeat constructor; cbn; lia|reflexivity]. Qed.

(** Level -1 is the internal "nothing merged yet" mark: with it neighbours can keep the
    same level and a piece can change its level. *)
Theorem C32_negative_level_refuted : exists pieces,
  ~ levels_alternate (builder_subwords pieces) /\
  tagged (builder_subwords pieces) <> tagged pieces.
Proof.
  exists [piece "a" 0; piece "b" (-1); piece "c" 0]; split.
  - cbn; intros [H _]; apply H; reflexivity.
  - cbn; discriminate.
Qed.
Print Assumptions C32_negative_level_refuted.

(** ** C33 Replacing keeps text and levels aligned

    Specification: a word is a list of characters with levels ([cells]).  A round cuts the
    word into consecutive segments, each kept or replaced by new characters ([round]);
    [before] is the word that is cut, [after] the word that results, where new characters
    carry the new level and kept ones their own.  [repls_of] are the byte ranges and texts
    that a caller hands to ReplaceBy for the round. *)

(** [run_round] is ReplaceBy followed by String; [chained] says that each round is cut
    from the word the one before left; [final] is the word after all rounds. *)
Theorem C33_rounds : forall w prev next rds,
  scalars w -> Forall scalar_round rds ->
  chained next (map (fun ch => (ch, prev)) w) rds ->
  let result := final next (map (fun ch => (ch, prev)) w) rds in
  exists r sws,
    fold_left run_round rds (Ok (new_replacer (encode w) prev next)) = Ok r
    /\ replacer_string r = Ok (r, encode (map fst result))
    /\ replacer_subwords r = Ok (r, sws)
    /\ flat_map (fun sw => map (fun ch => (ch, sw_level sw)) (runes (sw_word sw))) sws = result
    /\ levels_alternate sws
    /\ Forall (fun sw => sw_word sw <> []) sws
    /\ Forall (fun sw => utf8_text (sw_word sw)) sws.
Proof. exact replacer_rounds. Qed.
Print Assumptions C33_rounds.

(** On raw bytes (also ill-formed UTF-8): ordered in-range replacements never panic, and
    every byte of the result carries the level it should. *)
Theorem C33_bytes : forall r,
  length (rr_levels r) = length (rr_word r) ->
  ordered_repls (len (rr_word r)) 0 (rr_repls r) ->
  exists r', commit r = Ok r' /\ rr_repls r' = [] /\ rr_next r' = rr_next r
    /\ length (rr_levels r') = length (rr_word r')
    /\ combine (rr_word r') (rr_levels r')
       = apply_repls (combine (rr_word r) (rr_levels r)) (rr_next r) 0 (rr_repls r).
Proof. exact commit_ok. Qed.
Print Assumptions C33_bytes.

Definition ex_round : round :=
  [([(104%N, 0)], None); ([(233%N, 0); (108%N, 0)], Some [44032; 44033]%N); ([(111%N, 0)], None);
   ([], Some [33]%N)].
Example C33_example :
  scalars [104; 233; 108; 111]%N /\ Forall scalar_round [ex_round] /\
  chained 7 (map (fun ch => (ch, 0)) [104; 233; 108; 111]%N) [ex_round] /\
  (exists r, fold_left run_round [ex_round] (Ok (new_replacer (encode [104; 233; 108; 111]%N) 0 7))
             = Ok r /\ replacer_subwords r
             = Ok (r, [piece "h" 0; {| sw_word := encode [44032; 44033]%N; sw_level := 7 |};
                       piece "o" 0; piece "!" 7])).
Proof.
  split; [repeat constructor|]; split; [repeat constructor|].
  split; [cbn; auto|eexists; split; reflexivity].
Qed.
