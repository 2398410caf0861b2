(** What regular expressions mean, independently of how they are executed. *)
From Verif Require Import GoBase Utf8 Regex.
Open Scope N_scope.

(** [rmatch r pre mid post]: the expression [r] matches the characters [mid] of the
    text [pre ++ mid ++ post]. *)
Inductive rmatch : re -> list rune -> list rune -> list rune -> Prop :=
| M_empty pre post : rmatch REmpty pre [] post
| M_lit rs pre post : rmatch (RLit rs) pre rs post
| M_class ranges c pre post : in_set ranges c = true -> rmatch (RClass ranges) pre [c] post
| M_any_not_nl c pre post : c <> 10 -> c <= 0x10FFFF -> rmatch RAnyNotNL pre [c] post
| M_any c pre post : c <= 0x10FFFF -> rmatch RAny pre [c] post
| M_begin post : rmatch RBegin [] [] post
| M_end pre : rmatch REnd pre [] []
| M_cap i r pre mid post : rmatch r pre mid post -> rmatch (RCap i r) pre mid post
| M_star_none g r pre post : rmatch (RStar g r) pre [] post
| M_star_more g r pre a b post :
    rmatch r pre a (b ++ post) -> rmatch (RStar g r) (pre ++ a) b post ->
    rmatch (RStar g r) pre (a ++ b) post
| M_plus g r pre a b post :
    rmatch r pre a (b ++ post) -> rmatch (RStar g r) (pre ++ a) b post ->
    rmatch (RPlus g r) pre (a ++ b) post
| M_quest_none g r pre post : rmatch (RQuest g r) pre [] post
| M_quest_one g r pre mid post : rmatch r pre mid post -> rmatch (RQuest g r) pre mid post
| M_repeat g mn mx n r pre mid post :
    (mn <= n)%nat ->
    (* syntax.Parse rejects a maximum below the minimum *)
    match mx with Some m => (n <= Nat.max mn m)%nat | None => True end ->
    rmatch (RCat (repeat r n)) pre mid post -> rmatch (RRepeat g mn mx r) pre mid post
| M_cat_nil pre post : rmatch (RCat []) pre [] post
| M_cat_cons r l pre a b post :
    rmatch r pre a (b ++ post) -> rmatch (RCat l) (pre ++ a) b post ->
    rmatch (RCat (r :: l)) pre (a ++ b) post
| M_alt r l pre mid post : In r l -> rmatch r pre mid post -> rmatch (RAlt l) pre mid post.

(** The expression matches somewhere in the text. *)
Definition rmatch_in (r : re) (text : list rune) : Prop :=
  exists pre mid post, text = pre ++ mid ++ post /\ rmatch r pre mid post.
