(** The embedded file system specs/*.hsl (specs.go:15-16). Generated by tools/gen_bundled.py. *)
From Coq Require Import String.
From Verif Require Import GoBase BString.
From Verif Require Export Bundled1 Bundled2 Bundled3 Bundled4 Bundled5 Bundled6 Bundled7 Bundled8.

Definition bundled : list (bytes * list bstr) :=
  [ (lit "aze", src_aze);
    (lit "bel", src_bel);
    (lit "bul", src_bul);
    (lit "cat", src_cat);
    (lit "ces", src_ces);
    (lit "chi", src_chi);
    (lit "cym", src_cym);
    (lit "deu", src_deu);
    (lit "ell", src_ell);
    (lit "epo", src_epo);
    (lit "est", src_est);
    (lit "fin", src_fin);
    (lit "grc", src_grc);
    (lit "hbs", src_hbs);
    (lit "hun", src_hun);
    (lit "isl", src_isl);
    (lit "ita", src_ita);
    (lit "jpn", src_jpn);
    (lit "jpn-ck", src_jpn_ck);
    (lit "kat-1", src_kat_1);
    (lit "kat-2", src_kat_2);
    (lit "lat", src_lat);
    (lit "lav", src_lav);
    (lit "lit", src_lit);
    (lit "mkd", src_mkd);
    (lit "nld", src_nld);
    (lit "pol", src_pol);
    (lit "por", src_por);
    (lit "por-br", src_por_br);
    (lit "ron", src_ron);
    (lit "rus", src_rus);
    (lit "slk", src_slk);
    (lit "slv", src_slv);
    (lit "spa", src_spa);
    (lit "sqi", src_sqi);
    (lit "swe", src_swe);
    (lit "tur", src_tur);
    (lit "ukr", src_ukr);
    (lit "vie", src_vie);
    (lit "wlm", src_wlm) ].
