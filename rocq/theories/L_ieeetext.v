(** * Text indexes in IEEE arithmetic *)
From Verif Require Import Text S_textapi S_score S_tree S_parser S_split S_textindex L_textindex L_textapi L_costext Arith IEEE L_ieee SMap Ord.

Section Ieee.
  Variable ln : b64 -> b64.
  Hypothesis Hln : sane_ln ln.
  Definition okapi_queries_b64 space upper (Hs : space 45 = false) word_char lower Hw Hn Hl h query start count Hh Ht :=
    @default_okapi b64 (Arith_b64 ln) (safe_b64 ln Hln) space upper Hs word_char lower Hw Hn Hl K1_b64 B_b64 (okapi_constants ln) h query start count Hh Ht.
  Definition cosine_queries_b64 space upper (Hs : space 45 = false) word_char lower Hw Hn Hl h query start count Hh :=
    @default_cosine b64 (Arith_b64 ln) (safe_b64 ln Hln) space upper Hs word_char lower Hw Hn Hl (sound_b64 ln) h query start count Hh.
  Definition cosine_updates_b64 pipeline h Hh := @cos_no_raise b64 (Arith_b64 ln) (safe_b64 ln Hln) (sound_b64 ln) pipeline h Hh.
End Ieee.
