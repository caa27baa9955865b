(** * C84 in IEEE 754 arithmetic

    [Arith_b64 ln] is binary64 arithmetic with binary32 storage in BTrees and the logarithm
    [ln] (C65); [b64_same] tells whether two binary64 numbers are the same. *)
From Verif Require Import Arith IEEE L_ieee S_textapi S_zcos M_zcos L_ztextex L_zcieee S_text SMap Ord.

Example b64_same_ex : forall x y, b64_same x y = true <-> x = y.
Proof. exact b64_same_eq. Qed.
(** Whatever the texts: every committed version cannot be told apart from the index of a
    single client with the same documents. *)
Theorem C84_ieee : forall ln, sane_ln ln -> forall pipeline schedule st, cos_schedule_ok pipeline schedule ->
  In st (zc_run (AF := Arith_b64 ln) b64_same pipeline schedule) ->
  exists h, history_ok pipeline h /\ no_clear h /\ docs_of pipeline h = documents (zt_sys st) /\
    cos_same (AF := Arith_b64 ln) pipeline (cos_state (AF := Arith_b64 ln) pipeline h) (zt_sys st).
Proof. exact zc_ieee. Qed.
Print Assumptions C84_ieee.
(** A schedule of three transactions that commit, two of them concurrent. *)
Example C84_ieee_used :
  sane_ln some_ln /\ cos_schedule_ok id_pipeline zc_revived /\
  b64_same (f32 (Arith := Arith_b64 some_ln) old_weight) (f32 (Arith := Arith_b64 some_ln) new_weight) = true /\
  length (zc_run (AF := Arith_b64 some_ln) b64_same id_pipeline zc_revived) = 4%nat /\
  forall st, hd_error (zc_run (AF := Arith_b64 some_ln) b64_same id_pipeline zc_revived) = Some st ->
    get (documents (zt_sys st)) 1 = Some (text_words id_pipeline new_text) /\ zc_word_97 st = Some (true, true, false).
Proof. exact zc_old_weight. Qed.
(** The weights that a version has stored, in a dict, which keeps them as they are computed,
    need not be those of its documents: a merge may bring back the weight of a word in an old text of a document, if only by digits that
    are dropped when the weight is read. *)
Theorem C84_stored_weights_refuted : exists ln, sane_ln ln /\ exists schedule st d w ws p v, cos_schedule_ok id_pipeline schedule /\
  In st (zc_run (AF := Arith_b64 ln) b64_same id_pipeline schedule) /\ get (documents (zt_sys st)) d = Some ws /\
  get (wordinfo (six (zt_sys st))) (get_wid (slx (zt_sys st)) w) = Some p /\ p_dict p = true /\ get (p_map p) d = Some v /\
  v <> cosine_weight (AF := Arith_b64 ln) w ws.
Proof. exact zc_stored. Qed.
Print Assumptions C84_stored_weights_refuted.
