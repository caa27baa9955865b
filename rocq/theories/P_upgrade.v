(** * Property C75: text indexes stored by old releases (text/baseindex.py, okapiindex.py,
    lexicon.py)

    [stored_by a s]: the index [s] as stored by a release that did not have the counters
    named by [a].  [restored pipeline a h1 h2]: the history [h1], by which the stored index
    was made, followed by the history [h2] since; if the lexicon had no counter, it goes
    on from its number of words.  [o_okapi_run], [o_cos_run]: the methods with their code
    for old indexes.  All in S_upgrade.v and M_upgrade.v. *)
From Verif Require Import Text S_upgrade S_textapi M_upgrade L_upgrade L_textex RArith SMap Ord.
Open Scope string_scope.
Open Scope list_scope.
Open Scope Z_scope.

(** C75: no call raises; the contents are those of an index of the present release with
    the same history; the counters, once there, are right.  documentCount() is there as
    soon as a document was added or removed, wordCount() as soon as one was added or a
    word came or went. *)
Theorem C75_okapi : forall pipeline a h1 h2, history_ok pipeline (restored pipeline a h1 h2) ->
  let r := o_okapi_run pipeline h2 (stored_by a (okapi_state pipeline h1)) in
  snd r = Ok tt /\ same_contents (fst r) (okapi_state pipeline (restored pipeline a h1 h2)) /\ counts_after pipeline a h1 h2 (fst r).
Proof. exact okapi_old. Qed.
Print Assumptions C75_okapi.
Theorem C75_cosine : forall F (AF : Arith F), SafeArith F -> SoundEq F -> forall pipeline a h1 h2,
  history_ok pipeline (restored pipeline a h1 h2) ->
  let r := o_cos_run pipeline h2 (stored_by a (cos_state (F := F) pipeline h1)) in
  snd r = Ok tt /\ same_contents (fst r) (cos_state pipeline (restored pipeline a h1 h2)) /\ counts_after pipeline a h1 h2 (fst r).
Proof. exact @cos_old. Qed.
Print Assumptions C75_cosine.
Definition oldest := mkAge true true true true.
Example C75_ex :
  let h2 := [TIndex 1 (TxStr (txt "brown fox jumps")); TIndex 4 (TxStr (txt "zebra")); TUnindex 2] in
  let u := fst (o_okapi_run ascii_pipeline h2 (stored_by oldest (okapi_state ascii_pipeline ex_hist))) in
  history_ok ascii_pipeline (restored ascii_pipeline oldest ex_hist h2) /\
  counted (o_documentCount (o_ix (stored_by oldest (okapi_state ascii_pipeline ex_hist)))) = Raise NotImplementedError /\
  counted (o_documentCount (o_ix u)) = Ok 2 /\ counted (o_wordCount (o_ix u)) = Ok 4 /\ o_total (o_ix u) = TLength 4 /\
  counted (o_documentCount (o_ix (fst (o_okapi_run ascii_pipeline [TIndex 1 (TxStr (txt "brown fox jumps"))]
    (stored_by oldest (okapi_state ascii_pipeline ex_hist)))))) = Raise NotImplementedError /\
  counted (o_wordCount (o_ix (fst (o_okapi_run ascii_pipeline [TIndex 1 (TxStr (txt "brown fox jumps"))]
    (stored_by oldest (okapi_state ascii_pipeline ex_hist)))))) = Ok 5 /\
  counted (o_wordCount (o_ix (fst (o_okapi_run ascii_pipeline [TIndex 1 (TxStr (txt "fox brown fox"))]
    (stored_by oldest (okapi_state ascii_pipeline ex_hist)))))) = Raise NotImplementedError.
Proof. split; [apply check_history_ok; vm_compute; reflexivity|]. vm_compute. auto 10. Qed.
(** The documents are those of the two histories. *)
Theorem C75_documents : forall pipeline a h1 h2, docs_of pipeline (restored pipeline a h1 h2) = docs_of pipeline (h1 ++ h2).
Proof. exact docs_restored. Qed.
Print Assumptions C75_documents.

(** Searches and queries give what they would give in the present release: in a cosine
    index always; ... *)
Theorem C75_cosine_answers : forall F (AF : Arith F), SafeArith F -> SoundEq F -> forall pipeline a h1 h2,
  history_ok pipeline (restored pipeline a h1 h2) ->
  let u := fst (o_cos_run pipeline h2 (stored_by a (cos_state (F := F) pipeline h1))) in
  let s := cos_state pipeline (restored pipeline a h1 h2) in
  (forall t, search pipeline cos_search_wids (as_sys u) t = search pipeline cos_search_wids s t) /\
  (forall t, search_phrase pipeline cos_search_wids (as_sys u) t = search_phrase pipeline cos_search_wids s t) /\
  (forall p, search_glob cos_search_wids (as_sys u) p = search_glob cos_search_wids s p) /\
  (forall ts, cos_query_weight pipeline (as_sys u) ts = cos_query_weight pipeline s ts) /\
  (forall space upper qpipeline q start count,
     apply space upper qpipeline pipeline cos_search_wids (cos_query_weight pipeline) (as_sys u) q start count =
     apply space upper qpipeline pipeline cos_search_wids (cos_query_weight pipeline) s q start count).
Proof. exact @cos_old_answers. Qed.
Print Assumptions C75_cosine_answers.
(** ... in an Okapi index once documentCount() is there. *)
Theorem C75_okapi_answers : forall F (AF : Arith F) K1 B sw, okapi_version K1 B sw -> forall pipeline a h1 h2,
  history_ok pipeline (restored pipeline a h1 h2) ->
  no_documentCount a && negb (documents_change pipeline (docs_of pipeline h1) h2) = false ->
  let u := fst (o_okapi_run pipeline h2 (stored_by a (okapi_state pipeline h1))) in
  let s := okapi_state pipeline (restored pipeline a h1 h2) in
  (forall t, search pipeline (o_okapi_search_wids sw u) (as_sys u) t = search pipeline sw s t) /\
  (forall t, search_phrase pipeline (o_okapi_search_wids sw u) (as_sys u) t = search_phrase pipeline sw s t) /\
  (forall p, search_glob (o_okapi_search_wids sw u) (as_sys u) p = search_glob sw s p) /\
  (forall space upper qpipeline q start count,
     apply space upper qpipeline pipeline (o_okapi_search_wids sw u) (okapi_query_weight pipeline K1) (as_sys u) q start count =
     apply space upper qpipeline pipeline sw (okapi_query_weight pipeline K1) s q start count).
Proof. exact @okapi_old_answers. Qed.
Print Assumptions C75_okapi_answers.
Example C75_answers_ex :
  let h2 := [TIndex 4 (TxStr (txt "zebra fox"))] in
  let u := fst (o_okapi_run ascii_pipeline h2 (stored_by oldest (okapi_state ascii_pipeline ex_hist))) in
  history_ok ascii_pipeline (restored ascii_pipeline oldest ex_hist h2) /\
  no_documentCount oldest && negb (documents_change ascii_pipeline (docs_of ascii_pipeline ex_hist) h2) = false /\
  rmap (option_map keys) (search (F := Z) ascii_pipeline (o_okapi_search_wids (python_search_wids 1 0) u) (as_sys u) (TxStr (txt "fox"))) = Ok (Some [1; 4]).
Proof. split; [apply check_history_ok; vm_compute; reflexivity|]. vm_compute. auto. Qed.
(** Until then a search for a word of the documents raises; the other searches may. *)
Theorem C75_okapi_raises : forall F (AF : Arith F) K1 B sw, okapi_version K1 B sw -> forall pipeline a h1 h2,
  history_ok pipeline (restored pipeline a h1 h2) ->
  no_documentCount a = true -> documents_change pipeline (docs_of pipeline h1) h2 = false ->
  let u := fst (o_okapi_run pipeline h2 (stored_by a (okapi_state pipeline h1))) in
  let s := okapi_state pipeline (restored pipeline a h1 h2) in
  (forall t, (exists w, In w (text_words pipeline t) /\ In w (vocabulary (docs_of pipeline (h1 ++ h2)))) ->
     search pipeline (o_okapi_search_wids sw u) (as_sys u) t = Raise NotImplementedError) /\
  (forall t, (forall w, In w (text_words pipeline t) -> ~ In w (vocabulary (docs_of pipeline (h1 ++ h2)))) ->
     search pipeline (o_okapi_search_wids sw u) (as_sys u) t = search pipeline sw s t) /\
  (forall t, search_phrase pipeline (o_okapi_search_wids sw u) (as_sys u) t = search_phrase pipeline sw s t \/
             search_phrase pipeline (o_okapi_search_wids sw u) (as_sys u) t = Raise NotImplementedError) /\
  (forall p, search_glob (o_okapi_search_wids sw u) (as_sys u) p = search_glob sw s p \/
             search_glob (o_okapi_search_wids sw u) (as_sys u) p = Raise NotImplementedError).
Proof. exact @okapi_old_raises. Qed.
Print Assumptions C75_okapi_raises.
(** So an Okapi index stored by an old release does not always answer: neither before any
    call, nor after a document was indexed again. *)
Theorem C75_refuted : exists pipeline a h1 h2 t, history_ok pipeline (restored pipeline a h1 h2) /\
  (exists d text, h2 = [TIndex d text]) /\ mem 1 (docs_of pipeline (h1 ++ h2)) = true /\
  forall F (AF : Arith F) K1 B sw, okapi_version K1 B sw ->
  let before := stored_by a (okapi_state pipeline h1) in
  let after := fst (o_okapi_run pipeline h2 before) in
  search pipeline (o_okapi_search_wids sw before) (as_sys before) t = Raise NotImplementedError /\
  search pipeline (o_okapi_search_wids sw after) (as_sys after) t = Raise NotImplementedError.
Proof.
  exists ascii_pipeline, oldest, ex_hist, [TIndex 1 (TxStr (txt "brown fox"))], (TxStr (txt "brown")).
  split; [apply check_history_ok; vm_compute; reflexivity|]. split; [eauto|]. split; [vm_compute; reflexivity|].
  intros F AF K1 B sw Hv. split.
  - apply (okapi_old_raises K1 B sw Hv ascii_pipeline oldest ex_hist []); [apply check_history_ok; vm_compute; reflexivity|reflexivity|reflexivity|].
    exists (txt "brown"). split; vm_compute; auto.
  - apply (okapi_old_raises K1 B sw Hv ascii_pipeline oldest ex_hist _); [apply check_history_ok; vm_compute; reflexivity|reflexivity|vm_compute; reflexivity|].
    exists (txt "brown"). split; vm_compute; auto.
Qed.
Print Assumptions C75_refuted.
