(** * Property C66: answers depend on the documents, not on the order of events
    (text/baseindex.py, okapiindex.py, cosineindex.py, lexicon.py, textindex.py)

    Word ids depend on the order in which words first came up, and on the other users of
    the lexicon.  [same_texts a b]: the same documents with the same words, and the same
    counts.  [same_answers]: the same results of search, search_glob, query_weight and
    TextIndex.apply, scores included, and of search_phrase for the phrases described by
    [exact_phrase]. *)
From Verif Require Import Text S_indep S_textapi S_score L_costext L_indeptext L_textex IEEE L_ieee Arith SMap Ord.
Open Scope string_scope.
Open Scope list_scope.
Open Scope Z_scope.

(** C66: whatever the arithmetic, two Okapi indexes with the same documents give the same
    answers, to the last bit; unless [clear] was called, see C54; ... *)
Theorem C66_okapi : forall pipeline h1 h2, history_ok pipeline h1 -> history_ok pipeline h2 ->
  texts_small pipeline h1 -> texts_small pipeline h2 ->
  docs_of pipeline h1 = docs_of pipeline h2 -> words_cleared pipeline h1 = words_cleared pipeline h2 ->
  let a := okapi_state pipeline h1 in let b := okapi_state pipeline h2 in
  same_texts a b /\
  forall F (AF : Arith F) (K1 B : F),
    same_answers pipeline (python_search_wids K1 B) (okapi_query_weight pipeline K1)
      (fun q => exact_phrase (slx a) (docs_of pipeline h1) q /\ exact_phrase (slx b) (docs_of pipeline h1) q) a b.
Proof. exact okapi_indep. Qed.
Print Assumptions C66_okapi.
(** ... and so do two cosine indexes. *)
Theorem C66_cosine : forall pipeline F (AF : Arith F), SafeArith F -> SoundEq F ->
  forall h1 h2, history_ok pipeline h1 -> history_ok pipeline h2 -> docs_of pipeline h1 = docs_of pipeline h2 ->
  let a := cos_state (F := F) pipeline h1 in let b := cos_state (F := F) pipeline h2 in
  same_texts a b /\
  same_answers pipeline cos_search_wids (cos_query_weight pipeline)
    (fun q => exact_phrase (slx a) (docs_of pipeline h1) q /\ exact_phrase (slx b) (docs_of pipeline h1) q) a b.
Proof. exact cos_indep. Qed.
Print Assumptions C66_cosine.
(** IEEE 754 arithmetic is one such arithmetic (C65). *)
Example C66_ieee (ln : b64 -> b64) (H : sane_ln ln) pipeline :=
  C66_cosine pipeline b64 (Arith_b64 ln) (safe_b64 ln H) (sound_b64 ln).
(** While the ids of the words of the documents are below 128, all phrases are exact. *)
Theorem C66_small_ids : forall pipeline h q, history_ok pipeline h ->
  (forall w, In w (vocabulary (docs_of pipeline h)) -> get_wid (slx (okapi_state pipeline h)) w < 128) ->
  exact_phrase (slx (okapi_state pipeline h)) (docs_of pipeline h) q.
Proof. exact okapi_small_exact. Qed.
Print Assumptions C66_small_ids.

(** Two histories with the same documents and different word ids. *)
Definition other_hist : list top := [
  TIndex 2 (TxStr (txt "DOG")); TOther (LText (TxStr (txt "gnu")));
  TIndex 1 (TxStr (txt "Brown: dog/brown, the fox?"));
  TIndex 2 (TxStr (txt "quick quick dog")) ].
Example C66_ex :
  history_ok ascii_pipeline other_hist /\ texts_small ascii_pipeline other_hist /\
  docs_of ascii_pipeline ex_hist = docs_of ascii_pipeline other_hist /\
  words_cleared ascii_pipeline ex_hist = words_cleared ascii_pipeline other_hist /\
  (forall w, In w (vocabulary (docs_of ascii_pipeline other_hist)) -> get_wid (slx (okapi_state ascii_pipeline other_hist)) w < 128) /\
  get_words (six (okapi_state ascii_pipeline ex_hist)) 1 = Ok [2; 4; 2; 3] /\
  get_words (six (okapi_state ascii_pipeline other_hist)) 1 = Ok [3; 1; 3; 4].
Proof.
  split; [apply check_history_ok; vm_compute; reflexivity|]. split; [apply check_small_ok; vm_compute; reflexivity|].
  split; [apply elts_inj; vm_compute; reflexivity|]. split; [reflexivity|]. split; [|vm_compute; auto].
  intros w H. repeat (destruct H as [<-|H]; [vm_compute; reflexivity|]). destruct H.
Qed.

(** Without the condition, the answer to a phrase may depend on word ids: here the
    document is found by one index and not by the other, in every arithmetic. *)
Theorem C66_phrases_refuted : exists pipeline h1 h2 t,
  history_ok pipeline h1 /\ history_ok pipeline h2 /\ texts_small pipeline h1 /\ texts_small pipeline h2 /\
  docs_of pipeline h1 = docs_of pipeline h2 /\ words_cleared pipeline h1 = words_cleared pipeline h2 /\
  forall F (AF : Arith F), SafeArith F -> forall K1 B : F, OkapiSafe K1 B ->
  exists m1 m2, search_phrase pipeline (python_search_wids K1 B) (okapi_state pipeline h1) t = Ok m1 /\
    search_phrase pipeline (python_search_wids K1 B) (okapi_state pipeline h2) t = Ok m2 /\ mem 1 m1 = true /\ mem 1 m2 = false.
Proof. exact phrase_differs. Qed.
Print Assumptions C66_phrases_refuted.
