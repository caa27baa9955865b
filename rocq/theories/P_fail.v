(** * Property C67: calls of index_doc that fail
    (text/baseindex.py, okapiindex.py, cosineindex.py)

    [FFail d e l] in a history: index_doc(d, text) was called with a text for which
    sourceToWordIds raises [e], after doing [l] to the lexicon; the caller went on.
    [successful h]: the history without those calls.  [cos_frun], [okapi_frun]: the index
    after the history with them. *)
From Coq Require Import Reals.Rdefinitions.
From Verif Require Import Text S_fail S_textapi S_score L_fail L_costext L_textex RArith IEEE Arith SMap Ord.
Open Scope string_scope.
Open Scope list_scope.
Open Scope Z_scope.

(** C67: the call raises the exception of the lexicon, and the cosine index is as if it
    had not been called; ... *)
Theorem C67_cosine : forall F (AF : Arith F), SafeArith F -> SoundEq F -> forall pipeline h,
  history_ok pipeline (successful h) ->
  cos_frun (F := F) pipeline h = (cos_state pipeline (successful h), Ok tt) /\
  forall d e l, snd (cos_index_doc_with d (failing pipeline e l) (cos_state (F := F) pipeline (successful h))) = Raise e.
Proof. exact @cos_fail. Qed.
Print Assumptions C67_cosine.
(** ... the Okapi index is as if it had not been called, except that its total document
    length has lost the words of the documents that were not replaced; ... *)
Theorem C67_okapi : forall pipeline h, history_ok pipeline (successful h) -> texts_small pipeline (successful h) ->
  okapi_frun pipeline h = (add_total (- words_lost pipeline h) (okapi_state pipeline (successful h)), Ok tt) /\
  forall d e l, snd (okapi_index_doc_with d (failing pipeline e l) (fst (okapi_frun pipeline h))) = Raise e.
Proof. exact okapi_fail. Qed.
Print Assumptions C67_okapi.
(** ... which does not change what is found as long as that length is positive. *)
Theorem C67_okapi_found : forall F (AF : Arith F), SafeArith F -> forall K1 B : F, OkapiSafe K1 B ->
  forall pipeline h t, history_ok pipeline (successful h) -> texts_small pipeline (successful h) ->
  words_lost pipeline h < total_words (docs_of pipeline (successful h)) + words_cleared pipeline (successful h) ->
  text_words pipeline t <> [] -> exists m,
    search pipeline (python_search_wids K1 B) (fst (okapi_frun pipeline h)) t = Ok (Some m) /\
    forall d, mem d m = true <-> exists ws, get (docs_of pipeline (successful h)) d = Some ws /\ has_some (text_words pipeline t) ws.
Proof. exact @failed_found. Qed.
Print Assumptions C67_okapi_found.

(** Two failed calls, for a document of the index and for a new one. *)
Definition some_failed : list fop := [
  FOp (TIndex 1 (TxStr (txt "quick brown fox"))); FFail 1 TypeError [LText (TxStr (txt "gnu"))];
  FOp (TIndex 2 (TxStr (txt "lazy dog"))); FFail 3 TypeError []; FOp (TIndex 1 (TxStr (txt "gnu"))) ].
Example C67_ex :
  history_ok ascii_pipeline (successful some_failed) /\ texts_small ascii_pipeline (successful some_failed) /\
  words_lost ascii_pipeline some_failed = 3 /\ total_words (docs_of ascii_pipeline (successful some_failed)) = 3 /\
  totaldoclen (six (fst (okapi_frun ascii_pipeline some_failed))) = 0 /\
  get_words (six (fst (okapi_frun ascii_pipeline some_failed))) 1 = Ok [4] /\
  words_lost ascii_pipeline (some_failed ++ [FOp (TIndex 3 (TxStr (txt "fox")))]) <
  total_words (docs_of ascii_pipeline (successful (some_failed ++ [FOp (TIndex 3 (TxStr (txt "fox")))]))).
Proof.
  split; [apply check_history_ok; vm_compute; reflexivity|]. split; [apply check_small_ok; vm_compute; reflexivity|].
  repeat (split; [vm_compute; reflexivity|]). vm_compute. reflexivity.
Qed.

(** That an update which failed has no effect is false of the Okapi index: afterwards a
    search for a word of the documents may raise ZeroDivisionError. *)
Theorem C67_no_effect_refuted : exists pipeline h t, history_ok pipeline (successful h) /\ texts_small pipeline (successful h) /\
  (forall F (AF : Arith F), SafeArith F -> forall K1 B : F, OkapiSafe K1 B ->
     exists m, search pipeline (python_search_wids K1 B) (okapi_state pipeline (successful h)) t = Ok m) /\
  forall F (AF : Arith F), SafeArith F -> feqb (fdiv (fofZ 0) (fofZ 1)) f0 = true -> forall K1 B : F,
  search pipeline (python_search_wids K1 B) (fst (okapi_frun pipeline h)) t = Raise ZeroDivisionError.
Proof. exact failed_refuted. Qed.
Print Assumptions C67_no_effect_refuted.
(** 0/1 is 0 in real and in floating point numbers. *)
Example C67_zero : feqb (fdiv (fofZ 0) (fofZ 1) : R) f0 = true /\
  forall ln, feqb (Arith := Arith_b64 ln) (fdiv (Arith := Arith_b64 ln) (fofZ (Arith := Arith_b64 ln) 0) (fofZ (Arith := Arith_b64 ln) 1)) (f0 (Arith := Arith_b64 ln)) = true.
Proof. exact zero_zero. Qed.

(** Nor does an index_doc that fails because word ids have run out (2^28) leave things as
    they were: the document is found, although the index does not have it and
    unindex_doc does not remove it. *)
Theorem C67_ids_exhausted_refuted : exists pipeline h d t, history_ok pipeline h /\ texts_small pipeline h /\
  let r := okapi_index_doc pipeline d t (okapi_state pipeline h) in
  snd r = Raise AssertionError /\ has_doc (six (fst r)) d = false /\
  okapi_unindex_doc d (fst r) = (fst r, Ok tt) /\
  forall F (AF : Arith F), SafeArith F -> forall K1 B : F, OkapiSafe K1 B ->
  exists m, search pipeline (python_search_wids K1 B) (fst r) t = Ok (Some m) /\ mem d m = true.
Proof. exact half_way. Qed.
Print Assumptions C67_ids_exhausted_refuted.
