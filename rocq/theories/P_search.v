(** * Properties C55-C58 and C62: searching text indexes (text/baseindex.py,
    okapiindex.py, okascore.c, cosineindex.py)

    [docs_of], [history_ok], [texts_small]: see P_text.v.  [text_words pipeline t] are
    the words of a text or query term.  The statements about documents hold for every
    arithmetic in which the code does not divide by zero ([SafeArith], [OkapiSafe]);
    those about scores for exact arithmetic. [words_score c q ws] is the sum of
    [c w ws] over the words [w] of [q] that occur in [ws]; [bm25] and [cosine] are the
    textbook formulas (S_score.v). *)
From Verif Require Import Text S_textapi S_score L_textapi L_costext L_textex L_searchex RArith SMap Ord.
Open Scope string_scope.
Open Scope list_scope.
Open Scope Z_scope.

(** C55: search(term) returns None if there are no words in the term and otherwise
    exactly the documents in which one of the words of the term occurs. *)
Theorem C55_okapi_documents : forall F (AF : Arith F), SafeArith F -> forall K1 B : F, OkapiSafe K1 B ->
  forall pipeline h t, history_ok pipeline h -> texts_small pipeline h ->
  (text_words pipeline t = [] ->
     search pipeline (python_search_wids K1 B) (okapi_state pipeline h) t = Ok None) /\
  (text_words pipeline t <> [] -> exists m,
     search pipeline (python_search_wids K1 B) (okapi_state pipeline h) t = Ok (Some m) /\
     forall d, mem d m = true <-> exists ws, get (docs_of pipeline h) d = Some ws /\ has_some (text_words pipeline t) ws).
Proof. exact @okapi_search_docs. Qed.
Print Assumptions C55_okapi_documents.
Theorem C55_cosine_documents : forall F (AF : Arith F), SafeArith F -> SoundEq F ->
  forall pipeline h t, history_ok pipeline h ->
  (text_words pipeline t = [] -> search pipeline cos_search_wids (cos_state (F := F) pipeline h) t = Ok None) /\
  (text_words pipeline t <> [] -> exists m,
     search pipeline cos_search_wids (cos_state (F := F) pipeline h) t = Ok (Some m) /\
     forall d, mem d m = true <-> exists ws, get (docs_of pipeline h) d = Some ws /\ has_some (text_words pipeline t) ws).
Proof. exact @cos_search_docs. Qed.
Print Assumptions C55_cosine_documents.

(** C55: the score of a document is the sum of the scores of the words it contains.
    (After [clear] the total length is wrong, see C54.) *)
Theorem C55_okapi_scores : forall F (AF : Arith F), SafeArith F -> forall K1 B : F, OkapiSafe K1 B ->
  forall pipeline, ExactArith F ->
  forall h t m d ws, history_ok pipeline h -> texts_small pipeline h ->
  search pipeline (python_search_wids K1 B) (okapi_state pipeline h) t = Ok (Some m) -> get (docs_of pipeline h) d = Some ws ->
  get m d =
    if existsb (contains ws) (text_words pipeline t)
    then Some (words_score (bm25 K1 B (docs_of pipeline h) (total_words (docs_of pipeline h) + words_cleared pipeline h))
                           (text_words pipeline t) ws)
    else None.
Proof. exact @okapi_search_scores. Qed.
Print Assumptions C55_okapi_scores.
Theorem C55_cosine_scores : forall F (AF : Arith F), SafeArith F -> ExactArith F ->
  forall pipeline h t m d ws, history_ok pipeline h ->
  search pipeline cos_search_wids (cos_state (F := F) pipeline h) t = Ok (Some m) -> get (docs_of pipeline h) d = Some ws ->
  get m d =
    if existsb (contains ws) (text_words pipeline t)
    then Some (words_score (cosine (docs_of pipeline h)) (text_words pipeline t) ws)
    else None.
Proof. exact @cos_search_scores. Qed.
Print Assumptions C55_cosine_scores.
(** The hypotheses are met by real numbers with the parameters of the class; searches
    computed in integers (log2 instead of ln). *)
Example C55_real := C55_okapi_documents Rdefinitions.R _ _ _ _ OkapiSafe_default ascii_pipeline ex_hist
  (TxStr (txt "dogs or FOX")) ex_hist_ok ex_hist_small.
Example C55_real_scores := C55_okapi_scores Rdefinitions.R _ _ _ _ OkapiSafe_default ascii_pipeline _ ex_hist
  (TxStr (txt "dogs or FOX")).
Example C55_real_cosine := C55_cosine_scores Rdefinitions.R _ _ _ ascii_pipeline ex_hist (TxStr (txt "dogs or FOX")).
Example C55_ex :
  rmap (option_map elts) (search ascii_pipeline (python_search_wids 3 0) (okapi_state ascii_pipeline ex_hist) (TxStr (txt "brown DOG"))) =
    Ok (Some [(1, 2); (2, 1)]) /\
  rmap (option_map elts) (search ascii_pipeline (python_search_wids 3 0) (okapi_state ascii_pipeline ex_hist) (TxStr (txt "zebra"))) =
    Ok (Some []) /\
  search ascii_pipeline (python_search_wids 3 0) (okapi_state ascii_pipeline ex_hist) (TxStr (txt "the of")) = Ok None.
Proof. vm_compute. auto. Qed.

(** C56: search_phrase(phrase) finds all documents in which the words of the phrase occur
    in a row, and only documents in which all of them occur. *)
Theorem C56_okapi_complete : forall F (AF : Arith F), SafeArith F -> forall K1 B : F, OkapiSafe K1 B ->
  forall pipeline h t d ws, history_ok pipeline h -> texts_small pipeline h ->
  text_words pipeline t <> [] -> get (docs_of pipeline h) d = Some ws -> in_a_row (text_words pipeline t) ws ->
  exists m, search_phrase pipeline (python_search_wids K1 B) (okapi_state pipeline h) t = Ok m /\ mem d m = true.
Proof. exact @okapi_phrase_complete. Qed.
Print Assumptions C56_okapi_complete.
Theorem C56_okapi_sound : forall F (AF : Arith F), SafeArith F -> forall K1 B : F, OkapiSafe K1 B ->
  forall pipeline h t, history_ok pipeline h -> texts_small pipeline h ->
  exists m, search_phrase pipeline (python_search_wids K1 B) (okapi_state pipeline h) t = Ok m /\
    forall d, mem d m = true -> text_words pipeline t <> [] /\
      exists ws, get (docs_of pipeline h) d = Some ws /\ forall w, In w (text_words pipeline t) -> In w ws.
Proof. exact @okapi_phrase_sound. Qed.
Print Assumptions C56_okapi_sound.
Theorem C56_cosine_complete : forall F (AF : Arith F), SafeArith F -> SoundEq F ->
  forall pipeline h t d ws, history_ok pipeline h ->
  text_words pipeline t <> [] -> get (docs_of pipeline h) d = Some ws -> in_a_row (text_words pipeline t) ws ->
  exists m, search_phrase pipeline cos_search_wids (cos_state (F := F) pipeline h) t = Ok m /\ mem d m = true.
Proof. exact @cos_phrase_complete. Qed.
Print Assumptions C56_cosine_complete.
Theorem C56_cosine_sound : forall F (AF : Arith F), SafeArith F -> SoundEq F ->
  forall pipeline h t, history_ok pipeline h ->
  exists m, search_phrase pipeline cos_search_wids (cos_state (F := F) pipeline h) t = Ok m /\
    forall d, mem d m = true -> text_words pipeline t <> [] /\
      exists ws, get (docs_of pipeline h) d = Some ws /\ forall w, In w (text_words pipeline t) -> In w ws.
Proof. exact @cos_phrase_sound. Qed.
Print Assumptions C56_cosine_sound.
(** The score is that of the words of the phrase. *)
Theorem C56_okapi_scores : forall F (AF : Arith F), SafeArith F -> forall K1 B : F, OkapiSafe K1 B ->
  forall pipeline, ExactArith F ->
  forall h t m d ws v, history_ok pipeline h -> texts_small pipeline h ->
  search_phrase pipeline (python_search_wids K1 B) (okapi_state pipeline h) t = Ok m ->
  get (docs_of pipeline h) d = Some ws -> get m d = Some v ->
  v = words_score (bm25 K1 B (docs_of pipeline h) (total_words (docs_of pipeline h) + words_cleared pipeline h))
                  (text_words pipeline t) ws.
Proof. exact @okapi_phrase_scores. Qed.
Print Assumptions C56_okapi_scores.
Theorem C56_cosine_scores : forall F (AF : Arith F), SafeArith F -> ExactArith F ->
  forall pipeline h t m d ws v, history_ok pipeline h ->
  search_phrase pipeline cos_search_wids (cos_state (F := F) pipeline h) t = Ok m ->
  get (docs_of pipeline h) d = Some ws -> get m d = Some v ->
  v = words_score (cosine (docs_of pipeline h)) (text_words pipeline t) ws.
Proof. exact @cos_phrase_scores. Qed.
Print Assumptions C56_cosine_scores.
Example C56_ex :
  rmap elts (search_phrase ascii_pipeline (python_search_wids 3 0) (okapi_state ascii_pipeline ex_hist) (TxStr (txt "a brown fox"))) =
    Ok [(1, 2)] /\
  rmap elts (search_phrase ascii_pipeline (python_search_wids 3 0) (okapi_state ascii_pipeline ex_hist) (TxStr (txt "fox brown"))) =
    Ok [] /\
  rmap elts (search_phrase ascii_pipeline (python_search_wids 3 0) (okapi_state ascii_pipeline ex_hist) (TxStr (txt "brown zebra"))) =
    Ok [] /\
  rmap elts (search_phrase ascii_pipeline (python_search_wids 3 0) (okapi_state ascii_pipeline ex_hist) (TxStr (txt "the"))) =
    Ok [].
Proof. vm_compute. auto. Qed.

(** C57: exactly which documents search_phrase returns: those that contain all words of
    the phrase and, in a row, the words of the phrase except that the last may be any
    word whose id has the last word's id as its leading base 128 digits. *)
Theorem C57_okapi_phrase_iff : forall F (AF : Arith F), SafeArith F -> forall K1 B : F, OkapiSafe K1 B ->
  forall pipeline h t init l, history_ok pipeline h -> texts_small pipeline h -> text_words pipeline t = init ++ [l] ->
  exists m, search_phrase pipeline (python_search_wids K1 B) (okapi_state pipeline h) t = Ok m /\
    forall d, mem d m = true <-> exists ws, get (docs_of pipeline h) d = Some ws /\
      (forall w, In w (text_words pipeline t) -> In w ws) /\
      exists l', in_a_row (init ++ [l']) ws /\
        (l' = l \/ exists k, 1 <= k <= 3 /\
           get_wid (slx (okapi_state pipeline h)) l' / 128 ^ k = get_wid (slx (okapi_state pipeline h)) l).
Proof. exact @okapi_phrase_iff. Qed.
Print Assumptions C57_okapi_phrase_iff.
Theorem C57_cosine_phrase_iff : forall F (AF : Arith F), SafeArith F -> SoundEq F ->
  forall pipeline h t init l, history_ok pipeline h -> text_words pipeline t = init ++ [l] ->
  exists m, search_phrase pipeline cos_search_wids (cos_state (F := F) pipeline h) t = Ok m /\
    forall d, mem d m = true <-> exists ws, get (docs_of pipeline h) d = Some ws /\
      (forall w, In w (text_words pipeline t) -> In w ws) /\
      exists l', in_a_row (init ++ [l']) ws /\
        (l' = l \/ exists k, 1 <= k <= 3 /\
           get_wid (slx (cos_state (F := F) pipeline h)) l' / 128 ^ k = get_wid (slx (cos_state (F := F) pipeline h)) l).
Proof. exact @cos_phrase_iff. Qed.
Print Assumptions C57_cosine_phrase_iff.
(** So phrase search is exact as long as the ids of the words are below 128, ... *)
Theorem C57_okapi_exact : forall F (AF : Arith F), SafeArith F -> forall K1 B : F, OkapiSafe K1 B ->
  forall pipeline h t, history_ok pipeline h -> texts_small pipeline h -> text_words pipeline t <> [] ->
  (forall w, In w (vocabulary (docs_of pipeline h)) -> get_wid (slx (okapi_state pipeline h)) w < 128) ->
  exists m, search_phrase pipeline (python_search_wids K1 B) (okapi_state pipeline h) t = Ok m /\
    forall d, mem d m = true <-> exists ws, get (docs_of pipeline h) d = Some ws /\ in_a_row (text_words pipeline t) ws.
Proof. exact @okapi_phrase_exact. Qed.
Print Assumptions C57_okapi_exact.
Theorem C57_cosine_exact : forall F (AF : Arith F), SafeArith F -> SoundEq F ->
  forall pipeline h t, history_ok pipeline h -> text_words pipeline t <> [] ->
  (forall w, In w (vocabulary (docs_of pipeline h)) -> get_wid (slx (cos_state (F := F) pipeline h)) w < 128) ->
  exists m, search_phrase pipeline cos_search_wids (cos_state (F := F) pipeline h) t = Ok m /\
    forall d, mem d m = true <-> exists ws, get (docs_of pipeline h) d = Some ws /\ in_a_row (text_words pipeline t) ws.
Proof. exact @cos_phrase_exact. Qed.
Print Assumptions C57_cosine_exact.
Example C57_ids_ex : forall w, In w (vocabulary (docs_of ascii_pipeline ex_hist)) ->
  get_wid (slx (okapi_state ascii_pipeline ex_hist)) w < 128.
Proof. intros w H. repeat (destruct H as [<-|H]; [vm_compute; reflexivity|]). destruct H. Qed.
(** ... and not in general: in whatever arithmetic, some document is found although the
    words of the phrase do not occur in a row in it. *)
Theorem C57_phrase_exact_refuted : exists pipeline h t d,
  history_ok pipeline h /\ texts_small pipeline h /\
  (exists ws, get (docs_of pipeline h) d = Some ws /\ ~ in_a_row (text_words pipeline t) ws) /\
  forall F (AF : Arith F), SafeArith F -> forall K1 B : F, OkapiSafe K1 B ->
  exists m, search_phrase pipeline (python_search_wids K1 B) (okapi_state pipeline h) t = Ok m /\ mem d m = true.
Proof. exact phrase_false_positive. Qed.
Print Assumptions C57_phrase_exact_refuted.

(** C58: search_glob(pattern), for patterns starting with ordinary characters, returns
    exactly the documents with a word that matches the pattern. *)
Theorem C58_okapi_glob : forall F (AF : Arith F), SafeArith F -> forall K1 B : F, OkapiSafe K1 B ->
  forall pipeline h prefix c rest, history_ok pipeline h -> texts_small pipeline h ->
  prefix <> [] -> plain prefix -> c = chr_star \/ c = chr_qm -> no_newline (slx (okapi_state pipeline h)) ->
  exists m, search_glob (python_search_wids K1 B) (okapi_state pipeline h) (prefix ++ c :: rest) = Ok m /\
    forall d, mem d m = true <->
      exists ws w, get (docs_of pipeline h) d = Some ws /\ In w ws /\ glob_match (prefix ++ c :: rest) w.
Proof. exact @okapi_glob_docs. Qed.
Print Assumptions C58_okapi_glob.
Theorem C58_cosine_glob : forall F (AF : Arith F), SafeArith F -> SoundEq F ->
  forall pipeline h prefix c rest, history_ok pipeline h ->
  prefix <> [] -> plain prefix -> c = chr_star \/ c = chr_qm -> no_newline (slx (cos_state (F := F) pipeline h)) ->
  exists m, search_glob cos_search_wids (cos_state (F := F) pipeline h) (prefix ++ c :: rest) = Ok m /\
    forall d, mem d m = true <->
      exists ws w, get (docs_of pipeline h) d = Some ws /\ In w ws /\ glob_match (prefix ++ c :: rest) w.
Proof. exact @cos_glob_docs. Qed.
Print Assumptions C58_cosine_glob.
(** The score is that of all words of the lexicon that match. *)
Theorem C58_okapi_scores : forall F (AF : Arith F), SafeArith F -> forall K1 B : F, OkapiSafe K1 B ->
  forall pipeline, ExactArith F ->
  forall h prefix c rest, history_ok pipeline h -> texts_small pipeline h ->
  prefix <> [] -> plain prefix -> c = chr_star \/ c = chr_qm -> no_newline (slx (okapi_state pipeline h)) ->
  exists m q, search_glob (python_search_wids K1 B) (okapi_state pipeline h) (prefix ++ c :: rest) = Ok m /\
    NoDup q /\
    (forall w, In w q <-> In w (lex_words (slx (okapi_state pipeline h))) /\ glob_match (prefix ++ c :: rest) w) /\
    forall d ws, get (docs_of pipeline h) d = Some ws ->
      get m d =
        if existsb (contains ws) q
        then Some (words_score (bm25 K1 B (docs_of pipeline h) (total_words (docs_of pipeline h) + words_cleared pipeline h)) q ws)
        else None.
Proof. exact @okapi_glob_scores. Qed.
Print Assumptions C58_okapi_scores.
Theorem C58_cosine_scores : forall F (AF : Arith F), SafeArith F -> ExactArith F ->
  forall pipeline h prefix c rest, history_ok pipeline h ->
  prefix <> [] -> plain prefix -> c = chr_star \/ c = chr_qm -> no_newline (slx (cos_state (F := F) pipeline h)) ->
  exists m q, search_glob cos_search_wids (cos_state (F := F) pipeline h) (prefix ++ c :: rest) = Ok m /\
    NoDup q /\
    (forall w, In w q <-> In w (lex_words (slx (cos_state (F := F) pipeline h))) /\ glob_match (prefix ++ c :: rest) w) /\
    forall d ws, get (docs_of pipeline h) d = Some ws ->
      get m d = if existsb (contains ws) q then Some (words_score (cosine (docs_of pipeline h)) q ws) else None.
Proof. exact @cos_glob_scores. Qed.
Print Assumptions C58_cosine_scores.
Example C58_ex :
  plain (txt "b") /\ no_newline (slx (okapi_state ascii_pipeline ex_hist)) /\
  rmap elts (search_glob (python_search_wids 3 0) (okapi_state ascii_pipeline ex_hist) (txt "b*w?")) = Ok [(1, 1)] /\
  rmap elts (search_glob (python_search_wids 3 0) (okapi_state ascii_pipeline ex_hist) (txt "d*")) = Ok [(1, 1); (2, 1)].
Proof.
  split; [intros c [<-|[]]; cbn; intuition discriminate|]. split; [|vm_compute; auto].
  apply check_newline_ok. vm_compute. reflexivity.
Qed.

(** C62: the scoring loop in C computes what the loop in Python computes, operation by
    operation, in every arithmetic and for every index, if the class uses the constants
    compiled into the extension; ... *)
Theorem C62_c_agrees : forall F (AF : Arith F) (K1 B : F) ix wids r,
  python_search_wids K1 B ix wids = Ok r -> c_search_wids K1 B ix wids = Ok r.
Proof. exact @L_okasearch.c_wids_py. Qed.
Print Assumptions C62_c_agrees.
(** ... hence every search that succeeds with the Python loop has the same result with
    the C loop; ... *)
Theorem C62_c_searches : forall F (AF : Arith F) (K1 B : F) pipeline s,
  (forall t r, search pipeline (python_search_wids K1 B) s t = Ok r -> search pipeline (c_search_wids K1 B) s t = Ok r) /\
  (forall t r, search_phrase pipeline (python_search_wids K1 B) s t = Ok r -> search_phrase pipeline (c_search_wids K1 B) s t = Ok r) /\
  (forall p r, search_glob (python_search_wids K1 B) s p = Ok r -> search_glob (c_search_wids K1 B) s p = Ok r).
Proof. exact @L_okasearch.c_searches. Qed.
Print Assumptions C62_c_searches.
Example C62_ex :
  let ix := six (okapi_state ascii_pipeline ex_hist) in
  rmap (map (fun p => elts (fst p))) (python_search_wids 3 0 ix [2; 4]) = Ok [[(1, 1)]; [(1, 1); (2, 1)]] /\
  rmap (map (fun p => elts (fst p))) (c_search_wids 3 0 ix [2; 4]) = Ok [[(1, 1)]; [(1, 1); (2, 1)]].
Proof. vm_compute. auto. Qed.
(** ... for a subclass with other values of K1 or B the scores differ. *)
Theorem C62_other_constants_refuted : exists (c_K1 c_B K1 B : Z) ix wids r r',
  python_search_wids K1 B ix wids = Ok r /\ c_search_wids c_K1 c_B ix wids = Ok r' /\
  map (fun p => elts (fst p)) r <> map (fun p => elts (fst p)) r'.
Proof.
  exists 3, 0, 1, 8, (six (okapi_state ascii_pipeline ex_hist)), [2].
  do 2 eexists. split; [vm_compute; reflexivity|]. split; [vm_compute; reflexivity|]. vm_compute. discriminate.
Qed.
Print Assumptions C62_other_constants_refuted.
