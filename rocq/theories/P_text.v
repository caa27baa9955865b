(** * Properties C50-C54: the state of text indexes (text/baseindex.py, okapiindex.py,
    cosineindex.py)

    A history is a list of calls [TIndex d text], [TUnindex d], [TClear] on the index and
    of uses [TOther] of its lexicon by others.  [docs_of pipeline h] are the documents
    after the history [h], as lists of words (S_text.v): for each document the words of
    the last text indexed, unless it was unindexed or the index cleared since.
    [history_ok]: word ids are below 2^28.  [texts_small]: no text has more than 2^24
    words. [okapi_state], [cos_state]: the index after a history. *)
From Verif Require Import Text S_textapi L_textapi L_costext L_textex RArith SMap Ord.
Open Scope string_scope.
Open Scope list_scope.
Open Scope Z_scope.

(** C50: the index agrees with the documents: has_doc and get_words give the documents
    and their words, and the map kept for a word contains exactly the documents the word
    occurs in, with the number of occurrences ([f32Z] rounds numbers above 2^24). *)
Theorem C50_okapi_consistent : forall pipeline h, history_ok pipeline h ->
  let s := okapi_state pipeline h in
  let D := docs_of pipeline h in
  slx s = lex_run pipeline (lex_hist h) /\
  (forall d, has_doc (six s) d = mem d D) /\
  (forall d, get_words (six s) d =
     match get D d with Some ws => Ok (map (get_wid (slx s)) ws) | None => Raise KeyError end) /\
  (forall d ws, get D d = Some ws -> mapM (get_word (slx s)) (map (get_wid (slx s)) ws) = Ok ws) /\
  (forall w d, mem d (posting_of s w) = true <-> exists ws, get D d = Some ws /\ In w ws) /\
  (forall w d ws n, get D d = Some ws -> get (posting_of s w) d = Some n ->
     n = occurrences w ws \/ n = f32Z (occurrences w ws)) /\
  (forall d, get (docweight (six s)) d = option_map (fun ws => f32Z (Zlen ws)) (get D d)) /\
  (forall i p, get (wordinfo (six s)) i = Some p ->
     exists w, In w (vocabulary D) /\ i = get_wid (slx s) w /\ p_map p = posting_of s w).
Proof. exact okapi_consistent. Qed.
Print Assumptions C50_okapi_consistent.
Example C50_okapi_ex :
  let s := okapi_state ascii_pipeline ex_hist in
  history_ok ascii_pipeline ex_hist /\
  elts (docs_of ascii_pipeline ex_hist) =
    [(1, [txt "brown"; txt "dog"; txt "brown"; txt "fox"]); (2, [txt "quick"; txt "quick"; txt "dog"])] /\
  get_words (six s) 1 = Ok [2; 4; 2; 3] /\ get_words (six s) 3 = Raise KeyError /\
  elts (posting_of s (txt "brown")) = [(1, 2)] /\ elts (posting_of s (txt "dog")) = [(1, 1); (2, 1)] /\
  elts (posting_of s (txt "gone")) = [].
Proof. split; [exact ex_hist_ok|]. vm_compute. auto 10. Qed.
(** rounding is the identity up to 2^24 *)
Theorem C50_rounding : forall n, Z.abs n <= 2 ^ 24 -> f32Z n = n.
Proof. exact L_okapi.f32Z_small. Qed.
Print Assumptions C50_rounding.
Example C50_rounding_ex : f32Z (2 ^ 24) = 2 ^ 24 /\ f32Z (2 ^ 24 + 1) = 2 ^ 24 /\ f32Z (2 ^ 24 + 3) = 2 ^ 24 + 4.
Proof. vm_compute. auto. Qed.

(** C50 for the cosine index, for every arithmetic in which the computation of weights
    does not raise and equal weights are the same. *)
Theorem C50_cosine_consistent : forall F (AF : Arith F), SafeArith F -> SoundEq F ->
  forall pipeline h, history_ok pipeline h ->
  let s := cos_state (F := F) pipeline h in
  let D := docs_of pipeline h in
  slx s = lex_run pipeline (lex_hist h) /\
  (forall d, has_doc (six s) d = mem d D) /\
  (forall d, get_words (six s) d =
     match get D d with Some ws => Ok (map (get_wid (slx s)) ws) | None => Raise KeyError end) /\
  (forall d ws, get D d = Some ws -> mapM (get_word (slx s)) (map (get_wid (slx s)) ws) = Ok ws) /\
  (forall w d, mem d (posting_of s w) = true <-> exists ws, get D d = Some ws /\ In w ws) /\
  (forall i p, get (wordinfo (six s)) i = Some p ->
     exists w, In w (vocabulary D) /\ i = get_wid (slx s) w /\ p_map p = posting_of s w).
Proof. exact @cos_consistent. Qed.
Print Assumptions C50_cosine_consistent.
(** The weights are those of the vector space model, computed in the given arithmetic:
    [cosine_weight w ws] is (1 + log f) / W and [doc_norm ws] is W, see S_score.v; [f32]
    is the rounding of numbers stored in a BTree. *)
Theorem C50_cosine_weights : forall F (AF : Arith F), SafeArith F -> SoundEq F ->
  forall pipeline h, history_ok pipeline h ->
  let s := cos_state (F := F) pipeline h in
  let D := docs_of pipeline h in
  (forall w d ws v, get D d = Some ws -> get (posting_of s w) d = Some v ->
     v = cosine_weight w ws \/ v = f32 (cosine_weight w ws)) /\
  (forall d, get (docweight (six s)) d = option_map (fun ws => f32 (doc_norm ws)) (get D d)).
Proof. exact @cos_weights_D. Qed.
Print Assumptions C50_cosine_weights.
Example C50_cosine_ex :
  let s := cos_state (F := Z) ascii_pipeline ex_hist in
  get_words (six s) 1 = Ok [2; 4; 2; 3] /\
  elts (posting_of s (txt "brown")) = [(1, 1)] /\ elts (posting_of s (txt "dog")) = [(1, 0); (2, 0)] /\
  elts (docweight (six s)) = [(1, 2); (2, 2)].
Proof. vm_compute. auto. Qed.
(** the real numbers are such an arithmetic *)
Example C50_cosine_real := C50_cosine_weights Rdefinitions.R _ _ _ ascii_pipeline ex_hist ex_hist_ok.

(** C51: documentCount() is the number of documents, wordCount() the number of distinct
    words in them. *)
Theorem C51_okapi_counts : forall pipeline h, history_ok pipeline h ->
  documentCount (six (okapi_state pipeline h)) = Zsize (docs_of pipeline h) /\
  wordCount (six (okapi_state pipeline h)) = Zlen (vocabulary (docs_of pipeline h)).
Proof. exact okapi_counts. Qed.
Print Assumptions C51_okapi_counts.
Theorem C51_cosine_counts : forall F (AF : Arith F), SafeArith F -> SoundEq F ->
  forall pipeline h, history_ok pipeline h ->
  documentCount (six (cos_state (F := F) pipeline h)) = Zsize (docs_of pipeline h) /\
  wordCount (six (cos_state (F := F) pipeline h)) = Zlen (vocabulary (docs_of pipeline h)).
Proof. exact @cos_counts. Qed.
Print Assumptions C51_cosine_counts.
Example C51_ex :
  let s := okapi_state ascii_pipeline ex_hist in
  documentCount (six s) = 2 /\ wordCount (six s) = 4 /\
  vocabulary (docs_of ascii_pipeline ex_hist) = [txt "brown"; txt "dog"; txt "fox"; txt "quick"].
Proof. vm_compute. auto. Qed.

(** C52: no call raises. *)
Theorem C52_okapi_never_raises : forall pipeline h, history_ok pipeline h -> snd (okapi_run pipeline h) = Ok tt.
Proof. exact okapi_no_raise. Qed.
Print Assumptions C52_okapi_never_raises.
Theorem C52_cosine_never_raises : forall F (AF : Arith F), SafeArith F -> SoundEq F ->
  forall pipeline h, history_ok pipeline h -> snd (cos_run (F := F) pipeline h) = Ok tt.
Proof. exact @cos_no_raise. Qed.
Print Assumptions C52_cosine_never_raises.

(** C52: unindexing an unknown document does nothing. *)
Theorem C52_okapi_unindex_unknown : forall pipeline h d, history_ok pipeline h -> get (docs_of pipeline h) d = None ->
  okapi_unindex_doc d (okapi_state pipeline h) = (okapi_state pipeline h, Ok tt).
Proof. exact okapi_unindex_unknown. Qed.
Print Assumptions C52_okapi_unindex_unknown.
Theorem C52_cosine_unindex_unknown : forall F (AF : Arith F), SafeArith F -> SoundEq F ->
  forall pipeline h d, history_ok pipeline h -> get (docs_of pipeline h) d = None ->
  base_unindex_doc d (cos_state (F := F) pipeline h) = (cos_state pipeline h, Ok tt).
Proof. exact @cos_unindex_unknown. Qed.
Print Assumptions C52_cosine_unindex_unknown.

(** C52: re-indexing a document cannot be told apart, by has_doc, get_words, the counts,
    any search and any query weight, from unindexing it first; and indexing and
    unindexing a document leaves no trace other than the words in the lexicon.
    More generally the documents, the lexicon and the words lost by [clear] determine all
    that can be observed of the index. *)
Theorem C52_okapi_reindex : forall pipeline h d t,
  history_ok pipeline (h ++ [TIndex d t]) -> texts_small pipeline (h ++ [TIndex d t]) ->
  okapi_same pipeline (okapi_state pipeline (h ++ [TIndex d t])) (okapi_state pipeline (h ++ [TUnindex d; TIndex d t])).
Proof. exact okapi_reindex_law. Qed.
Print Assumptions C52_okapi_reindex.
Theorem C52_okapi_unindex : forall pipeline h d t,
  history_ok pipeline (h ++ [TIndex d t]) -> texts_small pipeline (h ++ [TIndex d t]) ->
  okapi_same pipeline (okapi_state pipeline (h ++ [TIndex d t; TUnindex d]))
                      (okapi_state pipeline (h ++ [TUnindex d; TOther (LText t)])).
Proof. exact okapi_unindex_law. Qed.
Print Assumptions C52_okapi_unindex.
Theorem C52_okapi_determined : forall pipeline h1 h2, history_ok pipeline h1 -> history_ok pipeline h2 ->
  texts_small pipeline h1 -> texts_small pipeline h2 ->
  docs_of pipeline h1 = docs_of pipeline h2 -> lex_run pipeline (lex_hist h1) = lex_run pipeline (lex_hist h2) ->
  words_cleared pipeline h1 = words_cleared pipeline h2 ->
  okapi_same pipeline (okapi_state pipeline h1) (okapi_state pipeline h2).
Proof. exact okapi_same_docs. Qed.
Print Assumptions C52_okapi_determined.
Theorem C52_cosine_reindex : forall F (AF : Arith F), SafeArith F -> SoundEq F -> forall pipeline h d t,
  history_ok pipeline (h ++ [TIndex d t]) ->
  cos_same (F := F) pipeline (cos_state pipeline (h ++ [TIndex d t])) (cos_state pipeline (h ++ [TUnindex d; TIndex d t])).
Proof. exact @cos_reindex_law. Qed.
Print Assumptions C52_cosine_reindex.
Theorem C52_cosine_unindex : forall F (AF : Arith F), SafeArith F -> SoundEq F -> forall pipeline h d t,
  history_ok pipeline (h ++ [TIndex d t]) ->
  cos_same (F := F) pipeline (cos_state pipeline (h ++ [TIndex d t; TUnindex d]))
                             (cos_state pipeline (h ++ [TUnindex d; TOther (LText t)])).
Proof. exact @cos_unindex_law. Qed.
Print Assumptions C52_cosine_unindex.
Theorem C52_cosine_determined : forall F (AF : Arith F), SafeArith F -> SoundEq F -> forall pipeline h1 h2,
  history_ok pipeline h1 -> history_ok pipeline h2 ->
  docs_of pipeline h1 = docs_of pipeline h2 -> lex_run pipeline (lex_hist h1) = lex_run pipeline (lex_hist h2) ->
  cos_same (F := F) pipeline (cos_state pipeline h1) (cos_state pipeline h2).
Proof. exact @cos_determined. Qed.
Print Assumptions C52_cosine_determined.
(** Re-indexing document 1: the index is not simply rebuilt (the words keep their ids). *)
Example C52_ex :
  let h := ex_hist ++ [TIndex 1 (TxStr (txt "fox fox hen"))] in
  history_ok ascii_pipeline h /\ texts_small ascii_pipeline h /\ snd (okapi_run ascii_pipeline h) = Ok tt /\
  get_words (six (okapi_state ascii_pipeline h)) 1 = Ok [3; 3; 7] /\
  elts (posting_of (okapi_state ascii_pipeline h) (txt "fox")) = [(1, 2)] /\
  rmap (option_map elts) (search ascii_pipeline (python_search_wids 1 0) (okapi_state ascii_pipeline h) (TxStr (txt "fox dog"))) =
    Ok (Some [(1, 1); (2, 1)]).
Proof.
  split; [apply check_history_ok; vm_compute; reflexivity|]. split; [apply check_small_ok; vm_compute; reflexivity|].
  vm_compute. auto 10.
Qed.

(** C53: without [clear] the total document length is the number of words of all
    documents. *)
Theorem C53_total_length : forall pipeline h, history_ok pipeline h -> texts_small pipeline h -> no_clear h ->
  totaldoclen (six (okapi_state pipeline h)) = total_words (docs_of pipeline h).
Proof. exact okapi_total_no_clear. Qed.
Print Assumptions C53_total_length.
Example C53_ex :
  no_clear ex_hist /\ totaldoclen (six (okapi_state ascii_pipeline ex_hist)) = 7 /\
  total_words (docs_of ascii_pipeline ex_hist) = 7.
Proof. split; [intros H; repeat (destruct H as [H|H]; [discriminate|]); destruct H|]. vm_compute. auto. Qed.

(** C54: a cosine index that was cleared cannot be told apart from a new one with the
    same lexicon, whatever happens next. *)
Theorem C54_cosine_clear : forall F (AF : Arith F), SafeArith F -> SoundEq F -> forall pipeline h h',
  history_ok pipeline (h ++ TClear :: h') ->
  cos_same (F := F) pipeline (cos_state pipeline (h ++ TClear :: h')) (cos_state pipeline (map TOther (lex_hist h) ++ h')).
Proof. exact @cos_clear_same. Qed.
Print Assumptions C54_cosine_clear.
(** C54: for an Okapi index this holds of the documents and counts; ... *)
Theorem C54_okapi_clear_view : forall pipeline h h',
  history_ok pipeline (h ++ TClear :: h') -> texts_small pipeline (h ++ TClear :: h') ->
  same_docs_view (okapi_state pipeline (h ++ TClear :: h')) (okapi_state pipeline (map TOther (lex_hist h) ++ h')).
Proof. exact okapi_clear_view. Qed.
Print Assumptions C54_okapi_clear_view.
(** ... it holds of searches too when there were no words in the index; ... *)
Theorem C54_okapi_clear_empty : forall pipeline h h',
  history_ok pipeline (h ++ TClear :: h') -> texts_small pipeline (h ++ TClear :: h') ->
  words_cleared pipeline (h ++ [TClear]) = 0 ->
  okapi_same pipeline (okapi_state pipeline (h ++ TClear :: h')) (okapi_state pipeline (map TOther (lex_hist h) ++ h')).
Proof. exact okapi_clear_same. Qed.
Print Assumptions C54_okapi_clear_empty.
(** ... but the total document length still counts the words of the documents that were
    in the index when it was cleared, ... *)
Theorem C54_okapi_total : forall pipeline h, history_ok pipeline h -> texts_small pipeline h ->
  totaldoclen (six (okapi_state pipeline h)) = total_words (docs_of pipeline h) + words_cleared pipeline h.
Proof. exact okapi_total_ok. Qed.
Print Assumptions C54_okapi_total.
(** ... so that scores differ from those of a new index. *)
Definition clear_hist : list top := [TIndex 1 (TxStr (txt "one two three four five six seven eight nine ten")); TClear].
Theorem C54_okapi_clear_refuted : exists pipeline h h' t (K1 B : Z),
  history_ok pipeline (h ++ TClear :: h') /\ texts_small pipeline (h ++ TClear :: h') /\
  exists m1 m2 d v1 v2,
    search pipeline (python_search_wids K1 B) (okapi_state pipeline (h ++ TClear :: h')) t = Ok (Some m1) /\
    search pipeline (python_search_wids K1 B) (okapi_state pipeline (map TOther (lex_hist h) ++ h')) t = Ok (Some m2) /\
    get m1 d = Some v1 /\ get m2 d = Some v2 /\ v1 <> v2.
Proof.
  exists ascii_pipeline, [TIndex 1 (TxStr (txt "one two three four five six seven eight nine ten"))],
    [TIndex 1 (TxStr (txt "one"))], (TxStr (txt "one")), 8, 1.
  split; [apply check_history_ok; vm_compute; reflexivity|]. split; [apply check_small_ok; vm_compute; reflexivity|].
  do 2 eexists. exists 1, 9, 1. split; [vm_compute; reflexivity|]. split; [vm_compute; reflexivity|].
  vm_compute. split; [reflexivity|]. split; [reflexivity|discriminate].
Qed.
Print Assumptions C54_okapi_clear_refuted.
