(** * Properties C59-C61: query weights and Okapi scores (text/okapiindex.py,
    cosineindex.py)

    [execute] runs a query tree on an index (textindex.py:73),
    [map term_text (terms n)] are the terms passed to query_weight (textindex.py:75).
    [okapi_weight K1 D q]: the sum (from left to right) of idf(w) * (1 + K1) over the words w of q that occur
    in the documents; [cos_weight D q]: the square root of the sum of idf(w)^2. *)
From Coq Require Import Reals.Rdefinitions.
From Verif Require Import Text S_textapi S_score S_textindex L_textapi L_weight L_rscore L_scoreex L_textex L_searchex RArith SMap Ord.
Open Scope string_scope.
Open Scope list_scope.
Open Scope Z_scope.

(** C59: what query_weight computes, in any arithmetic; ... *)
Theorem C59_okapi_query_weight : forall F (AF : Arith F), SafeArith F -> forall pipeline (K1 : F) h ts, history_ok pipeline h ->
  okapi_query_weight pipeline K1 (okapi_state pipeline h) ts =
    Ok (okapi_weight K1 (docs_of pipeline h) (flat_map (text_words pipeline) ts)).
Proof. exact @okapi_weight_exact. Qed.
Print Assumptions C59_okapi_query_weight.
(** ... over the real numbers, it bounds the scores of a query whose positive terms are words and phrases: the
    score divided by the weight is in (0, 1]; ... *)
Theorem C59_okapi_bound : forall (K1 B : R), (0 <= K1)%R -> (0 <= B <= 1)%R ->
  forall pipeline h n m d v qw, history_ok pipeline h -> texts_small pipeline h ->
  executable n -> (forall p, ~ In (NGlob p) (positive_leaves n)) ->
  execute pipeline (python_search_wids K1 B) (okapi_state pipeline h) n = Ok (Some m) ->
  okapi_query_weight pipeline K1 (okapi_state pipeline h) (map term_text (terms n)) = Ok qw ->
  get m d = Some v -> (0 < v <= qw)%R.
Proof. exact okapi_tree_bound. Qed.
Print Assumptions C59_okapi_bound.
(** The premises are met (also with a glob below NOT). *)
Example C59_ex :
  let n := NAnd [NOr [NAtom (txt "dog"); NPhrase [txt "brown"; txt "fox"]]; NNot (NGlob (txt "z*"))] in
  history_ok ascii_pipeline ex_hist /\ texts_small ascii_pipeline ex_hist /\ executable n /\
  (forall p, ~ In (NGlob p) (positive_leaves n)) /\
  rmap (option_map elts) (execute ascii_pipeline (python_search_wids 3 0) (okapi_state ascii_pipeline ex_hist) n) =
    Ok (Some [(1, 3); (2, 1)]) /\
  okapi_query_weight ascii_pipeline 3 (okapi_state ascii_pipeline ex_hist) (map term_text (terms n)) = Ok 12.
Proof.
  cbn zeta. split; [exact ex_hist_ok|]. split; [exact ex_hist_small|].
  split.
  { cbn [executable]. split; [|repeat split; discriminate].
    exists [NOr [NAtom (txt "dog"); NPhrase [txt "brown"; txt "fox"]]], [NGlob (txt "z*")].
    split; [reflexivity|]. split; [discriminate|]. intros x [<-|[]]. reflexivity. }
  split; [intros p H; cbn in H; intuition discriminate|]. vm_compute. auto.
Qed.
(** ... but not those of a glob: here the weight is 0, so that scores are divided by 1.0,
    and the score exceeds 1. *)
Theorem C59_glob_refuted : exists pipeline h n, history_ok pipeline h /\ texts_small pipeline h /\ executable n /\
  exists m d v,
    execute pipeline (python_search_wids 1.2%R 0.75%R) (okapi_state pipeline h) n = Ok (Some m) /\
    okapi_query_weight pipeline 1.2%R (okapi_state pipeline h) (map term_text (terms n)) = Ok 0%R /\
    get m d = Some v /\ (1 < v)%R.
Proof.
  exists ascii_pipeline, glob_hist, (NGlob (txt "ab*")).
  split; [exact glob_hist_ok|]. split; [exact glob_hist_small|]. split; [exact I|].
  destruct glob_exceeds as (m & v & H). exists m, 1, v. exact H.
Qed.
Print Assumptions C59_glob_refuted.

(** C60: the same for the cosine index, when no word is repeated in the query. *)
Theorem C60_cosine_query_weight : forall F (AF : Arith F), SafeArith F -> forall pipeline, SoundEq F ->
  forall h ts, history_ok pipeline h ->
  cos_query_weight pipeline (cos_state (F := F) pipeline h) ts =
    Ok (cos_weight (docs_of pipeline h) (flat_map (text_words pipeline) ts)).
Proof. exact @cos_weight_exact. Qed.
Print Assumptions C60_cosine_query_weight.
Theorem C60_cosine_bound : forall pipeline h n m d v qw, history_ok pipeline h ->
  executable n -> (forall p, ~ In (NGlob p) (positive_leaves n)) ->
  NoDup (flat_map (fun t => text_words pipeline (term_text t)) (terms n)) ->
  execute pipeline cos_search_wids (cos_state (F := R) pipeline h) n = Ok (Some m) ->
  cos_query_weight pipeline (cos_state (F := R) pipeline h) (map term_text (terms n)) = Ok qw ->
  get m d = Some v -> (0 < v <= qw)%R.
Proof. exact cos_tree_bound. Qed.
Print Assumptions C60_cosine_bound.
Example C60_ex :
  let n := NOr [NAtom (txt "dog"); NPhrase [txt "brown"; txt "fox"]] in
  executable n /\ (forall p, ~ In (NGlob p) (positive_leaves n)) /\
  NoDup (flat_map (fun t => text_words ascii_pipeline (term_text t)) (terms n)).
Proof.
  cbn zeta. split; [cbn; repeat split; auto; discriminate|]. split; [intros p H; cbn in H; intuition discriminate|].
  assert (E : flat_map (fun t => text_words ascii_pipeline (term_text t)) (terms (NOr [NAtom (txt "dog"); NPhrase [txt "brown"; txt "fox"]])) =
    [txt "dog"; txt "brown"; txt "fox"]) by (vm_compute; reflexivity).
  rewrite E. repeat constructor; cbn; intuition discriminate.
Qed.
(** With a repeated word ("fox OR fox") it fails. *)
Theorem C60_repeated_refuted : exists pipeline h n, history_ok pipeline h /\ executable n /\
  (forall p, ~ In (NGlob p) (positive_leaves n)) /\
  exists m d v qw,
    execute pipeline cos_search_wids (cos_state (F := R) pipeline h) n = Ok (Some m) /\
    cos_query_weight pipeline (cos_state (F := R) pipeline h) (map term_text (terms n)) = Ok qw /\
    get m d = Some v /\ (0 < qw < v)%R.
Proof.
  exists ascii_pipeline, or_hist, or_tree. split; [exact or_hist_ok|].
  split; [cbn; repeat split; auto; discriminate|]. split; [intros p H; cbn in H; intuition discriminate|].
  destruct or_exceeds as (m & v & qw & H). exists m, 1, v, qw. exact H.
Qed.
Print Assumptions C60_repeated_refuted.

(** C61: no search in an Okapi index divides by zero, as long as no text has more than
    2^24 words, in any arithmetic that is not too coarse; ... *)
Theorem C61_searches_return : forall F (AF : Arith F), SafeArith F -> forall K1 B : F, OkapiSafe K1 B ->
  forall pipeline h, history_ok pipeline h -> texts_small pipeline h ->
  (forall t, exists r, search pipeline (python_search_wids K1 B) (okapi_state pipeline h) t = Ok r) /\
  (forall t, exists r, search_phrase pipeline (python_search_wids K1 B) (okapi_state pipeline h) t = Ok r) /\
  (forall p, search_glob (python_search_wids K1 B) (okapi_state pipeline h) p <> Raise ZeroDivisionError) /\
  (forall ts, exists v, okapi_query_weight pipeline K1 (okapi_state pipeline h) ts = Ok v).
Proof. exact @okapi_total_searches. Qed.
Print Assumptions C61_searches_return.
(** ... the mean document length is positive when there is a word to score, and so is the
    inverse document frequency; ... *)
Theorem C61_mean_positive : forall pipeline h w, history_ok pipeline h -> texts_small pipeline h ->
  In w (vocabulary (docs_of pipeline h)) ->
  exists v : R, mean_doc_len (six (okapi_state pipeline h)) = Ok v /\ (0 < v)%R.
Proof. exact mean_R. Qed.
Print Assumptions C61_mean_positive.
Theorem C61_idf_positive : forall n N, 1 <= n -> 1 <= N ->
  exists v : R, inverse_doc_frequency n (fofZ N) = Ok v /\ (0 < v)%R.
Proof. exact idf_R. Qed.
Print Assumptions C61_idf_positive.
(** ... the term frequency is between 0 and K1 + 1, grows with the number of occurrences
    of the word and falls with the length of the document. *)
Theorem C61_tf_range : forall K1 B : R, (0 < K1)%R -> (0 <= B <= 1)%R ->
  forall mean len f, (0 < mean)%R -> 1 <= len -> 1 <= f ->
  exists v, okapi_tf K1 B mean len f = Ok v /\ (0 < v < K1 + 1)%R.
Proof. exact okapi_tf_range. Qed.
Print Assumptions C61_tf_range.
Theorem C61_tf_grows : forall K1 B : R, (0 < K1)%R -> (0 <= B <= 1)%R ->
  forall mean len f f' v v', (0 < mean)%R -> 1 <= len -> 1 <= f < f' ->
  okapi_tf K1 B mean len f = Ok v -> okapi_tf K1 B mean len f' = Ok v' -> (v < v')%R.
Proof. exact okapi_tf_mono. Qed.
Print Assumptions C61_tf_grows.
Theorem C61_tf_falls : forall K1 B : R, (0 < K1)%R -> (0 <= B <= 1)%R ->
  forall mean len len' f v v', (0 < B)%R -> (0 < mean)%R -> 1 <= len < len' -> 1 <= f ->
  okapi_tf K1 B mean len f = Ok v -> okapi_tf K1 B mean len' f = Ok v' -> (v' < v)%R.
Proof. exact okapi_tf_anti. Qed.
Print Assumptions C61_tf_falls.
Example C61_ex := C61_searches_return R _ _ _ _ OkapiSafe_default ascii_pipeline ex_hist ex_hist_ok ex_hist_small.
Example C61_mean_ex : exists v : R, mean_doc_len (six (okapi_state ascii_pipeline ex_hist)) = Ok v /\ (0 < v)%R.
Proof. apply (C61_mean_positive ascii_pipeline ex_hist (txt "brown") ex_hist_ok ex_hist_small). vm_compute. auto. Qed.
(** With a text of 2^24 + 3 words a division by zero is possible: its length is stored
    rounded to a float and subtracted from the exact total when it is unindexed. *)
Theorem C61_large_text_refuted : exists pipeline h t, history_ok pipeline h /\
  forall K1 B : R, search pipeline (python_search_wids K1 B) (okapi_state pipeline h) t = Raise ZeroDivisionError.
Proof.
  destruct big_text_exists as (l & H1 & H2). exists id_pipe, (big_hist l), (TxStr (txt "a")).
  split; [exact (big_history_ok l H1)|]. intros K1 B. exact (big_raises l K1 B H1 H2).
Qed.
Print Assumptions C61_large_text_refuted.
