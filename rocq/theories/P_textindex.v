(** * Properties C63 and C64: text queries from end to end (text/textindex.py)

    [apply space upper qp pipeline search query_weight s query start count] is
    TextIndex.apply(query, start, count) on an index in state [s] whose lexicon has the
    pipeline [pipeline], the queries being parsed with a lexicon with pipeline [qp].
    [satisfies pipeline phrase ws n]: a document with words [ws] satisfies the tree [n]
    (S_textindex.v). *)
From Coq Require Import Reals.Rdefinitions.
From Verif Require Import Text S_textapi S_score S_tree S_parser S_split S_textindex L_textindex L_textscore L_textex RArith SMap Ord.
Open Scope string_scope.
Open Scope list_scope.
Open Scope Z_scope.

Local Notation parse space upper qp := (parseQuery space upper (fun t => query_words qp (TxStr t)) has_wildcard).

(** C64: with the default pipeline, a query raises a ParseError, namely when it cannot be
    parsed, or it returns exactly the documents that satisfy it ([None] when it is one
    word of which the second run of the pipeline leaves nothing); start and count do not
    matter.  For characters and lower-casing it is assumed that \w contains neither
    line feeds nor characters special in regular expressions, and [lower_plain]. *)
Theorem C64_okapi_default : forall F (AF : Arith F), SafeArith F -> forall space upper, space 45 = false ->
  forall word_char lower, (forall c, word_char c = true -> ~ In c re_meta) -> word_char 10 = false -> lower_plain lower ->
  let pipeline := default_pipeline word_char lower in
  forall (K1 B : F), OkapiSafe K1 B -> forall h query start count, history_ok pipeline h -> texts_small pipeline h ->
  let result := apply space upper pipeline pipeline (python_search_wids K1 B) (okapi_query_weight pipeline K1)
                  (okapi_state pipeline h) query start count in
  match parse space upper pipeline query with
  | PErr e => result = PErr e /\ (e = PRequired \/ e = PPositive \/ e = PCommon)
  | POk (n, _) => exists r, result = POk r /\ (r = None <-> stopped pipeline n) /\
      forall m, r = Some m -> forall d, mem d m = true <->
        exists ws, get (docs_of pipeline h) d = Some ws /\
                   satisfies pipeline (phrase_found (slx (okapi_state pipeline h))) ws n
  end.
Proof. exact @default_okapi. Qed.
Print Assumptions C64_okapi_default.
Theorem C64_cosine_default : forall F (AF : Arith F), SafeArith F -> forall space upper, space 45 = false ->
  forall word_char lower, (forall c, word_char c = true -> ~ In c re_meta) -> word_char 10 = false -> lower_plain lower ->
  let pipeline := default_pipeline word_char lower in
  SoundEq F -> forall h query start count, history_ok pipeline h ->
  let result := apply space upper pipeline pipeline cos_search_wids (cos_query_weight pipeline)
                  (cos_state (F := F) pipeline h) query start count in
  match parse space upper pipeline query with
  | PErr e => result = PErr e /\ (e = PRequired \/ e = PPositive \/ e = PCommon)
  | POk (n, _) => exists r, result = POk r /\ (r = None <-> stopped pipeline n) /\
      forall m, r = Some m -> forall d, mem d m = true <->
        exists ws, get (docs_of pipeline h) d = Some ws /\
                   satisfies pipeline (phrase_found (slx (cos_state (F := F) pipeline h))) ws n
  end.
Proof. exact @default_cosine. Qed.
Print Assumptions C64_cosine_default.
(** The premises hold of ASCII; a query that is answered and one that is not. *)
Example C64_default_ex :
  (forall c, ascii_word c = true -> ~ In c re_meta) /\ ascii_word 10 = false /\ lower_plain ascii_lower /\
  default_pipeline ascii_word ascii_lower = ascii_pipeline /\
  history_ok ascii_pipeline ex_hist /\ texts_small ascii_pipeline ex_hist /\
  let ask q := apply ascii_space ascii_upper ascii_pipeline ascii_pipeline (python_search_wids 3 0)
                 (okapi_query_weight ascii_pipeline 3) (okapi_state ascii_pipeline ex_hist) (txt q) 5 (Some 7) in
  (exists m, ask "fox OR (the qu?c* -zebra) AND NOT ""brown fox""" = POk (Some m) /\ keys m = [1; 2]) /\
  ask "fox AND (" = PErr PRequired.
Proof.
  split; [exact ascii_no_meta|]. split; [reflexivity|]. split; [exact ascii_lower_plain|]. split; [reflexivity|].
  split; [exact ex_hist_ok|]. split; [exact ex_hist_small|]. cbn zeta. split; [|vm_compute; reflexivity].
  eexists. split; vm_compute; reflexivity.
Qed.

(** C64: with any two pipelines, as long as the globs of the query have an ordinary prefix
    and no word of the lexicon contains a line feed. *)
Theorem C64_okapi_documents : forall F (AF : Arith F), SafeArith F -> forall space upper, space 45 = false ->
  forall (K1 B : F), OkapiSafe K1 B -> forall pipeline h, history_ok pipeline h -> texts_small pipeline h ->
  forall qp query start count n ign, parse space upper qp query = POk (n, ign) ->
  (forall p, In (NGlob p) (leaves n) -> good_glob p /\ no_newline (slx (okapi_state pipeline h))) ->
  exists r, apply space upper qp pipeline (python_search_wids K1 B) (okapi_query_weight pipeline K1)
              (okapi_state pipeline h) query start count = POk r /\
    (r = None <-> stopped pipeline n) /\
    forall m, r = Some m -> forall d, mem d m = true <->
      exists ws, get (docs_of pipeline h) d = Some ws /\
                 satisfies pipeline (phrase_found (slx (okapi_state pipeline h))) ws n.
Proof. exact @okapi_apply_docs. Qed.
Print Assumptions C64_okapi_documents.
Theorem C64_cosine_documents : forall F (AF : Arith F), SafeArith F -> forall space upper, space 45 = false ->
  SoundEq F -> forall pipeline h, history_ok pipeline h ->
  forall qp query start count n ign, parse space upper qp query = POk (n, ign) ->
  (forall p, In (NGlob p) (leaves n) -> good_glob p /\ no_newline (slx (cos_state (F := F) pipeline h))) ->
  exists r, apply space upper qp pipeline cos_search_wids (cos_query_weight pipeline)
              (cos_state (F := F) pipeline h) query start count = POk r /\
    (r = None <-> stopped pipeline n) /\
    forall m, r = Some m -> forall d, mem d m = true <->
      exists ws, get (docs_of pipeline h) d = Some ws /\
                 satisfies pipeline (phrase_found (slx (cos_state (F := F) pipeline h))) ws n.
Proof. exact @cos_apply_docs. Qed.
Print Assumptions C64_cosine_documents.
(** A parse error is passed on. *)
Theorem C64_parse_errors : forall V F (AF : Arith F) space upper qp pipeline search_wids query_weight (s : sys V) query start count e,
  parse space upper qp query = PErr e ->
  apply (F := F) space upper qp pipeline search_wids query_weight s query start count = PErr e.
Proof. exact @apply_error. Qed.
Print Assumptions C64_parse_errors.

(** C64: the scores, in exact arithmetic: what the leaves find ([leaf_result]), combined
    as the tree says ([score]), divided by the query weight, or by 1 if that is 0. *)
Theorem C64_okapi_scores : forall F (AF : Arith F), SafeArith F -> forall space upper, space 45 = false ->
  forall (K1 B : F), OkapiSafe K1 B -> forall pipeline h, history_ok pipeline h -> texts_small pipeline h ->
  ExactArith F -> forall qp query start count n ign, parse space upper qp query = POk (n, ign) ->
  (forall p, In (NGlob p) (leaves n) -> good_glob p /\ no_newline (slx (okapi_state pipeline h))) ->
  let c := bm25 K1 B (docs_of pipeline h) (total_words (docs_of pipeline h) + words_cleared pipeline h) in
  let q := okapi_weight K1 (docs_of pipeline h) (flat_map (fun t => text_words pipeline (term_text t)) (terms n)) in
  exists found,
    (forall x, In x (leaves n) ->
       leaf_result pipeline (slx (okapi_state pipeline h)) (docs_of pipeline h) c x (found x)) /\
    exists r, apply space upper qp pipeline (python_search_wids K1 B) (okapi_query_weight pipeline K1)
                (okapi_state pipeline h) query start count = POk r /\
      (r = None <-> stopped pipeline n) /\
      forall m, r = Some m -> forall d,
        get m d = option_map (fun v => fdiv v (if feqb q f0 then f1 else q)) (score found d n).
Proof. exact @okapi_apply_scores. Qed.
Print Assumptions C64_okapi_scores.
Theorem C64_cosine_scores : forall F (AF : Arith F), SafeArith F -> forall space upper, space 45 = false ->
  ExactArith F -> forall pipeline h, history_ok pipeline h ->
  forall qp query start count n ign, parse space upper qp query = POk (n, ign) ->
  (forall p, In (NGlob p) (leaves n) -> good_glob p /\ no_newline (slx (cos_state (F := F) pipeline h))) ->
  let q := cos_weight (docs_of pipeline h) (flat_map (fun t => text_words pipeline (term_text t)) (terms n)) in
  exists found,
    (forall x, In x (leaves n) ->
       leaf_result pipeline (slx (cos_state (F := F) pipeline h)) (docs_of pipeline h) (cosine (docs_of pipeline h)) x (found x)) /\
    exists r, apply space upper qp pipeline cos_search_wids (cos_query_weight pipeline)
                (cos_state (F := F) pipeline h) query start count = POk r /\
      (r = None <-> stopped pipeline n) /\
      forall m, r = Some m -> forall d,
        get m d = option_map (fun v => fdiv v (if feqb q f0 then f1 else q)) (score found d n).
Proof. exact @cos_apply_scores. Qed.
Print Assumptions C64_cosine_scores.

(** C64: over the real numbers, the scores of a query without globs (other than below NOT)
    are in (0, 1]; for the cosine index, when no word occurs twice in it. *)
Theorem C64_okapi_range : forall space upper qp pipeline h, space 45 = false -> history_ok pipeline h ->
  forall K1 B : R, (0 <= K1)%R -> (0 <= B <= 1)%R -> texts_small pipeline h ->
  forall query start count n ign m d v, parse space upper qp query = POk (n, ign) ->
  (forall p, In (NGlob p) (leaves n) -> good_glob p /\ no_newline (slx (okapi_state pipeline h))) ->
  (forall p, ~ In (NGlob p) (positive_leaves n)) ->
  apply space upper qp pipeline (python_search_wids K1 B) (okapi_query_weight pipeline K1)
    (okapi_state pipeline h) query start count = POk (Some m) ->
  get m d = Some v -> (0 < v <= 1)%R.
Proof. exact @okapi_apply_range. Qed.
Print Assumptions C64_okapi_range.
Theorem C64_cosine_range : forall space upper qp pipeline h, space 45 = false -> history_ok pipeline h ->
  forall query start count n ign m d v, parse space upper qp query = POk (n, ign) ->
  (forall p, In (NGlob p) (leaves n) -> good_glob p /\ no_newline (slx (cos_state (F := R) pipeline h))) ->
  (forall p, ~ In (NGlob p) (positive_leaves n)) ->
  NoDup (flat_map (fun t => text_words pipeline (term_text t)) (terms n)) ->
  apply space upper qp pipeline cos_search_wids (cos_query_weight pipeline)
    (cos_state (F := R) pipeline h) query start count = POk (Some m) ->
  get m d = Some v -> (0 < v <= 1)%R.
Proof. exact @cos_apply_range. Qed.
Print Assumptions C64_cosine_range.
(** A parsed query that meets the premises. *)
Example C64_ex :
  let n := NOr [NAtom (txt "dog"); NAnd [NPhrase [txt "brown"; txt "fox"]; NNot (NGlob (txt "ze*"))]] in
  parse ascii_space ascii_upper ascii_pipeline (txt "Dog OR ""the brown fox"" -ze*") = POk (n, []) /\
  (forall p, In (NGlob p) (leaves n) -> good_glob p /\ no_newline (slx (okapi_state ascii_pipeline ex_hist))) /\
  (forall p, ~ In (NGlob p) (positive_leaves n)).
Proof.
  cbn zeta. split; [vm_compute; reflexivity|].
  assert (Hn : no_newline (slx (okapi_state ascii_pipeline ex_hist))) by (apply check_newline_ok; vm_compute; reflexivity).
  split; [|intros p H; cbn in H; intuition discriminate].
  intros p Hp. split; [|exact Hn]. cbn [leaves flat_map app In] in Hp. destruct Hp as [Hp|[Hp|[Hp|[]]]]; try discriminate.
  injection Hp as <-. exists (txt "ze"), 42, []. split; [reflexivity|]. split; [discriminate|].
  split; [|left; reflexivity]. intros c [<-|[<-|[]]]; cbn; intuition discriminate.
Qed.

(** C63: with the default pipeline, a document is found by every word [u] of its text --
    a maximal run of word characters -- other than a stop word or keyword, provided that
    lower-casing gives a word that the splitter and lower-casing leave unchanged. *)
Theorem C63_okapi_own_words : forall F (AF : Arith F), SafeArith F -> forall space upper, space 45 = false ->
  forall word_char lower, (forall c, word_char c = true -> ~ In c re_meta) ->
  (forall c, word_char c = true -> ordinary space c) -> word_char 45 = false ->
  let pipeline := default_pipeline word_char lower in
  forall text us u, runs word_char text us -> In u us ->
  ~ In (upper u) operators -> ~ In (lower u) english_stop_words ->
  lower u <> [] -> Forall (fun c => word_char c = true) (lower u) -> lower (lower u) = lower u ->
  forall K1 B : F, OkapiSafe K1 B -> forall h d start count, history_ok pipeline h -> texts_small pipeline h ->
  get (docs_of pipeline h) d = Some (text_words pipeline (TxStr text)) ->
  exists m, apply space upper pipeline pipeline (python_search_wids K1 B) (okapi_query_weight pipeline K1)
              (okapi_state pipeline h) u start count = POk (Some m) /\ mem d m = true.
Proof. exact @own_okapi. Qed.
Print Assumptions C63_okapi_own_words.
Theorem C63_cosine_own_words : forall F (AF : Arith F), SafeArith F -> forall space upper, space 45 = false ->
  forall word_char lower, (forall c, word_char c = true -> ~ In c re_meta) ->
  (forall c, word_char c = true -> ordinary space c) -> word_char 45 = false ->
  let pipeline := default_pipeline word_char lower in
  forall text us u, runs word_char text us -> In u us ->
  ~ In (upper u) operators -> ~ In (lower u) english_stop_words ->
  lower u <> [] -> Forall (fun c => word_char c = true) (lower u) -> lower (lower u) = lower u ->
  SoundEq F -> forall h d start count, history_ok pipeline h ->
  get (docs_of pipeline h) d = Some (text_words pipeline (TxStr text)) ->
  exists m, apply space upper pipeline pipeline cos_search_wids (cos_query_weight pipeline)
              (cos_state (F := F) pipeline h) u start count = POk (Some m) /\ mem d m = true.
Proof. exact @own_cosine. Qed.
Print Assumptions C63_cosine_own_words.
Example C63_ex :
  let pipeline := default_pipeline ascii_word ascii_lower in
  let text := txt "Quick, quick: a dog!" in
  (forall c, ascii_word c = true -> ordinary ascii_space c) /\
  runs ascii_word text [txt "Quick"; txt "quick"; txt "a"; txt "dog"] /\
  ~ In (ascii_lower (txt "Quick")) english_stop_words /\
  get (docs_of pipeline ex_hist) 2 = Some (text_words pipeline (TxStr text)).
Proof.
  split; [exact ascii_ordinary|]. split.
  { replace [txt "Quick"; txt "quick"; txt "a"; txt "dog"] with (findall (rx_word ascii_word) (txt "Quick, quick: a dog!")).
    - apply L_split.runs_findall.
    - vm_compute. reflexivity. }
  split; [|vm_compute; reflexivity].
  assert (E : existsb (eqb (ascii_lower (txt "Quick"))) english_stop_words = false) by (vm_compute; reflexivity).
  intros H. apply existsb_eqb_In in H. congruence.
Qed.
(** Without the proviso it fails: a character whose lower case contains one that is not a
    word character, as U+0130 in Python. *)
Theorem C63_no_proviso_refuted : exists space upper word_char lower text us u h d,
  space 45 = false /\ (forall c, word_char c = true -> ~ In c re_meta) /\
  (forall c, word_char c = true -> ordinary space c) /\ word_char 45 = false /\
  runs word_char text us /\ In u us /\
  ~ In (upper u) operators /\ ~ In (lower u) english_stop_words /\
  let pipeline := default_pipeline word_char lower in
  history_ok pipeline h /\ texts_small pipeline h /\
  get (docs_of pipeline h) d = Some (text_words pipeline (TxStr text)) /\
  exists m, apply space upper pipeline pipeline (python_search_wids 1.2%R 0.75%R) (okapi_query_weight pipeline 1.2%R)
              (okapi_state pipeline h) u 0 None = POk (Some m) /\ mem d m = false.
Proof.
  exists ascii_space, ascii_upper, dot_word, dot_lower, [304], [[304]], [304], dot_hist, 1.
  split; [reflexivity|].
  split. { intros c H. unfold dot_word in H. apply orb_true_iff in H as [H|H]; [exact (ascii_no_meta c H)|]. apply Z.eqb_eq in H. subst c. cbn; intuition discriminate. }
  split. { intros c H. unfold dot_word in H. apply orb_true_iff in H as [H|H]; [exact (ascii_ordinary c H)|]. apply Z.eqb_eq in H. subst c. repeat split; discriminate. }
  split; [reflexivity|]. split. { apply L_split.runs_findall. } split; [left; reflexivity|].
  split. { intros H. vm_compute in H. intuition discriminate. }
  split. { intros H. apply existsb_eqb_In in H. vm_compute in H. discriminate. }
  cbn zeta. split; [apply check_history_ok; vm_compute; reflexivity|]. split; [apply check_small_ok; vm_compute; reflexivity|].
  split; [vm_compute; reflexivity|]. exact (dot_not_found 1.2%R 0.75%R).
Qed.
Print Assumptions C63_no_proviso_refuted.
