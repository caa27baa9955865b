(** * Properties C41-C43: splitters and stop words (text/lexicon.py,
      text/htmlsplitter.py, text/stopdict.py)

    [p] classifies characters (the class \w), [lower] is [str.lower]; both are
    arbitrary up to the stated assumptions.  [runs p s ws] and [glob_runs p s ws]
    (S_split.v) say that [ws] are the maximal runs in [s]. *)
From Verif Require Import S_lexicon S_split M_split L_split SMap Ord.

(** 'it_s, a  b2b.' *)
Definition ex_text : str := [105; 116; 95; 115; 44; 32; 97; 32; 32; 98; 50; 98; 46].

(** C41: the splitter returns the maximal runs of word characters, in order. *)
Theorem C41_splitter : forall (p : char -> bool) (l : list str),
  exists wss, Forall2 (runs p) l wss /\ splitter_process p l = concat wss.
Proof. exact splitter_runs. Qed.
Print Assumptions C41_splitter.
Example C41_splitter_ex :
  splitter_process ascii_word [ex_text; [97]] = [[105; 116; 95; 115]; [97]; [98; 50; 98]; [97]].
Proof. vm_compute; reflexivity. Qed.

(** C41: there is only one way to cut a text into maximal runs. *)
Theorem C41_runs_unique : forall (p : char -> bool) s ws ws', runs p s ws -> runs p s ws' -> ws = ws'.
Proof. exact runs_functional. Qed.
Print Assumptions C41_runs_unique.
Example C41_runs_unique_ex : runs ascii_word [44; 97; 98; 32] [[97; 98]].
Proof.
  apply runs_sep; [reflexivity|]. apply (runs_word _ [97; 98] [32] []); [discriminate|repeat constructor|intros c s [= <- <-]; reflexivity|].
  apply runs_sep; [reflexivity|]. constructor.
Qed.

(** C41: every result is a non-empty string of word characters. *)
Theorem C41_words : forall (p : char -> bool) (l : list str),
  Forall (fun w => w <> [] /\ Forall (fun c => p c = true) w) (splitter_process p l).
Proof. exact process_words. Qed.
Print Assumptions C41_words.

(** C41: splitting again changes nothing. *)
Theorem C41_idempotent : forall (p : char -> bool) (l : list str),
  splitter_process p (splitter_process p l) = splitter_process p l.
Proof. exact splitter_idempotent. Qed.
Print Assumptions C41_idempotent.
Example C41_idempotent_ex : splitter_process ascii_word [[97]; [98; 50]] = [[97]; [98; 50]].
Proof. vm_compute; reflexivity. Qed.

(** C41: for queries, wildcards that follow a word character belong to the word. *)
Theorem C41_globs : forall (p : char -> bool) (l : list str),
  exists wss, Forall2 (glob_runs p) l wss /\ splitter_processGlob p l = concat wss.
Proof. exact splitter_glob_runs. Qed.
Print Assumptions C41_globs.
(** '*a?b* ?c' *)
Example C41_globs_ex :
  splitter_processGlob ascii_word [[42; 97; 63; 98; 42; 32; 63; 99]] = [[97; 63; 98; 42]; [99]].
Proof. vm_compute; reflexivity. Qed.
Theorem C41_globs_unique : forall (p : char -> bool) s ws ws', glob_runs p s ws -> glob_runs p s ws' -> ws = ws'.
Proof. exact gruns_unique. Qed.
Print Assumptions C41_globs_unique.

(** C41: queries without wildcards are split like documents. *)
Theorem C41_same_as_documents : forall (p : char -> bool) (l : list str),
  (forall s c, In s l -> In c s -> c <> chr_star /\ c <> chr_qm) ->
  splitter_processGlob p l = splitter_process p l.
Proof. exact glob_no_wildcards. Qed.
Print Assumptions C41_same_as_documents.
Example C41_same_as_documents_ex :
  splitter_processGlob ascii_word [ex_text] = [[105; 116; 95; 115]; [97]; [98; 50; 98]].
Proof. vm_compute; reflexivity. Qed.

(** C41, C39: patterns cut out by the splitter always satisfy the hypotheses of the
    exactness theorem of glob expansion (when word characters are not special in
    regular expressions, as is the case for \w). *)
Theorem C41_globs_are_safe : forall (p : char -> bool) (l : list str) (g : str),
  (forall c, p c = true -> ~ In c re_meta) -> In g (splitter_processGlob p l) ->
  exists prefix rest, g = prefix ++ rest /\ prefix <> [] /\ plain prefix /\
    (rest = [] \/ exists c r, rest = c :: r /\ (c = chr_star \/ c = chr_qm)).
Proof. exact glob_output_plain. Qed.
Print Assumptions C41_globs_are_safe.
Example C41_globs_are_safe_ex : forall c, ascii_word c = true -> ~ In c re_meta.
Proof. unfold ascii_word, re_meta. cbn [In]. intros c H. lia. Qed.

(** C41: as the only element of a pipeline, [Splitter] does this to documents and to the
    terms of queries. *)
Theorem C41_pipeline : forall (p : char -> bool) (t : ltext),
  run_pipeline [Splitter p] (text2list t) = splitter_process p (text2list t) /\
  parseTerms [Splitter p] t = splitter_processGlob p (text2list t).
Proof. exact splitter_pipeline. Qed.
Print Assumptions C41_pipeline.
Example C41_pipeline_ex : parseTerms [Splitter ascii_word] (TxStr [42; 97; 63; 98; 42; 32; 63; 99]) = [[97; 63; 98; 42]; [99]].
Proof. vm_compute; reflexivity. Qed.

(** C42: [StopWordRemover] drops the stop words and keeps everything else, in order. *)
Theorem C42_stop_words : forall (l1 : list str) (w : str) (l2 : list str),
  (In w english_stop_words -> stop_process (l1 ++ w :: l2) = stop_process l1 ++ stop_process l2) /\
  (~ In w english_stop_words -> stop_process (l1 ++ w :: l2) = stop_process l1 ++ w :: stop_process l2).
Proof. exact stop_spec. Qed.
Print Assumptions C42_stop_words.
(** 'the', 'thex', '', 'with', 'b' *)
Example C42_stop_words_ex :
  stop_process [[116; 104; 101]; [116; 104; 101; 120]; []; [119; 105; 116; 104]; [98]] = [[116; 104; 101; 120]; []; [98]].
Proof. vm_compute; reflexivity. Qed.

(** C42: [StopWordAndSingleCharRemover] drops stop words and words that consist of
    one character below 255, and keeps everything else, in order. *)
Theorem C42_single_chars : forall (l1 : list str) (w : str) (l2 : list str),
  (In w english_stop_words \/ (exists c, w = [c] /\ 0 <= c < 255) ->
     stop1_process (l1 ++ w :: l2) = stop1_process l1 ++ stop1_process l2) /\
  (~ (In w english_stop_words \/ (exists c, w = [c] /\ 0 <= c < 255)) ->
     stop1_process (l1 ++ w :: l2) = stop1_process l1 ++ w :: stop1_process l2).
Proof. exact stop1_spec. Qed.
Print Assumptions C42_single_chars.
Example C42_single_chars_ex : stop1_process [[98]; [254]; [116; 104; 101]; [98; 98]; []] = [[98; 98]; []].
Proof. vm_compute; reflexivity. Qed.

(** C42: other words of one character are kept. *)
Theorem C42_single_chars_refuted : exists c, stop1_process [[c]] = [[c]].
Proof. exists 255. vm_compute; reflexivity. Qed.
Print Assumptions C42_single_chars_refuted.

(** C42: in a pipeline both do this to documents and to the terms of queries, with and
    without wildcards, and [CaseNormalizer] lower-cases both. *)
Theorem C42_pipeline : forall (lower : str -> str) (pipeline : list elem) (l : list str),
  run_pipeline (StopWordRemover :: pipeline) l = run_pipeline pipeline (stop_process l) /\
  run_pipeline_glob (StopWordRemover :: pipeline) l = run_pipeline_glob pipeline (stop_process l) /\
  run_pipeline (StopWordAndSingleCharRemover :: pipeline) l = run_pipeline pipeline (stop1_process l) /\
  run_pipeline_glob (StopWordAndSingleCharRemover :: pipeline) l = run_pipeline_glob pipeline (stop1_process l) /\
  run_pipeline (CaseNormalizer lower :: pipeline) l = run_pipeline pipeline (map lower l) /\
  run_pipeline_glob (CaseNormalizer lower :: pipeline) l = run_pipeline_glob pipeline (map lower l).
Proof. exact stop_pipeline. Qed.
Print Assumptions C42_pipeline.
(** 'The', 'the*', 'b' *)
Example C42_pipeline_ex :
  run_pipeline_glob [CaseNormalizer ascii_lower; StopWordRemover] [[84; 104; 101]; [116; 104; 101; 42]; [98]] = [[116; 104; 101; 42]; [98]].
Proof. vm_compute; reflexivity. Qed.

(** C43: a tag, or a character entity outside tags, only separates words; both when
    indexing and when querying. *)
Theorem C43_markup_separates : forall (p : char -> bool) (lower : str -> str) (a m b : str),
  lower_ok lower -> p 32 = false ->
  (exists t, m = 60 :: t ++ [62] /\ forall c, In c t -> c <> 60 /\ c <> 62) \/
  (exists t, m = 38 :: t ++ [59] /\ t <> [] /\ Forall letter t) /\ no_open_tag a ->
  html_process p lower [a ++ m ++ b] = html_process p lower [a] ++ html_process p lower [b] /\
  html_processGlob p lower [a ++ m ++ b] = html_processGlob p lower [a] ++ html_processGlob p lower [b].
Proof. exact html_markup. Qed.
Print Assumptions C43_markup_separates.
(** 'A<b c="d">e&amp;F< g' *)
Example C43_markup_separates_ex :
  html_process ascii_word ascii_lower [[65; 60; 98; 32; 99; 61; 34; 100; 34; 62; 101; 38; 97; 109; 112; 59; 70; 60; 32; 103]]
  = [[97]; [101]; [102]; [103]].
Proof. vm_compute; reflexivity. Qed.
Example lower_ok_ex : lower_ok ascii_lower /\ ascii_word 32 = false.
Proof. split; [exact ascii_lower_ok|reflexivity]. Qed.

(** C43: text without '<' and '&' is lower-cased and split. *)
Theorem C43_plain_text : forall (p : char -> bool) (lower : str -> str) (l : list str),
  lower_ok lower -> (forall s, In s l -> ~ In 60 s /\ ~ In 38 s) ->
  html_process p lower l = splitter_process p (map lower l) /\
  html_processGlob p lower l = splitter_processGlob p (map lower l).
Proof. exact html_like_plain. Qed.
Print Assumptions C43_plain_text.
Example C43_plain_text_ex : html_process ascii_word ascii_lower [[65; 62; 66; 59]] = [[97]; [98]].
Proof. vm_compute; reflexivity. Qed.

(** C43: as an element of a pipeline, [HTMLWordSplitter] does this to documents and to the
    terms of queries. *)
Theorem C43_pipeline : forall (p : char -> bool) (lower : str -> str) (pipeline : list elem) (l : list str),
  run_pipeline (HTMLWordSplitter p lower :: pipeline) l = run_pipeline pipeline (html_process p lower l) /\
  run_pipeline_glob (HTMLWordSplitter p lower :: pipeline) l = run_pipeline_glob pipeline (html_processGlob p lower l).
Proof. exact html_pipeline. Qed.
Print Assumptions C43_pipeline.
(** '<i>A*</i>b' *)
Example C43_pipeline_ex :
  run_pipeline_glob [HTMLWordSplitter ascii_word ascii_lower] [[60; 105; 62; 65; 42; 60; 47; 105; 62; 98]] = [[97; 42]; [98]].
Proof. vm_compute; reflexivity. Qed.
