(** * Specification: indexes that answer alike *)
From Verif Require Export S_textindex SMap Ord.

(** No word of the documents can be mistaken for the last word of the phrase [q] because
    of the word ids (see C57).  In particular, all phrases are exact while word ids are
    below 128. *)
Definition exact_phrase (lx : lex) (D : smap Z (list str)) (q : list str) : Prop :=
  Zlen q <= 1 \/
  forall init l w k, q = init ++ [l] -> In l (vocabulary D) -> In w (vocabulary D) -> 1 <= k <= 3 ->
    get_wid lx w / 128 ^ k <> get_wid lx l.

(** The words of a document, as text. *)
Definition doc_text {V} (s : sys V) (d : Z) : res (list str) :=
  do wids <- get_words (six s) d; mapM (get_word (slx s)) wids.

(** Two indexes have the same documents; word ids may differ. *)
Definition same_texts {V} (a b : sys V) : Prop :=
  (forall d, has_doc (six a) d = has_doc (six b) d) /\
  (forall d, doc_text a d = doc_text b d) /\
  documentCount (six a) = documentCount (six b) /\
  wordCount (six a) = wordCount (six b).

(** Two indexes give the same answers: documents, scores and exceptions.  Phrases are
    only considered if they satisfy [exact]. *)
Section Answers.
  Context {V F : Type} {AF : Arith F}.
  Variable pipeline : list elem.
  Variable search_wids : bindex V -> list Z -> res (list (smap Z F * F)).
  Variable query_weight : sys V -> list ltext -> res F.
  Variable exact : list str -> Prop.

  Definition same_answers (a b : sys V) : Prop :=
    (forall t, search pipeline search_wids a t = search pipeline search_wids b t) /\
    (forall t, exact (text_words pipeline t) -> search_phrase pipeline search_wids a t = search_phrase pipeline search_wids b t) /\
    (forall p, search_glob search_wids a p = search_glob search_wids b p) /\
    (forall ts, query_weight a ts = query_weight b ts) /\
    (forall space upper qp query start count,
       (forall n ign q, parseQuery space upper (fun t => parseTerms qp (TxStr t)) isGlob query = POk (n, ign) ->
          In (NPhrase q) (leaves n) -> exact (text_words pipeline (TxList q))) ->
       apply space upper qp pipeline search_wids query_weight a query start count =
       apply space upper qp pipeline search_wids query_weight b query start count).
End Answers.
