(** * Specification of text indexes: states and what can be observed of them *)
From Verif Require Export S_text S_score M_okapi M_cosine SMap Ord.

(** The index after a history. *)
Definition okapi_state (pipeline : list elem) (h : list top) : sys Z := fst (okapi_run pipeline h).
Definition cos_state {F} {AF : Arith F} (pipeline : list elem) (h : list top) : sys F := fst (cos_run pipeline h).

Definition no_clear (h : list top) : Prop := ~ In TClear h.

(** Two indexes of the same class cannot be told apart by has_doc, get_words and the
    counts. *)
Definition same_docs_view {V} (a b : sys V) : Prop :=
  slx a = slx b /\
  (forall d, has_doc (six a) d = has_doc (six b) d) /\
  (forall d, get_words (six a) d = get_words (six b) d) /\
  documentCount (six a) = documentCount (six b) /\
  wordCount (six a) = wordCount (six b).
(** Nor by searches, whatever the arithmetic and the parameters. *)
Definition okapi_same (pipeline : list elem) (a b : sys Z) : Prop :=
  same_docs_view a b /\
  forall F (AF : Arith F) (K1 B : F),
    (forall t, search pipeline (python_search_wids K1 B) a t = search pipeline (python_search_wids K1 B) b t) /\
    (forall t, search_phrase pipeline (python_search_wids K1 B) a t = search_phrase pipeline (python_search_wids K1 B) b t) /\
    (forall p, search_glob (python_search_wids K1 B) a p = search_glob (python_search_wids K1 B) b p) /\
    (forall ts, okapi_query_weight pipeline K1 a ts = okapi_query_weight pipeline K1 b ts).
Definition cos_same {F} {AF : Arith F} (pipeline : list elem) (a b : sys F) : Prop :=
  same_docs_view a b /\
  (forall t, search pipeline cos_search_wids a t = search pipeline cos_search_wids b t) /\
  (forall t, search_phrase pipeline cos_search_wids a t = search_phrase pipeline cos_search_wids b t) /\
  (forall p, search_glob cos_search_wids a p = search_glob cos_search_wids b p) /\
  (forall ts, cos_query_weight pipeline a ts = cos_query_weight pipeline b ts).

(** A document with words [ws] contains one of the words [q]; all of them, in a row. *)
Definition has_some (q ws : list str) : Prop := exists w, In w q /\ In w ws.
Definition in_a_row (q ws : list str) : Prop := exists a b, ws = a ++ q ++ b.
