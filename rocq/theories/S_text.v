(** * Specification of text indexes: what the documents are after a history *)
From Verif Require Export M_baseindex S_lexicon S_common SMap Ord.

Section Docs.
  Variable pipeline : list elem.

  (** The documents after a history, as lists of words: the last text indexed under a
      document id that was not unindexed or cleared since. *)
  Definition docs_step (D : smap Z (list str)) (o : top) : smap Z (list str) :=
    match o with
    | TIndex d t => put d (text_words pipeline t) D
    | TUnindex d => del d D
    | TClear => empty
    | TOther _ => D
    end.
  Definition docs_of (h : list top) : smap Z (list str) := fold_left docs_step h empty.

  (** What happens to the lexicon in a history. *)
  Definition lex_hist (h : list top) : list lop :=
    flat_map (fun o => match o with TIndex _ t => [LText t] | TOther o => [o] | _ => [] end) h.

  (** The histories considered: word ids stay below 2^28 and nobody sets the counter of
      the lexicon to a negative number. *)
  Definition history_ok (h : list top) : Prop :=
    counter_ok (lex_hist h) /\
    forall i, In i (lex_wids (lex_run pipeline (lex_hist h))) -> i < 2 ^ 28.
End Docs.

(** How often a word occurs in a document. *)
Definition occurrences (w : str) (ws : list str) : Z := Zlen (filter (eqb w) ws).
(** The number of words of all documents. *)
Definition total_words (D : smap Z (list str)) : Z := fold_right Z.add 0 (map Zlen (vals D)).
(** The distinct words of all documents. *)
Definition vocabulary (D : smap Z (list str)) : list str := distinct (concat (vals D)).

(** The map from documents to weights kept for a word. *)
Definition posting_of {V} (s : sys V) (w : str) : smap Z V :=
  match get (wordinfo (six s)) (get_wid (slx s) w) with Some p => p_map p | None => empty end.

(** The number of words that were in the index when it was cleared, over all [clear]s of
    a history. *)
Definition words_cleared (pipeline : list elem) (h : list top) : Z :=
  snd (fold_left (fun Dn o => (docs_step pipeline (fst Dn) o,
                               match o with TClear => snd Dn + total_words (fst Dn) | _ => snd Dn end)) h (empty, 0)).
(** No text of the history has more than 2^24 words. *)
Definition texts_small (pipeline : list elem) (h : list top) : Prop :=
  forall d t, In (TIndex d t) h -> Zlen (text_words pipeline t) <= 2 ^ 24.
