(** * Specification of scores *)
From Verif Require Export S_text Arith SMap Ord.

Definition contains (ws : list str) (w : str) : bool := existsb (eqb w) ws.
(** The number of documents containing a word. *)
Definition doc_freq (D : smap Z (list str)) (w : str) : Z := Zlen (filter (fun ws => contains ws w) (vals D)).

Section Scores.
  Context {F : Type} {AF : Arith F}.

  (** The inverse document frequency, log(1 + N/f(t)). *)
  Definition idf (D : smap Z (list str)) (w : str) : F :=
    fln (fadd f1 (fdiv (fofZ (Zsize D)) (fofZ (doc_freq D w)))).

  (** BM25: the term frequency for a document of [len] words containing the word [f]
      times, when documents have [mean] words on average. *)
  Definition bm25_tf (K1 B mean : F) (len f : Z) : F :=
    fdiv (fmul (fofZ f) (fadd K1 f1))
         (fadd (fofZ f) (fmul K1 (fadd (fsub f1 B) (fdiv (fmul B (fofZ len)) mean)))).
  (** The score of a word for a document with words [ws], when [total] is the number of
      words of all documents. *)
  Definition bm25 (K1 B : F) (D : smap Z (list str)) (total : Z) (w : str) (ws : list str) : F :=
    fmul (bm25_tf K1 B (fdiv (fofZ total) (fofZ (Zsize D))) (Zlen ws) (occurrences w ws)) (idf D w).

  (** Managing Gigabytes: w(d,t) = 1 + log f(d,t), W(d) = sqrt(sum w(d,t)^2). *)
  Definition term_weight (w : str) (ws : list str) : F := fadd f1 (fln (fofZ (occurrences w ws))).
  Definition doc_norm (ws : list str) : F :=
    fsqrt (lsum (map (fun w => fmul (term_weight w ws) (term_weight w ws)) (distinct ws))).
  Definition cosine_weight (w : str) (ws : list str) : F := fdiv (term_weight w ws) (doc_norm ws).
  Definition cosine (D : smap Z (list str)) (w : str) (ws : list str) : F := fmul (cosine_weight w ws) (idf D w).

  (** The score of a list of words for a document: the sum over those it contains. *)
  Definition words_score (c : str -> list str -> F) (q ws : list str) : F :=
    fsum (map (fun w => c w ws) (filter (contains ws) q)).

  (** What the Okapi index needs of the arithmetic and of its parameters in order not to
      divide by zero: true of real numbers (see RArith.v) and of floating point numbers. *)
  Class OkapiSafe (K1 B : F) : Prop := {
    okapi_mean : forall T N, 1 <= T -> 1 <= N ->
      feqb (fofZ N) f0 = false /\ feqb (fdiv (fofZ T) (fofZ N)) f0 = false;
    okapi_denominator : forall T N len f, 1 <= T -> 1 <= N -> 1 <= len -> 1 <= f ->
      feqb (fadd (fofZ f) (fmul K1 (fadd (fsub f1 B) (fdiv (fmul B (fofZ len)) (fdiv (fofZ T) (fofZ N)))))) f0 = false
  }.
End Scores.
