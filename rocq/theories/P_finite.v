(** * Property C81: scores are finite positive numbers in IEEE 754 arithmetic

    C65 says that no query raises in binary64 arithmetic, whatever rounding does.  Here the
    scores themselves are considered, with the constants 1.2 and 0.75 of the Okapi index and
    binary32 storage: every score that comes back with a document is a finite number and is
    greater than zero, so that it is never a NaN, an infinity or a zero reached by underflow,
    and documents can be ranked by it.  The logarithm is any function that is right within a
    factor of two from 1 on ([rough_ln], IEEE.v), and not negative there ([sane_ln]).  What is
    limited is how much there is: texts of at most 2^24 words, 2^64 documents, and a query of at
    most 2^24 words ([query_size], S_finite.v), where a pattern counts as many words as the
    lexicon has. *)
From Verif Require Import Text S_textapi S_score S_tree S_parser S_split S_textindex S_finite L_textex Arith IEEE L_ieee L_unit L_finite L_finb64 L_finex SMap Ord.
From Coq Require Import Reals.
From Flocq Require Import Core.Core IEEE754.BinarySingleNaN.
Open Scope string_scope.
Open Scope list_scope.
Open Scope Z_scope.

Local Notation parse space upper qp := (parseQuery space upper (fun t => query_words qp (TxStr t)) has_wildcard).

(** C81, for the Okapi index with its Python and with its C scorer ... *)
Theorem C81_okapi : forall ln, sane_ln ln -> rough_ln ln -> forall pipeline h, history_ok pipeline h -> texts_small pipeline h ->
  Zsize (docs_of pipeline h) <= 2 ^ 64 -> forall space upper qpipeline query start count n ign m d v,
  parse space upper qpipeline query = POk (n, ign) -> query_size pipeline (slx (okapi_state pipeline h)) n <= 2 ^ 24 ->
  apply (AF := Arith_b64 ln) space upper qpipeline pipeline (python_search_wids (AF := Arith_b64 ln) K1_b64 B_b64)
    (okapi_query_weight (AF := Arith_b64 ln) pipeline K1_b64) (okapi_state pipeline h) query start count = POk (Some m) ->
  get m d = Some v ->
  is_finite v = true /\ (0 < B2R v)%R /\ (bpow radix2 (-134) <= B2R v <= bpow radix2 42)%R.
Proof. intros ln H1 H2 pipeline h H3 H4 H5 space upper qp query start count n ign m d v H6 H7 H8 H9.
  exact (within_fine v (okapi_finite ln H1 H2 pipeline h H3 H4 H5 space upper qp query start count n ign m d v H6 H7 H8 H9)). Qed.
Print Assumptions C81_okapi.
Theorem C81_okapi_c : forall ln, sane_ln ln -> rough_ln ln -> forall pipeline h, history_ok pipeline h -> texts_small pipeline h ->
  Zsize (docs_of pipeline h) <= 2 ^ 64 -> forall space upper qpipeline query start count n ign m d v,
  parse space upper qpipeline query = POk (n, ign) -> query_size pipeline (slx (okapi_state pipeline h)) n <= 2 ^ 24 ->
  apply (AF := Arith_b64 ln) space upper qpipeline pipeline (c_search_wids (AF := Arith_b64 ln) K1_b64 B_b64)
    (okapi_query_weight (AF := Arith_b64 ln) pipeline K1_b64) (okapi_state pipeline h) query start count = POk (Some m) ->
  get m d = Some v ->
  is_finite v = true /\ (0 < B2R v)%R /\ (bpow radix2 (-134) <= B2R v <= bpow radix2 42)%R.
Proof. intros ln H1 H2 pipeline h H3 H4 H5 space upper qp query start count n ign m d v H6 H7 H8 H9.
  exact (within_fine v (okapi_c_finite ln H1 H2 pipeline h H3 H4 H5 space upper qp query start count n ign m d v H6 H7 H8 H9)). Qed.
Print Assumptions C81_okapi_c.

(** ... and for the cosine index. *)
Theorem C81_cosine : forall ln, sane_ln ln -> rough_ln ln -> forall pipeline h, history_ok pipeline h -> texts_small pipeline h ->
  Zsize (docs_of pipeline h) <= 2 ^ 64 -> forall space upper qpipeline query start count n ign m d v,
  parse space upper qpipeline query = POk (n, ign) ->
  query_size pipeline (slx (cos_state (AF := Arith_b64 ln) pipeline h)) n <= 2 ^ 24 ->
  apply (AF := Arith_b64 ln) space upper qpipeline pipeline (cos_search_wids (AF := Arith_b64 ln))
    (cos_query_weight (AF := Arith_b64 ln) pipeline) (cos_state (AF := Arith_b64 ln) pipeline h) query start count = POk (Some m) ->
  get m d = Some v ->
  is_finite v = true /\ (0 < B2R v)%R /\ (bpow radix2 (-134) <= B2R v <= bpow radix2 42)%R.
Proof. intros ln H1 H2 pipeline h H3 H4 H5 space upper qp query start count n ign m d v H6 H7 H8 H9.
  exact (within_fine v (cosine_finite ln H1 H2 pipeline h H3 H4 H5 space upper qp query start count n ign m d v H6 H7 H8 H9)). Qed.
Print Assumptions C81_cosine.
(** A query with a pattern, in binary64 arithmetic with the correctly rounded logarithm. *)
Example C81_ex :
  sane_ln b64_ln /\ rough_ln b64_ln /\ history_ok ascii_pipeline ex_hist /\ texts_small ascii_pipeline ex_hist /\
  Zsize (docs_of ascii_pipeline ex_hist) <= 2 ^ 64 /\
  parse ascii_space ascii_upper ascii_pipeline (txt "fox OR (qu* AND NOT zebra)") =
    POk (NOr [NAtom (txt "fox"); NAnd [NGlob (txt "qu*"); NNot (NAtom (txt "zebra"))]], []).
Proof.
  split; [exact b64_ln_sane|]. split; [exact (rounded_rough b64_ln b64_ln_rounded)|]. split; [exact ex_hist_ok|]. split; [exact ex_hist_small|].
  split; [|exact fin_parse]. vm_compute. discriminate.
Qed.
Example C81_size_ex : query_size ascii_pipeline (slx (okapi_state ascii_pipeline ex_hist)) fin_tree <= 2 ^ 24 /\
  query_size ascii_pipeline (slx (cos_state (AF := Arith_b64 b64_ln) ascii_pipeline ex_hist)) fin_tree <= 2 ^ 24.
Proof. exact fin_small. Qed.
Example C81_okapi_ex : exists m,
  apply (AF := Arith_b64 b64_ln) ascii_space ascii_upper ascii_pipeline ascii_pipeline (python_search_wids (AF := Arith_b64 b64_ln) K1_b64 B_b64)
    (okapi_query_weight (AF := Arith_b64 b64_ln) ascii_pipeline K1_b64) (okapi_state ascii_pipeline ex_hist)
    (txt "fox OR (qu* AND NOT zebra)") 0 None = POk (Some m) /\ mem 1 m = true.
Proof. exact fin_okapi. Qed.
Example C81_cosine_ex : exists m,
  apply (AF := Arith_b64 b64_ln) ascii_space ascii_upper ascii_pipeline ascii_pipeline (cos_search_wids (AF := Arith_b64 b64_ln))
    (cos_query_weight (AF := Arith_b64 b64_ln) ascii_pipeline) (cos_state (AF := Arith_b64 b64_ln) ascii_pipeline ex_hist)
    (txt "fox OR (qu* AND NOT zebra)") 0 None = POk (Some m) /\ mem 1 m = true.
Proof. exact fin_cosine. Qed.
