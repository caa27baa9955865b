(** * Property C65: text indexes in IEEE 754 arithmetic

    The properties of text indexes are stated for any arithmetic that satisfies the
    classes [SafeArith], [SoundEq], [OkapiSafe].  Here it is shown that the arithmetic
    of the machine does: [Arith_b64 ln] (IEEE.v) is binary64 arithmetic with binary32
    storage in BTrees and the logarithm [ln], which is only assumed to be [sane_ln]:
    not negative from 1 on.  [K1_b64] and [B_b64] are the constants 1.2 and 0.75. *)
From Verif Require Import Text S_textapi S_score S_tree S_parser S_split S_textindex L_textindex L_textapi L_textex Arith IEEE L_ieee L_ieeetext L_round32 SMap Ord.
From Flocq Require Import IEEE754.BinarySingleNaN.
Open Scope string_scope.
Open Scope list_scope.
Open Scope Z_scope.

Local Notation parse space upper qp := (parseQuery space upper (fun t => query_words qp (TxStr t)) has_wildcard).

(** C65: the arithmetic is safe for both indexes and for any constants K1 >= 0 and
    0 <= B <= 1; ... *)
Theorem C65_safe : forall ln, sane_ln ln -> SafeArith b64 (H := Arith_b64 ln) /\ SoundEq b64 (H := Arith_b64 ln).
Proof. intros ln H. exact (conj (safe_b64 ln H) (sound_b64 ln)). Qed.
Print Assumptions C65_safe.
Theorem C65_okapi_safe : forall ln (K1 B : b64), is_finite K1 = true -> is_finite B = true ->
  Bleb (B754_zero false) K1 = true -> Bleb (B754_zero false) B = true -> Bleb B (b64_of 1 0) = true ->
  OkapiSafe (AF := Arith_b64 ln) K1 B.
Proof. exact okapi_b64_leb. Qed.
Print Assumptions C65_okapi_safe.
Example C65_okapi_safe_ex : is_finite K1_b64 = true /\ is_finite B_b64 = true /\
  Bleb (B754_zero false) K1_b64 = true /\ Bleb (B754_zero false) B_b64 = true /\ Bleb B_b64 (b64_of 1 0) = true.
Proof. vm_compute. auto. Qed.
(** The correctly rounded logarithm is sane. *)
Example sane_ln_ex : sane_ln b64_ln.
Proof. exact b64_ln_sane. Qed.

(** ... so that a query raises a ParseError, namely when it cannot be parsed, or it returns
    exactly the documents that satisfy it, whatever rounding does to the scores. *)
Theorem C65_okapi_queries : forall ln, sane_ln ln -> forall space upper, space 45 = false ->
  forall word_char lower, (forall c, word_char c = true -> ~ In c re_meta) -> word_char 10 = false -> lower_plain lower ->
  let pipeline := default_pipeline word_char lower in
  forall h query start count, history_ok pipeline h -> texts_small pipeline h ->
  let result := apply (AF := Arith_b64 ln) space upper pipeline pipeline (python_search_wids (AF := Arith_b64 ln) K1_b64 B_b64)
                  (okapi_query_weight (AF := Arith_b64 ln) pipeline K1_b64) (okapi_state pipeline h) query start count in
  match parse space upper pipeline query with
  | PErr e => result = PErr e /\ (e = PRequired \/ e = PPositive \/ e = PCommon)
  | POk (n, _) => exists r, result = POk r /\ (r = None <-> stopped pipeline n) /\
      forall m, r = Some m -> forall d, mem d m = true <->
        exists ws, get (docs_of pipeline h) d = Some ws /\
                   satisfies pipeline (phrase_found (slx (okapi_state pipeline h))) ws n
  end.
Proof. exact okapi_queries_b64. Qed.
Print Assumptions C65_okapi_queries.
Theorem C65_cosine_queries : forall ln, sane_ln ln -> forall space upper, space 45 = false ->
  forall word_char lower, (forall c, word_char c = true -> ~ In c re_meta) -> word_char 10 = false -> lower_plain lower ->
  let pipeline := default_pipeline word_char lower in
  forall h query start count, history_ok pipeline h ->
  let result := apply (AF := Arith_b64 ln) space upper pipeline pipeline (cos_search_wids (AF := Arith_b64 ln))
                  (cos_query_weight (AF := Arith_b64 ln) pipeline) (cos_state (AF := Arith_b64 ln) pipeline h) query start count in
  match parse space upper pipeline query with
  | PErr e => result = PErr e /\ (e = PRequired \/ e = PPositive \/ e = PCommon)
  | POk (n, _) => exists r, result = POk r /\ (r = None <-> stopped pipeline n) /\
      forall m, r = Some m -> forall d, mem d m = true <->
        exists ws, get (docs_of pipeline h) d = Some ws /\
                   satisfies pipeline (phrase_found (slx (cos_state (AF := Arith_b64 ln) pipeline h))) ws n
  end.
Proof. exact cosine_queries_b64. Qed.
Print Assumptions C65_cosine_queries.
(** A query answered in binary64 arithmetic. *)
Example C65_queries_ex :
  let ln := fun x => x in (* crude, but sane and computable *)
  sane_ln ln /\ history_ok ascii_pipeline ex_hist /\ texts_small ascii_pipeline ex_hist /\
  match apply (AF := Arith_b64 ln) ascii_space ascii_upper ascii_pipeline ascii_pipeline (python_search_wids (AF := Arith_b64 ln) K1_b64 B_b64)
          (okapi_query_weight (AF := Arith_b64 ln) ascii_pipeline K1_b64) (okapi_state ascii_pipeline ex_hist)
          (txt "fox OR (the qu?c* -zebra) AND NOT ""brown fox"" ") 0 None with
  | POk (Some m) => keys m = [1; 2]
  | _ => False
  end.
Proof.
  cbn zeta. split; [exact id_sane|]. split; [exact ex_hist_ok|]. split; [exact ex_hist_small|].
  vm_compute. reflexivity.
Qed.

(** C65: updating a cosine index never raises, and its content is consistent with the
    documents. *)
Theorem C65_cosine_updates : forall ln, sane_ln ln -> forall pipeline h, history_ok pipeline h ->
  snd (cos_run (AF := Arith_b64 ln) pipeline h) = Ok tt.
Proof. exact cosine_updates_b64. Qed.
Print Assumptions C65_cosine_updates.

(** C50: the counts kept for a word are rounded as a C float rounds: the number read back is
    the binary32 number nearest to the count, ties to even. *)
Theorem C50_binary32 : forall n, Z.abs (f32Z n) < 2 ^ 128 ->
  is_finite (b32_of n 0) = true /\ B2R (b32_of n 0) = Rdefinitions.IZR (f32Z n).
Proof. exact counts_binary32. Qed.
Print Assumptions C50_binary32.
Example C50_binary32_ex : Z.abs (f32Z (2 ^ 24 + 3)) < 2 ^ 128 /\ f32Z (2 ^ 24 + 3) = 2 ^ 24 + 4.
Proof. vm_compute. auto. Qed.
