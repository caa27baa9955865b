(** * Property C80: several text indexes, and the objects they share
    (text/textindex.py, baseindex.py, okapiindex.py, cosineindex.py, lexicon.py)

    Programs make lexicons, indexes and TextIndex objects, in any combination
    ([declare] says which objects each of them uses), and call their methods in any order.
    [seen l i cs]: what the calls [cs] are for index [i] with lexicon [l]: changes of the index,
    made directly or by way of a TextIndex, and texts that others give to its lexicon.
    [own i cs]: the former only. *)
From Verif Require Import Text S_split L_share L_shareex S_share S_textapi S_indep IEEE L_ieee Arith SMap Ord.
Open Scope string_scope.
Open Scope list_scope.
Open Scope Z_scope.

(** C80: no call raises, as long as no lexicon gets 2^28 words. *)
Theorem C80_calls : forall F (AF : Arith F), SafeArith F -> SoundEq F -> forall word_char lower cs r,
  sensible word_char lower cs -> few_words word_char lower cs ->
  In r (snd (sh_run (F := F) word_char lower cs)) -> r = Ok tt.
Proof. intros F AF SF EF word_char lower. exact (share_calls word_char lower). Qed.
Print Assumptions C80_calls.

(** C80: a lexicon knows the words of all texts given to it, by whatever index, ... *)
Theorem C80_lexicon : forall F (AF : Arith F), SafeArith F -> SoundEq F -> forall word_char lower cs l p,
  sensible word_char lower cs -> few_words word_char lower cs ->
  nth_error (m_lexicons (made_by word_char lower cs)) l = Some p ->
  nth_error (s_lexicons (fst (sh_run (F := F) word_char lower cs))) l =
    Some (mkLexicon p (lex_run p (map LText (told word_char lower l cs)))).
Proof. intros F AF SF EF word_char lower. exact (share_lexicon word_char lower). Qed.
Print Assumptions C80_lexicon.

(** ... an Okapi index is in the state it has after what it has seen, so that C50 to C66 apply
    to it, and its documents are those of its own calls; ... *)
Theorem C80_okapi : forall F (AF : Arith F), SafeArith F -> SoundEq F -> forall word_char lower cs i l p,
  sensible word_char lower cs -> few_words word_char lower cs ->
  nth_error (m_indexes (made_by word_char lower cs)) i = Some (true, l) ->
  nth_error (m_lexicons (made_by word_char lower cs)) l = Some p ->
  history_ok p (seen word_char lower l i cs) /\
  docs_of p (seen word_char lower l i cs) = docs_of p (own word_char lower i cs) /\
  exists lx ix, nth_error (s_lexicons (fst (sh_run (F := F) word_char lower cs))) l = Some (mkLexicon p lx) /\
    nth_error (s_indexes (fst (sh_run (F := F) word_char lower cs))) i = Some (mkIndex l (COkapi ix)) /\
    mkSys lx ix = okapi_state p (seen word_char lower l i cs).
Proof. intros F AF SF EF word_char lower. exact (share_okapi word_char lower). Qed.
Print Assumptions C80_okapi.

(** ... and so is a cosine index. *)
Theorem C80_cosine : forall F (AF : Arith F), SafeArith F -> SoundEq F -> forall word_char lower cs i l p,
  sensible word_char lower cs -> few_words word_char lower cs ->
  nth_error (m_indexes (made_by word_char lower cs)) i = Some (false, l) ->
  nth_error (m_lexicons (made_by word_char lower cs)) l = Some p ->
  history_ok p (seen word_char lower l i cs) /\
  docs_of p (seen word_char lower l i cs) = docs_of p (own word_char lower i cs) /\
  exists lx ix, nth_error (s_lexicons (fst (sh_run (F := F) word_char lower cs))) l = Some (mkLexicon p lx) /\
    nth_error (s_indexes (fst (sh_run (F := F) word_char lower cs))) i = Some (mkIndex l (CCosine ix)) /\
    mkSys lx ix = cos_state p (seen word_char lower l i cs).
Proof. intros F AF SF EF word_char lower. exact (share_cosine word_char lower). Qed.
Print Assumptions C80_cosine.

(** C80: sharing a lexicon makes no difference to the answers, scores included: they are
    those of an index with a lexicon of its own and the same calls; phrases as in C66. *)
Theorem C80_okapi_alone : forall word_char lower cs i l p,
  sensible word_char lower cs -> few_words word_char lower cs ->
  nth_error (m_indexes (made_by word_char lower cs)) i = Some (true, l) ->
  nth_error (m_lexicons (made_by word_char lower cs)) l = Some p ->
  texts_small p (own word_char lower i cs) ->
  let s := okapi_state p (seen word_char lower l i cs) in
  let alone := okapi_state p (own word_char lower i cs) in
  same_texts s alone /\
  forall F (AF : Arith F) (K1 B : F),
    same_answers p (python_search_wids K1 B) (okapi_query_weight p K1)
      (fun q => exact_phrase (slx s) (docs_of p (own word_char lower i cs)) q /\
                exact_phrase (slx alone) (docs_of p (own word_char lower i cs)) q) s alone.
Proof. exact share_okapi_alone. Qed.
Print Assumptions C80_okapi_alone.
Theorem C80_cosine_alone : forall F (AF : Arith F), SafeArith F -> SoundEq F -> forall word_char lower cs i l p,
  sensible word_char lower cs -> few_words word_char lower cs ->
  nth_error (m_indexes (made_by word_char lower cs)) i = Some (false, l) ->
  nth_error (m_lexicons (made_by word_char lower cs)) l = Some p ->
  let s := cos_state (F := F) p (seen word_char lower l i cs) in
  let alone := cos_state (F := F) p (own word_char lower i cs) in
  same_texts s alone /\
  same_answers p cos_search_wids (cos_query_weight p)
    (fun q => exact_phrase (slx s) (docs_of p (own word_char lower i cs)) q /\
              exact_phrase (slx alone) (docs_of p (own word_char lower i cs)) q) s alone.
Proof. intros F AF SF EF word_char lower. exact (share_cosine_alone word_char lower). Qed.
Print Assumptions C80_cosine_alone.

(** C80: a TextIndex parses queries with its lexicon and asks its index.  (TextIndex(), TextIndex(lexicon)
    and TextIndex(index=index) have the same lexicon as their index, by [declare].) *)
Theorem C80_text_index : forall F (AF : Arith F), SafeArith F -> SoundEq F -> forall word_char lower cs k ql i,
  sensible word_char lower cs -> few_words word_char lower cs ->
  nth_error (m_texts (made_by word_char lower cs)) k = Some (ql, i) ->
  exists qp okapi l p,
    nth_error (m_lexicons (made_by word_char lower cs)) ql = Some qp /\
    nth_error (m_indexes (made_by word_char lower cs)) i = Some (okapi, l) /\
    nth_error (m_lexicons (made_by word_char lower cs)) l = Some p /\
    forall space upper (K1 B : F) query start count,
      sh_apply space upper K1 B (fst (sh_run (F := F) word_char lower cs)) k query start count =
      Some (if okapi
            then apply space upper qp p (python_search_wids K1 B) (okapi_query_weight p K1)
                       (okapi_state p (seen word_char lower l i cs)) query start count
            else apply space upper qp p cos_search_wids (cos_query_weight p)
                       (cos_state p (seen word_char lower l i cs)) query start count).
Proof. intros F AF SF EF word_char lower. exact (share_text word_char lower). Qed.
Print Assumptions C80_text_index.

(** A program with four indexes; indexes 0, 1 and 2 share lexicon 0; TextIndex 0 has index 1,
    TextIndex 1 has index 0. *)
Example C80_ex :
  let m := made_by ascii_word ascii_lower share_prog in
  sensible ascii_word ascii_lower share_prog /\ few_words ascii_word ascii_lower share_prog /\
  m_indexes m = [(true, 0%nat); (true, 0%nat); (false, 0%nat); (true, 2%nat)] /\
  m_texts m = [(0%nat, 1%nat); (0%nat, 0%nat); (2%nat, 3%nat)] /\
  seen ascii_word ascii_lower 0 1 share_prog =
    [TOther (LText (TxStr (txt "quick brown fox"))); TIndex 1 (TxStr (txt "lazy dog")); TOther (LText (TxStr (txt "gnu")));
     TOther (LText (TxStr (txt "brown dog"))); TOther (LText (TxStr (txt "brown dog"))); TUnindex 2; TClear;
     TIndex 5 (TxStr (txt "brown gnu"))] /\
  own ascii_word ascii_lower 1 share_prog =
    [TIndex 1 (TxStr (txt "lazy dog")); TUnindex 2; TClear; TIndex 5 (TxStr (txt "brown gnu"))] /\
  texts_small ascii_pipeline (own ascii_word ascii_lower 1 share_prog).
Proof.
  cbn zeta. split; [exact (proj1 share_prog_ok)|]. split; [exact (proj2 share_prog_ok)|].
  do 4 (split; [vm_compute; reflexivity|]). apply L_textex.check_small_ok. vm_compute. reflexivity.
Qed.
(** The TextIndexes answer for their own documents. *)
Example C80_answers_ex :
  let F := Arith_b64 (fun x => x) in
  let found k := match sh_apply (AF := F) ascii_space ascii_upper K1_b64 B_b64
                         (fst (sh_run (AF := F) ascii_word ascii_lower share_prog)) k (txt "brown") 0 None with
                 | Some (POk (Some m)) => keys m | _ => [] end in
  found 0%nat = [5] /\ found 1%nat = [1; 2] /\ found 2%nat = [9].
Proof. vm_compute. auto. Qed.

(** A lexicon that is not that of the index may spoil the queries: here the TextIndex made with
    both (number 0) does not find the document that has the very text of the query, and the TextIndex
    made with the index alone (number 1) does. *)
Theorem C80_other_lexicon_refuted : exists word_char lower cs k1 k2 l1 l2 i d t (ln : b64 -> b64),
  sensible word_char lower cs /\ few_words word_char lower cs /\ sane_ln ln /\
  nth_error (m_texts (made_by word_char lower cs)) k1 = Some (l1, i) /\
  nth_error (m_texts (made_by word_char lower cs)) k2 = Some (l2, i) /\
  own word_char lower i cs = [TIndex d (TxStr t)] /\
  match sh_apply (AF := Arith_b64 ln) ascii_space ascii_upper K1_b64 B_b64 (fst (sh_run (AF := Arith_b64 ln) word_char lower cs)) k1 t 0 None,
        sh_apply (AF := Arith_b64 ln) ascii_space ascii_upper K1_b64 B_b64 (fst (sh_run (AF := Arith_b64 ln) word_char lower cs)) k2 t 0 None with
  | Some (POk (Some m1)), Some (POk (Some m2)) => mem d m1 = false /\ mem d m2 = true
  | _, _ => False
  end.
Proof.
  exists ascii_word, ascii_lower, other_prog, 0%nat, 1%nat, 1%nat, 0%nat, 0%nat, 1, (txt "Dog"), (fun x => x).
  split; [exact (proj1 other_prog_ok)|]. split; [exact (proj2 other_prog_ok)|]. split; [exact id_sane|].
  split; [reflexivity|]. split; [reflexivity|]. split; [vm_compute; reflexivity|]. exact other_lexicon.
Qed.
Print Assumptions C80_other_lexicon_refuted.
