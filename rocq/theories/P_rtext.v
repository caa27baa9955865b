(** * Property C78: document ids out of range in text indexes (text/baseindex.py,
    okapiindex.py, cosineindex.py)

    [fits] tells which integers the BTree family of the index can store.  [r_okapi_run],
    [r_cos_run]: the index after a history in which the caller goes on after exceptions;
    [okapi_state], [cos_state]: an index in which all integers are in range.
    [refused fits o]: the call [o] is an index_doc with an id that does not fit.
    [without_refused fits h]: these calls replaced by mere uses of the lexicon.
    [refused_words]: the words of their texts since the last clear().  [others_fine]: no
    other call raised.  [okapi_found], [cos_found] (L_rtextex.v): the documents found by a
    search, for the examples. *)
From Verif Require Import IEEE Text S_upgrade S_range S_rtext S_textapi M_rtext L_rtext L_rtextex L_textex SMap Ord.
Open Scope string_scope.
Open Scope list_scope.
Open Scope Z_scope.

(** Two documents, and two refused calls whose other words are in no document. *)
Definition x_hist : list top := [
  TIndex 1 (text "apple pear"); TIndex huge (text "kiwi apple melon"); TIndex 2 (text "plum pear");
  TUnindex huge; TIndex (- huge) (text "kiwi"); TIndex 1 (text "plum"); TUnindex 3 ].

(** C78: a refused call raises TypeError; another call does not raise, unless it is
    index_doc with a text that shares a word with a refused one. *)
Theorem C78_okapi_results : forall fits pipeline h o, history_ok pipeline (h ++ [o]) -> others_fine fits (r_okapi_step fits pipeline) h ->
  let r := snd (r_okapi_step fits pipeline o (r_okapi_run fits pipeline h)) in
  if refused fits o then r = Raise TypeError
  else r = Ok tt \/ (r = Raise TypeError /\ exists d t w, o = TIndex d t /\ In w (text_words pipeline t) /\ In w (refused_words fits pipeline h)).
Proof. exact okapi_r_results. Qed.
Print Assumptions C78_okapi_results.
Theorem C78_cosine_results : forall fits F (AF : Arith F), SafeArith F -> SoundEq F -> forall pipeline h o,
  history_ok pipeline (h ++ [o]) -> others_fine fits (r_cos_step (F := F) fits pipeline) h ->
  let r := snd (r_cos_step (F := F) fits pipeline o (r_cos_run fits pipeline h)) in
  if refused fits o then r = Raise TypeError
  else r = Ok tt \/ (r = Raise TypeError /\ exists d t w, o = TIndex d t /\ In w (text_words pipeline t) /\ In w (refused_words fits pipeline h)).
Proof. exact @cos_r_results. Qed.
Print Assumptions C78_cosine_results.
(** So no other call raises if no document has a word of a refused text. *)
Theorem C78_okapi_apart : forall fits pipeline h, history_ok pipeline h -> apart fits pipeline h ->
  others_fine fits (r_okapi_step fits pipeline) h.
Proof. exact okapi_r_apart. Qed.
Print Assumptions C78_okapi_apart.
Theorem C78_cosine_apart : forall fits F (AF : Arith F), SafeArith F -> SoundEq F -> forall pipeline h, history_ok pipeline h -> apart fits pipeline h ->
  others_fine fits (r_cos_step (F := F) fits pipeline) h.
Proof. exact @cos_r_apart. Qed.
Print Assumptions C78_cosine_apart.
Example C78_apart_ex :
  history_ok ascii_pipeline x_hist /\ apart fits32 ascii_pipeline x_hist /\
  map (refused fits32) x_hist = [false; true; false; false; true; false; false] /\
  refused_words fits32 ascii_pipeline x_hist = [txt "kiwi"; txt "apple"; txt "melon"; txt "kiwi"].
Proof.
  split; [apply check_history_ok; vm_compute; reflexivity|]. split; [apply check_apart_ok; vm_compute; reflexivity|]. vm_compute. auto.
Qed.

(** C78: the documents, their words, documentCount() and the lexicon are as if the refused
    calls had only used the lexicon. *)
Theorem C78_okapi_documents : forall fits pipeline h, history_ok pipeline h -> others_fine fits (r_okapi_step fits pipeline) h ->
  let s := r_okapi_run fits pipeline h in let c := okapi_state pipeline (without_refused fits h) in
  slx s = slx c /\ documentCount (six s) = documentCount (six c) /\ totaldoclen (six s) = totaldoclen (six c) /\
  docweight (six s) = docweight (six c) /\ docwords (six s) = docwords (six c) /\
  forall d, r_has_doc fits (six s) d = has_doc (six c) d.
Proof. exact okapi_r_contents. Qed.
Print Assumptions C78_okapi_documents.
Theorem C78_cosine_documents : forall fits F (AF : Arith F), SafeArith F -> SoundEq F -> forall pipeline h,
  history_ok pipeline h -> others_fine fits (r_cos_step (F := F) fits pipeline) h ->
  let s := r_cos_run fits pipeline h in let c := cos_state (F := F) pipeline (without_refused fits h) in
  slx s = slx c /\ documentCount (six s) = documentCount (six c) /\ totaldoclen (six s) = totaldoclen (six c) /\
  docweight (six s) = docweight (six c) /\ docwords (six s) = docwords (six c) /\
  forall d, r_has_doc fits (six s) d = has_doc (six c) d.
Proof. exact @cos_r_contents. Qed.
Print Assumptions C78_cosine_documents.

(** C78: so are the answers to searches for words that were not in a refused text. *)
Theorem C78_okapi_answers : forall fits pipeline F (AF : Arith F) (K1 B : F) sw, okapi_version K1 B sw ->
  forall h, history_ok pipeline h -> others_fine fits (r_okapi_step fits pipeline) h ->
  let s := r_okapi_run fits pipeline h in let c := okapi_state pipeline (without_refused fits h) in
  (forall t, (forall w, In w (text_words pipeline t) -> ~ In w (refused_words fits pipeline h)) ->
     search pipeline sw s t = search pipeline sw c t /\ search_phrase pipeline sw s t = search_phrase pipeline sw c t) /\
  (forall p, (forall wids w, globToWordIds p (slx s) = Ok wids -> In w (refused_words fits pipeline h) -> ~ In (get_wid (slx s) w) wids) ->
     search_glob sw s p = search_glob sw c p).
Proof. exact okapi_r_answers. Qed.
Print Assumptions C78_okapi_answers.
Theorem C78_cosine_answers : forall fits F (AF : Arith F), SafeArith F -> SoundEq F -> forall pipeline h,
  history_ok pipeline h -> others_fine fits (r_cos_step (F := F) fits pipeline) h ->
  let s := r_cos_run fits pipeline h in let c := cos_state (F := F) pipeline (without_refused fits h) in
  (forall t, (forall w, In w (text_words pipeline t) -> ~ In w (refused_words fits pipeline h)) ->
     search pipeline (r_cos_search_wids fits) s t = search pipeline cos_search_wids c t /\
     search_phrase pipeline (r_cos_search_wids fits) s t = search_phrase pipeline cos_search_wids c t) /\
  (forall p, (forall wids w, globToWordIds p (slx s) = Ok wids -> In w (refused_words fits pipeline h) -> ~ In (get_wid (slx s) w) wids) ->
     search_glob (r_cos_search_wids fits) s p = search_glob cos_search_wids c p).
Proof. exact @cos_r_answers. Qed.
Print Assumptions C78_cosine_answers.
Example C78_answers_ex :
  let s := r_okapi_run fits32 ascii_pipeline x_hist in
  let s' := r_cos_run (AF := AB) fits32 ascii_pipeline x_hist in
  okapi_found s (text "plum pear") = Ok [1; 2] /\ cos_found s' (text "plum pear") = Ok [1; 2] /\
  documentCount (six s) = 2 /\ wordCount (six s) = 5 /\
  map (r_has_doc fits32 (six s)) [1; 2; 3; huge; - huge] = [true; true; false; false; false].
Proof. vm_compute. auto 10. Qed.

(** C78: without refused calls the range makes no difference. *)
Theorem C78_okapi_unaffected : forall fits pipeline h, history_ok pipeline h -> (forall o, In o h -> refused fits o = false) ->
  r_okapi_run fits pipeline h = okapi_state pipeline h /\ others_fine fits (r_okapi_step fits pipeline) h.
Proof. exact okapi_r_unaffected. Qed.
Print Assumptions C78_okapi_unaffected.
Theorem C78_cosine_unaffected : forall fits F (AF : Arith F), SafeArith F -> SoundEq F -> forall pipeline h,
  history_ok pipeline h -> (forall o, In o h -> refused fits o = false) ->
  r_cos_run (F := F) fits pipeline h = cos_state pipeline h /\ others_fine fits (r_cos_step (F := F) fits pipeline) h.
Proof. exact @cos_r_unaffected. Qed.
Print Assumptions C78_cosine_unaffected.
Example C78_unaffected_ex : forallb (fun o => negb (refused fits32 o)) ex_hist = true.
Proof. reflexivity. Qed.

(** C78: but if a word of a refused text, and the words before it in that text, were in no
    document nor in an earlier refused text, every search for it raises until the index
    is cleared, whatever is indexed meanwhile. *)
Theorem C78_okapi_poisoned : forall fits pipeline h1 d t ws1 w ws2 h2,
  history_ok pipeline h1 -> others_fine fits (r_okapi_step fits pipeline) h1 -> fits d = false -> text_words pipeline t = ws1 ++ w :: ws2 ->
  (forall x, In x (ws1 ++ [w]) -> ~ In x (vocabulary (docs_of pipeline (without_refused fits h1))) /\ ~ In x (refused_words fits pipeline h1)) ->
  ~ In TClear h2 -> counter_ok (lex_hist h2) ->
  let s := r_okapi_run fits pipeline (h1 ++ TIndex d t :: h2) in
  forall F (AF : Arith F) (K1 B : F) sw, okapi_version K1 B sw ->
  (forall q, In w (text_words pipeline q) -> exists e, search pipeline sw s q = Raise e) /\
  (forall p wids, globToWordIds p (slx s) = Ok wids -> In (get_wid (slx s) w) wids -> exists e, search_glob sw s p = Raise e).
Proof. exact okapi_r_poisoned. Qed.
Print Assumptions C78_okapi_poisoned.
Theorem C78_cosine_poisoned : forall fits F (AF : Arith F), SafeArith F -> SoundEq F -> forall pipeline h1 d t ws1 w ws2 h2,
  history_ok pipeline h1 -> others_fine fits (r_cos_step (F := F) fits pipeline) h1 -> fits d = false -> text_words pipeline t = ws1 ++ w :: ws2 ->
  (forall x, In x (ws1 ++ [w]) -> ~ In x (vocabulary (docs_of pipeline (without_refused fits h1))) /\ ~ In x (refused_words fits pipeline h1)) ->
  ~ In TClear h2 -> counter_ok (lex_hist h2) ->
  let s := r_cos_run (F := F) fits pipeline (h1 ++ TIndex d t :: h2) in
  (forall q, In w (text_words pipeline q) -> exists e, search pipeline (r_cos_search_wids fits) s q = Raise e) /\
  (forall p wids, globToWordIds p (slx s) = Ok wids -> In (get_wid (slx s) w) wids -> exists e, search_glob (r_cos_search_wids fits) s p = Raise e).
Proof. exact @cos_r_poisoned. Qed.
Print Assumptions C78_cosine_poisoned.
Example C78_poisoned_ex :
  okapi_found (r_okapi_run fits32 ascii_pipeline x_hist) (text "plum kiwi") = Raise KeyError /\
  cos_found (r_cos_run (AF := AB) fits32 ascii_pipeline x_hist) (text "plum kiwi") = Raise TypeError /\
  okapi_found (r_okapi_run fits32 ascii_pipeline (x_hist ++ [TIndex 5 (text "kiwi"); TIndex 5 (text "plum")])) (text "kiwi") = Raise KeyError /\
  text_words ascii_pipeline (text "kiwi apple melon") = [] ++ txt "kiwi" :: [txt "apple"; txt "melon"] /\
  vocabulary (docs_of ascii_pipeline (without_refused fits32 [TIndex 1 (text "apple pear")])) = [txt "apple"; txt "pear"] /\
  refused_words fits32 ascii_pipeline [TIndex 1 (text "apple pear")] = [].
Proof. vm_compute. auto 10. Qed.

(** C78: clear() makes the index what it would have been without the refused calls. *)
Theorem C78_okapi_cleared : forall fits pipeline h, history_ok pipeline h -> others_fine fits (r_okapi_step fits pipeline) h ->
  r_okapi_run fits pipeline (h ++ [TClear]) = okapi_state pipeline (without_refused fits (h ++ [TClear])).
Proof. exact okapi_r_cleared. Qed.
Print Assumptions C78_okapi_cleared.
Theorem C78_cosine_cleared : forall fits F (AF : Arith F), SafeArith F -> SoundEq F -> forall pipeline h,
  history_ok pipeline h -> others_fine fits (r_cos_step (F := F) fits pipeline) h ->
  r_cos_run (F := F) fits pipeline (h ++ [TClear]) = cos_state pipeline (without_refused fits (h ++ [TClear])).
Proof. exact @cos_r_cleared. Qed.
Print Assumptions C78_cosine_cleared.
Example C78_cleared_ex :
  okapi_found (r_okapi_run fits32 ascii_pipeline (x_hist ++ [TClear; TIndex 5 (text "kiwi")])) (text "kiwi") = Ok [5].
Proof. vm_compute. reflexivity. Qed.

(** ** What one would expect, and is false *)
(** A refused call does not leave the index as it was: wordCount() and searches change. *)
Theorem C78_unchanged_refuted : exists h d t q,
  history_ok ascii_pipeline (h ++ [TIndex d t]) /\ others_fine fits32 (r_okapi_step fits32 ascii_pipeline) (h ++ [TIndex d t]) /\ fits32 d = false /\
  let s := r_okapi_run fits32 ascii_pipeline h in let s' := r_okapi_run fits32 ascii_pipeline (h ++ [TIndex d t]) in
  okapi_found s q = Ok [1] /\ okapi_found s' q = Raise KeyError /\ wordCount (six s') <> wordCount (six s).
Proof. exact unchanged_refuted. Qed.
Print Assumptions C78_unchanged_refuted.
(** After one refused call, ten documents with the same word cannot be indexed. *)
Theorem C78_later_refuted : exists d t h o,
  history_ok ascii_pipeline (TIndex d t :: h ++ [o]) /\ others_fine fits32 (r_okapi_step fits32 ascii_pipeline) (TIndex d t :: h) /\
  (forall o', In o' (h ++ [o]) -> refused fits32 o' = false) /\
  snd (r_okapi_step fits32 ascii_pipeline o (r_okapi_run fits32 ascii_pipeline (TIndex d t :: h))) = Raise TypeError.
Proof. exact later_refuted. Qed.
Print Assumptions C78_later_refuted.
