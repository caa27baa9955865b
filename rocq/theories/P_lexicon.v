(** * Properties C35-C40: the lexicon (text/lexicon.py)

    A history is a list of [LText t] (index the text [t]) and [LCounter n] (another
    ZODB connection sets the shared counter to [n]).  [counter_ok] says that those
    values are not negative, [no_drift] that there are none.  [words_of] lists the
    words the pipeline produced in a history; [distinct] keeps first occurrences;
    [glob_match] is shell matching with '*' and '?'. *)
From Verif Require Import Txt S_lexicon M_lexicon L_lexicon Regex SMap Ord.
Open Scope string_scope.
Open Scope list_scope.
Open Scope Z_scope.

(** Examples: a pipeline that splits nothing; texts are given as lists of words. *)
Definition ex_pipe : list elem := [mkElem (fun l => l) None].
(** 'ab', 'abc', 'b', 'a.b', 'a|bxyz' *)
Definition w_ab : str := [97; 98].
Definition w_abc : str := [97; 98; 99].
Definition w_b : str := [98].
Definition w_adotb : str := [97; 46; 98].
Definition w_bar : str := [97; 124; 98; 120; 121; 122].
Definition ex_h : list lop := [LText (TxList [w_ab; w_b; w_ab]); LText TxNone; LText (TxList [w_abc; w_b; w_adotb; w_bar])].
Definition ex_drift : list lop := LText (TxList [w_ab]) :: LCounter 0 :: LText (TxList [w_b]) :: LCounter 7 :: LText (TxList [w_abc; w_ab]) :: [].

(** C35, C37: word to id and id to word are inverse to each other, all ids are
    positive and [words()], [wids()] list what is known, whatever happens to the
    counter in between. *)
Theorem C35_bijection : forall (pipeline : list elem) (h : list lop), counter_ok h ->
  (forall w i, i <> 0 -> (get_wid (lex_run pipeline h) w = i <-> get_word (lex_run pipeline h) i = Ok w)) /\
  (forall w, In w (lex_words (lex_run pipeline h)) <-> get_wid (lex_run pipeline h) w <> 0) /\
  (forall i, In i (lex_wids (lex_run pipeline h)) <-> exists w, get_word (lex_run pipeline h) i = Ok w) /\
  (forall i w, get_word (lex_run pipeline h) i = Ok w -> 0 < i).
Proof. exact lexicon_bijection. Qed.
Print Assumptions C35_bijection.
Example C35_bijection_ex :
  map (get_wid (lex_run ex_pipe ex_drift)) [w_ab; w_b; w_abc; w_bar] = [1; 2; 8; 0] /\
  lex_wids (lex_run ex_pipe ex_drift) = [1; 2; 8] /\ get_word (lex_run ex_pipe ex_drift) 8 = Ok w_abc.
Proof. vm_compute; auto. Qed.
(** C35: asking for the word of an id that is not in use raises KeyError. *)
Theorem C35_unknown_id : forall (pipeline : list elem) (h : list lop) (i : Z),
  ~ In i (lex_wids (lex_run pipeline h)) -> get_word (lex_run pipeline h) i = Raise KeyError.
Proof. intros pipeline h i. exact (unknown_word_id (lex_run pipeline h) i). Qed.
Print Assumptions C35_unknown_id.
Example C35_unknown_id_ex : get_word (lex_run ex_pipe ex_drift) 3 = Raise KeyError /\ get_word (lex_run ex_pipe ex_drift) 0 = Raise KeyError.
Proof. vm_compute; auto. Qed.
Example counter_ok_ex : counter_ok ex_drift.
Proof. intros n H. repeat (destruct H as [[= <-]|H]; [lia|]). repeat (destruct H as [H|H]; [try discriminate; injection H as <-; lia|]). destruct H. Qed.

(** C35: the words known are exactly those indexed, whatever the counter does. *)
Theorem C35_words : forall (pipeline : list elem) (h : list lop) w, counter_ok h ->
  In w (lex_words (lex_run pipeline h)) <-> In w (words_of pipeline h).
Proof. exact lexicon_words. Qed.
Print Assumptions C35_words.
Example C35_words_ex :
  lex_words (lex_run ex_pipe ex_drift) = [w_ab; w_abc; w_b] /\ words_of ex_pipe ex_drift = [w_ab; w_b; w_abc; w_ab].
Proof. vm_compute; auto. Qed.

(** C35: when nobody else touches the counter, [wordCount()] is the number of
    distinct words and ids are 1, 2, 3, ... in order of first appearance. *)
Theorem C35_count : forall (pipeline : list elem) (h : list lop), no_drift h ->
  lex_wordCount (lex_run pipeline h) = Zlen (distinct (words_of pipeline h)) /\
  lex_wordCount (lex_run pipeline h) = Zlen (lex_words (lex_run pipeline h)) /\
  forall w i, i <> 0 -> (get_wid (lex_run pipeline h) w = i <->
    1 <= i /\ nth_error (distinct (words_of pipeline h)) (Z.to_nat (i - 1)) = Some w).
Proof. exact lexicon_in_order. Qed.
Print Assumptions C35_count.
Example C35_count_ex :
  lex_wordCount (lex_run ex_pipe ex_h) = 6 /\ distinct (words_of ex_pipe ex_h) = [w_ab; w_b; []; w_abc; w_adotb; w_bar].
Proof. vm_compute; auto. Qed.
Example no_drift_ex : no_drift ex_h.
Proof. intros n H. repeat (destruct H as [H|H]; [discriminate|]). destruct H. Qed.

(** C36: ids are permanent, in both directions. *)
Theorem C36_permanent : forall (pipeline : list elem) (h1 h2 : list lop) w i, counter_ok (h1 ++ h2) ->
  (get_wid (lex_run pipeline h1) w = i -> i <> 0 -> get_wid (lex_run pipeline (h1 ++ h2)) w = i) /\
  (get_word (lex_run pipeline h1) i = Ok w -> get_word (lex_run pipeline (h1 ++ h2)) i = Ok w).
Proof. exact lexicon_permanent. Qed.
Print Assumptions C36_permanent.
Example C36_permanent_ex :
  get_wid (lex_run ex_pipe (firstn 3 ex_drift)) w_b = 2 /\ get_wid (lex_run ex_pipe ex_drift) w_b = 2.
Proof. vm_compute; auto. Qed.

(** C37: indexing a text always succeeds, and the ids of words unknown before are
    positive and were not in use before. *)
Theorem C37_fresh : forall (pipeline : list elem) (h : list lop) (t : ltext), counter_ok h ->
  (exists ids, snd (sourceToWordIds pipeline t (lex_run pipeline h)) = Ok ids) /\
  forall w, In w (text_words pipeline t) -> get_wid (lex_run pipeline h) w = 0 ->
    0 < get_wid (lex_run pipeline (h ++ [LText t])) w /\
    ~ In (get_wid (lex_run pipeline (h ++ [LText t])) w) (lex_wids (lex_run pipeline h)).
Proof. exact fresh_ids. Qed.
Print Assumptions C37_fresh.
Example C37_fresh_ex :
  get_wid (lex_run ex_pipe (firstn 2 ex_drift)) w_b = 0 /\ get_wid (lex_run ex_pipe (firstn 3 ex_drift)) w_b = 2 /\
  lcount (lex_run ex_pipe (firstn 2 ex_drift)) = 0 /\ lex_wids (lex_run ex_pipe (firstn 2 ex_drift)) = [1].
Proof. vm_compute; auto. Qed.

(** C38: a term resolves to one id per pipeline word: the id of the word when it
    is known, else 0.  (The call returns no new lexicon: nothing is changed.) *)
Theorem C38_term_ids : forall (pipeline : list elem) (h : list lop) (t : ltext), counter_ok h ->
  Forall2 (fun w i => (In w (words_of pipeline h) /\ get_word (lex_run pipeline h) i = Ok w) \/
                      (~ In w (words_of pipeline h) /\ i = 0))
          (text_words pipeline t) (termToWordIds pipeline t (lex_run pipeline h)).
Proof. exact term_ids. Qed.
Print Assumptions C38_term_ids.
Example C38_term_ids_ex : termToWordIds ex_pipe (TxList [w_b; w_bar; w_b]) (lex_run ex_pipe ex_drift) = [2; 0; 2].
Proof. vm_compute; reflexivity. Qed.

(** C38: querying for an indexed text finds the ids it was indexed with, for ever. *)
Theorem C38_same_ids : forall (pipeline : list elem) (h : list lop) (t : ltext), counter_ok h ->
  exists ids, snd (sourceToWordIds pipeline t (lex_run pipeline h)) = Ok ids /\
    Forall (fun i => 0 < i) ids /\
    forall h2, counter_ok h2 -> termToWordIds pipeline t (lex_run pipeline (h ++ LText t :: h2)) = ids.
Proof. exact source_total. Qed.
Print Assumptions C38_same_ids.
Example C38_same_ids_ex :
  snd (sourceToWordIds ex_pipe (TxList [w_b; w_ab; w_b]) (lex_run ex_pipe (firstn 2 ex_drift))) = Ok [2; 1; 2].
Proof. vm_compute; reflexivity. Qed.

(** C38: a query without wildcards is read as the words a document with the same text
    has, when this is so for each element of the pipeline. *)
Theorem C38_query_words : forall (pipeline : list elem) (t : ltext),
  (forall el l, In el pipeline -> no_wildcards l ->
     no_wildcards (process el l) /\ forall g, processGlob el = Some g -> g l = process el l) ->
  no_wildcards (text_strings t) -> parseTerms pipeline t = text_words pipeline t.
Proof. exact query_like_document. Qed.
Print Assumptions C38_query_words.
(** An element that drops all but letters, but keeps wildcards in queries *)
Definition ex_letters : elem :=
  mkElem (map (filter (fun c => 97 <=? c))) (Some (map (filter (fun c => (97 <=? c) || wildcard c)))).
Example C38_query_words_ex :
  parseTerms [ex_letters] (TxList [txt "a-b"; txt "c*"]) = [txt "ab"; txt "c*"] /\
  text_words [ex_letters] (TxList [txt "a-b"; txt "c*"]) = [txt "ab"; txt "c"] /\
  forall l, no_wildcards l -> no_wildcards (process ex_letters l) /\ forall g, processGlob ex_letters = Some g -> g l = process ex_letters l.
Proof.
  splits; [reflexivity|reflexivity|]. intros l Hl. split.
  - intros w Hw. apply in_map_iff in Hw as (w' & <- & Hw'). specialize (Hl w' Hw'). unfold has_wildcard in *.
    apply not_true_iff_false. apply not_true_iff_false in Hl. intros H. apply Hl. apply existsb_exists in H as (c & Hc & H).
    apply existsb_exists. exists c. split; [apply filter_In in Hc; apply Hc|exact H].
  - intros g [= <-]. apply map_ext_in. intros w Hw. specialize (Hl w Hw). apply filter_ext_in. intros c Hc.
    assert (E : wildcard c = false) by (apply not_true_iff_false; intros H; apply not_true_iff_false in Hl; apply Hl, existsb_exists; eauto).
    rewrite E. apply orb_false_r.
Qed.

(** C39: glob expansion is exact. *)
Theorem C39_glob_exact : forall (lx : lex) (prefix : str) (c : char) (rest : str),
  prefix <> [] -> plain prefix -> c = chr_star \/ c = chr_qm -> no_newline lx ->
  exists ids, globToWordIds (prefix ++ c :: rest) lx = Ok ids /\
    forall i, In i ids <-> exists w, In w (lex_words lx) /\ get_wid lx w = i /\ glob_match (prefix ++ c :: rest) w.
Proof. exact glob_exact'. Qed.
Print Assumptions C39_glob_exact.
(** 'ab*', 'a?b*' and 'a.b?' in a lexicon of 'ab', 'b', '', 'abc', 'a.b', 'a|bxyz'. *)
Example C39_glob_exact_ex :
  globToWordIds [97; 98; 42] (lex_run ex_pipe ex_h) = Ok [1; 4] /\
  globToWordIds [97; 63; 98; 42] (lex_run ex_pipe ex_h) = Ok [5; 6] /\
  globToWordIds [97; 46; 98; 63] (lex_run ex_pipe ex_h) = Ok [] /\
  globToWordIds [97; 46; 98; 42] (lex_run ex_pipe ex_h) = Ok [5].
Proof. vm_compute; auto. Qed.
Example no_newline_ex : no_newline (lex_run ex_pipe ex_h).
Proof. intros w H. vm_compute in H. repeat (destruct H as [<-|H]; [cbn; intuition discriminate|]). destruct H. Qed.

(** C39: no word is reported twice. *)
Theorem C39_glob_nodup : forall (pipeline : list elem) (h : list lop) compile (p : str) ids,
  counter_ok h -> globToWordIds_with compile p (lex_run pipeline h) = Ok ids -> NoDup ids.
Proof. exact glob_nodup. Qed.
Print Assumptions C39_glob_nodup.
Example C39_glob_nodup_ex : globToWordIds [97; 42] (lex_run ex_pipe ex_h) = Ok [5; 1; 4; 6].
Proof. vm_compute; reflexivity. Qed.

(** C39: a pattern without wildcards stands for itself. *)
Theorem C39_no_wildcard : forall (pipeline : list elem) (h : list lop) (p : str), counter_ok h ->
  (forall c, In c p -> c <> chr_star /\ c <> chr_qm) ->
  globToWordIds p (lex_run pipeline h) =
    Ok (if get_wid (lex_run pipeline h) p =? 0 then [] else [get_wid (lex_run pipeline h) p]).
Proof. exact glob_plain_word. Qed.
Print Assumptions C39_no_wildcard.
Example C39_no_wildcard_ex :
  globToWordIds w_abc (lex_run ex_pipe ex_h) = Ok [4] /\ globToWordIds [97] (lex_run ex_pipe ex_h) = Ok [].
Proof. vm_compute; auto. Qed.

(** C39: words with '*' or '?' are patterns. *)
Theorem C39_is_glob : forall p : str, isGlob p = true <-> In 42 p \/ In 63 p.
Proof. exact is_glob_iff. Qed.
Print Assumptions C39_is_glob.
Example C39_is_glob_ex : txt "*?" = [42; 63] /\ map isGlob [txt "a*"; txt "?a"; txt "a+"] = [true; true; false].
Proof. split; reflexivity. Qed.

(** C39: a leading wildcard is refused. *)
Theorem C39_leading_wildcard : forall (lx : lex) (c : char) (p : str),
  c = chr_star \/ c = chr_qm -> globToWordIds (c :: p) lx = Raise QueryError.
Proof. exact glob_leading_wildcard. Qed.
Print Assumptions C39_leading_wildcard.
Example C39_leading_wildcard_ex : globToWordIds [42; 97] (lex_run ex_pipe ex_h) = Raise QueryError.
Proof. vm_compute; reflexivity. Qed.

(** C40: with other prefixes expansion is not shell matching: 'a|b?' finds the
    word 'a|bxyz', which does not match, *)
Theorem C40_glob_matching_refuted : exists (h : list lop) (p w : str) i,
  no_drift h /\ no_newline (lex_run ex_pipe h) /\
  globToWordIds p (lex_run ex_pipe h) = Ok [i] /\ get_word (lex_run ex_pipe h) i = Ok w /\ ~ glob_match p w.
Proof. exact glob_too_many. Qed.
Print Assumptions C40_glob_matching_refuted.
(** ... and 'a$b*' does not find 'a$bc', which matches. *)
Theorem C40_glob_complete_refuted : exists (h : list lop) (p w : str),
  no_drift h /\ no_newline (lex_run ex_pipe h) /\
  globToWordIds p (lex_run ex_pipe h) = Ok [] /\ In w (lex_words (lex_run ex_pipe h)) /\ glob_match p w.
Proof. exact glob_too_few. Qed.
Print Assumptions C40_glob_complete_refuted.

(** C40: whatever [re.compile] makes of the prefix, only words that begin with
    the literal prefix are found. *)
Theorem C40_literal_prefix : forall (pipeline : list elem) (h : list lop) compile (prefix rest : str) ids i,
  counter_ok h -> (forall c, In c prefix -> c <> chr_star /\ c <> chr_qm) ->
  rest = [] \/ (exists c r, rest = c :: r /\ (c = chr_star \/ c = chr_qm)) ->
  globToWordIds_with compile (prefix ++ rest) (lex_run pipeline h) = Ok ids -> In i ids ->
  exists t, get_word (lex_run pipeline h) i = Ok (prefix ++ t).
Proof. exact glob_literal_prefix. Qed.
Print Assumptions C40_literal_prefix.
Example C40_literal_prefix_ex :
  globToWordIds [97; 124; 98; 63] (lex_run ex_pipe ex_h) = Ok [6] /\ get_word (lex_run ex_pipe ex_h) 6 = Ok w_bar.
Proof. vm_compute; auto. Qed.
