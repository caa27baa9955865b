(** * Specification: text indexes stored by old releases *)
From Verif Require Export M_upgrade S_textapi S_text Arith SMap Ord.

(** What the release that stored the index did not have yet: the counters of the index,
    its total length as a [Length], the counter of the lexicon. *)
Record age := mkAge { no_wordCount : bool; no_documentCount : bool; int_total : bool; no_lexCount : bool }.

(** The index [s] as that release stored it. *)
Definition stored_by {V} (a : age) (s : sys V) : osys V :=
  mkOSys (mkOLex (lwids (slx s)) (lwords (slx s)) (if no_lexCount a then Method else Length (lcount (slx s))))
    (mkOld (wordinfo (six s)) (docweight (six s)) (docwords (six s))
       (if no_wordCount a then Method else Length (wordCount (six s)))
       (if no_documentCount a then Method else Length (documentCount (six s)))
       (if int_total a then TInt (totaldoclen (six s)) else TLength (totaldoclen (six s)))).

(** The history that a present index has to go through to be compared with: [h1], then
    [h2].  A lexicon without a counter goes on counting from the number of its words. *)
Definition restored (pipeline : list elem) (a : age) (h1 h2 : list top) : list top :=
  h1 ++ (if no_lexCount a then [TOther (LCounter (Zlen (lex_words (lex_run pipeline (lex_hist h1)))))] else []) ++ h2.

(** The index [u] has the contents of [s]. *)
Definition same_contents {V} (u : osys V) (s : sys V) : Prop :=
  lex_value (o_lx u) = slx s /\
  o_wordinfo (o_ix u) = wordinfo (six s) /\ o_docweight (o_ix u) = docweight (six s) /\ o_docwords (o_ix u) = docwords (six s) /\
  total_value (o_total (o_ix u)) = totaldoclen (six s).

(** Does a call of [h] add or remove a document, or clear the index?  [D] are the
    documents before. *)
Fixpoint documents_change (pipeline : list elem) (D : smap Z (list str)) (h : list top) : bool :=
  match h with
  | [] => false
  | o :: h' =>
      match o with
      | TIndex d _ => negb (mem d D)
      | TUnindex d => mem d D
      | TClear => true
      | TOther _ => false
      end || documents_change pipeline (docs_step pipeline D o) h'
  end.
(** Does a call of [h] add a document, clear the index, or change which words occur? *)
Definition same_words (D D' : smap Z (list str)) : bool :=
  forallb (contains (vocabulary D')) (vocabulary D) && forallb (contains (vocabulary D)) (vocabulary D').
Fixpoint words_change (pipeline : list elem) (D : smap Z (list str)) (h : list top) : bool :=
  match h with
  | [] => false
  | o :: h' =>
      let D' := docs_step pipeline D o in
      match o with
      | TIndex d _ => negb (mem d D) || negb (same_words D D')
      | TUnindex d => negb (same_words D D')
      | TClear => true
      | TOther _ => false
      end || words_change pipeline D' h'
  end.

(** Either version of [_search_wids]. *)
Definition okapi_version {F} {AF : Arith F} (K1 B : F) (sw : bindex Z -> list Z -> res (list (smap Z F * F))) : Prop :=
  sw = python_search_wids K1 B \/ sw = c_search_wids K1 B.

(** What documentCount() and wordCount() give afterwards: the numbers of documents and of
    distinct words; or NotImplementedError, if they were missing and are still. *)
Definition counts_after {V} pipeline (a : age) (h1 h2 : list top) (u : osys V) : Prop :=
  let D := docs_of pipeline (h1 ++ h2) in
  counted (o_documentCount (o_ix u)) =
    (if no_documentCount a && negb (documents_change pipeline (docs_of pipeline h1) h2) then Raise NotImplementedError else Ok (Zsize D)) /\
  counted (o_wordCount (o_ix u)) =
    (if no_wordCount a && negb (words_change pipeline (docs_of pipeline h1) h2) then Raise NotImplementedError else Ok (Zlen (vocabulary D))).
