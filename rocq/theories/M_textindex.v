(** * Model of TextIndex (/repo/src/zope/index/text/textindex.py)

    The state of a text index is that of its index, with the lexicon ([sys], see
    M_baseindex.v): index_doc, unindex_doc, clear, documentCount and wordCount
    (textindex.py:53-68) only pass on to it. *)
From Verif Require Export M_tree M_baseindex M_split Arith SMap Ord.

(** textindex.py:47: the pipeline of the default lexicon *)
Definition default_pipeline (word_char : char -> bool) (lower : str -> str) : list elem :=
  [Splitter word_char; CaseNormalizer lower; StopWordRemover].

(** The values of the leaves (parsetree.py:119-120) as arguments of [termToWordIds]. *)
Definition term_text (t : qterm) : ltext := match t with QWord w => TxStr w | QWords ws => TxList ws end.

Section TextIndex.
  Context {V F : Type} {AF : Arith F}.
  Local Notation wmap := (smap Z F).
  Variable space : char -> bool.
  Variable upper : str -> str.
  Variable qpipeline : list elem. (* the pipeline of self.lexicon, used for parsing queries *)
  Variable pipeline : list elem.  (* the pipeline of the lexicon of self.index *)
  Variable search_wids : bindex V -> list Z -> res (list (wmap * F)).
  Variable query_weight : sys V -> list ltext -> res F.

  (** parsetree.py:122-139: the leaves call the three search methods of the index *)
  Definition execute (s : sys V) (n : node) : res (option wmap) :=
    executeQuery (fun w => search pipeline search_wids s (TxStr w))
                 (fun ws => rmap Some (search_phrase pipeline search_wids s (TxList ws)))
                 (fun p => rmap Some (search_glob search_wids s p)) n.

  (** textindex.py:83-89.  The branch for TypeError is never taken: both are floats. *)
  Fixpoint normalise_loop (items : list (Z * F)) (qw : F) (results : wmap) : res wmap :=
    match items with
    | [] => Ok results
    | (docid, score) :: items' =>
        do q <- py_div score qw;
        normalise_loop items' qw (put docid (f32 q) results)
    end.
  (** textindex.py:75-89.  When the index returns one of its own maps these assignments
      change it (cosineindex.py:79 with an idf of exactly 1.0): see M_alias.v. *)
  Definition normalise (s : sys V) (terms : list qterm) (results : wmap) : res wmap :=
    do qw <- query_weight s (map term_text terms);
    let qw := if feqb qw f0 then f1 else qw in
    let qw := fmul qw f1 in
    normalise_loop (elts results) qw results.

  (** textindex.py:70-91 *)
  Definition apply (s : sys V) (querytext : str) (start : Z) (count : option Z) : pres (option wmap) :=
    pdo (tree, _) <- parseQuery space upper (fun t => parseTerms qpipeline (TxStr t)) isGlob querytext;
    match execute s tree with
    | Raise e => PErr (PExn e)
    | Ok None => POk None
    | Ok (Some results) =>
        if is_empty results then POk (Some results)
        else match normalise s (terms tree) results with
             | Ok r => POk (Some r)
             | Raise e => PErr (PExn e)
             end
    end.
End TextIndex.
