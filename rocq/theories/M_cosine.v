(** * Model of CosineIndex (/repo/src/zope/index/text/cosineindex.py) *)
From Verif Require Export M_okapi Arith SMap Ord.

Section Cosine.
  Context {F : Type} {AF : Arith F}.

  (** cosineindex.py:112-115 [doc_term_weight] *)
  Definition doc_term_weight (count : Z) : res F := do l <- py_log (fofZ count); Ok (fadd f1 l).

  (** cosineindex.py:94-97: the items of the dict of counts in the order in which Python
      iterates over it, which is that of the first occurrences of the words *)
  Definition count_items (wids : list Z) : list (Z * Z) :=
    map (fun wid => (wid, match get (count_words wids) wid with Some n => n | None => 0 end))
      (fold_left (fun ks wid => if existsb (eqb wid) ks then ks else ks ++ [wid]) wids []).
  (** cosineindex.py:98-102: the weights and the sum of their squares *)
  Fixpoint cos_weights (counts : list (Z * Z)) (Wsquares : F) : res (list (Z * F) * F) :=
    match counts with
    | [] => Ok ([], Wsquares)
    | (wid, count) :: counts' =>
        do w <- doc_term_weight count;
        do (l, W2) <- cos_weights counts' (fadd Wsquares (fmul w w));
        Ok ((wid, w) :: l, W2)
    end.
  (** cosineindex.py:93-109 [_get_frequencies]; :94-97 is the loop of OkapiIndex *)
  Definition cos_freqs (wids : list Z) : res (smap Z F * F) :=
    do (ws, W2) <- cos_weights (count_items wids) f0;
    do W <- py_sqrt W2;
    do ws' <- mapM (fun kw => do v <- py_div (snd kw) W; Ok (fst kw, v)) ws;
    Ok (of_list ws', W).

  Variable pipeline : list elem.
  (** CosineIndex inherits index_doc, _reindex_doc and unindex_doc. *)
  Definition cos_index_doc_with : Z -> sx (sys F) (list Z) -> sx (sys F) Z :=
    base_index_doc_with f32 cos_freqs (base_reindex_with f32 feqb cos_freqs).
  Definition cos_index_doc (docid : Z) (t : ltext) : sx (sys F) Z := cos_index_doc_with docid (source pipeline t).
  Definition cos_run (h : list top) : sys F * res unit := run_ops pipeline cos_index_doc base_unindex_doc h.

  (** cosineindex.py:72-79, for one word *)
  Definition cos_search_wid (ix : bindex F) (wid : Z) : res (smap Z F * F) :=
    if negb (mem wid (wordinfo ix)) then Raise AssertionError
    else
      do d2w <- item (wordinfo ix) wid;
      do idf <- inverse_doc_frequency (Zsize (p_map d2w)) (fofZ (Zsize (docweight ix)));
      (* IF.Bucket(d2w) copies the dict *)
      let m := if p_dict d2w then mmap (fun _ => f32) (p_map d2w) else p_map d2w in
      Ok (m, idf).
  (** cosineindex.py:66-80 [_search_wids] *)
  Definition cos_search_wids (ix : bindex F) (wids : list Z) : res (list (smap Z F * F)) :=
    mapM (cos_search_wid ix) wids.

  (** cosineindex.py:82-91 [query_weight]; [wt ** 2.0] is [wt * wt] *)
  Definition cos_query_weight (s : sys F) (terms : list ltext) : res F :=
    let wids := flat_map (fun term => termToWordIds pipeline term (slx s)) terms in
    let N := fofZ (Zsize (docweight (six s))) in
    do sum <- fold_left (fun acc wid =>
          do sum <- acc;
          do p <- item (wordinfo (six s)) wid;
          do wt <- inverse_doc_frequency (Zsize (p_map p)) N;
          Ok (fadd sum (fmul wt wt)))
        (remove_oov (six s) wids) (Ok f0);
    py_sqrt sum.
End Cosine.
