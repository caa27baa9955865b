(** * Model of text indexes given document ids out of range
    (/repo/src/zope/index/text/baseindex.py, okapiindex.py, cosineindex.py)

    [fits docid] tells whether the BTrees of the index's family can store [docid].

    External, as in BTrees: looking for a key that does not fit finds nothing; storing one
    in a BTree, and copying a dict that contains one to a BTree or bucket, raises TypeError.
    A Python dict takes any key.

    Unlike in M_baseindex.v, the words of a new document are processed in the order in
    which Python iterates over the dict of their weights, because the loop may be left by
    an exception half-way. *)
From Verif Require Export M_baseindex M_okapi M_cosine SMap Ord.

Section RText.
  Variable fits : Z -> bool.

  Section Base.
    Context {V : Type}.
    Variable rnd : V -> V.
    Variable veqb : V -> V -> bool.
    Variable freqs : list Z -> res (smap Z V * V).
    Variable pipeline : list elem.

    (** baseindex.py:168-169 [has_doc]; also the test of :103 and :173 *)
    Definition r_has_doc (ix : bindex V) (docid : Z) : bool := fits docid && has_doc ix docid.

    (** baseindex.py:276-278, 299-301: [IF.BTree(doc2score)] *)
    Definition r_convert (p : posting V) : res (posting V) :=
      if p_dict p && (Zsize (p_map p) =? DICT_CUTOFF)
      then if forallb fits (keys (p_map p)) then Ok (convert rnd p) else Raise TypeError
      else Ok p.
    (** baseindex.py:279, 302: [doc2score[docid] = f] *)
    Definition r_p_set (docid : Z) (f : V) (p : posting V) : res (posting V) :=
      if p_dict p || fits docid then Ok (p_set rnd docid f p) else Raise TypeError.
    (** baseindex.py:269-280, 294-303: the new value for a word; None: there was none *)
    Definition r_updated (docid : Z) (f : V) (old : option (posting V)) : res (posting V) :=
      do p <- match old with None => Ok (mkPosting true empty) | Some p => r_convert p end;
      r_p_set docid f p.

    (** baseindex.py:239-280 [_add_wordinfo]; a new dict takes any key, so that nothing is
        raised after the change of wordCount *)
    Definition r_add_wordinfo (wid : Z) (f : V) (docid : Z) : sx (sys V) unit :=
      sdo old <- slift (fun s => Ok (get (wordinfo (six s)) wid));
      sdo _ <- match old with None => on_ix (change_wordCount 1) | Some _ => sret tt end;
      sdo p <- slift (fun _ => r_updated docid f old);
      on_ix (fun ix => set_wordinfo (put wid p (wordinfo ix)) ix).

    (** baseindex.py:294-303: the loop of [_mass_add_wordinfo]; it gives [new_word_count] *)
    Fixpoint r_mass_loop (docid : Z) (items : list (Z * V)) (new_word_count : Z) : sx (sys V) Z :=
      match items with
      | [] => sret new_word_count
      | (wid, weight) :: items' =>
          sdo old <- slift (fun s => Ok (get (wordinfo (six s)) wid));
          sdo p <- slift (fun _ => r_updated docid weight old);
          sdo _ <- on_ix (fun ix => set_wordinfo (put wid p (wordinfo ix)) ix);
          r_mass_loop docid items' (match old with None => new_word_count + 1 | Some _ => new_word_count end)
      end.
    (** The items of the dict made by [_get_frequencies] (okapiindex.py:372-377,
        cosineindex.py:93-109), in order of the first occurrences of the words *)
    Definition dict_items (wids : list Z) (wid2weight : smap Z V) : list (Z * V) :=
      flat_map (fun wid => match get wid2weight wid with Some w => [(wid, w)] | None => [] end)
        (fold_left (fun ks wid => if existsb (eqb wid) ks then ks else ks ++ [wid]) wids []).
    (** baseindex.py:290-308 [_mass_add_wordinfo] *)
    Definition r_mass_add_wordinfo (items : list (Z * V)) (docid : Z) : sx (sys V) unit :=
      sdo n <- r_mass_loop docid items 0; on_ix (change_wordCount n).

    (** [self._docweight[docid] = x], [self._docwords[docid] = x] *)
    Definition r_put_docweight (docid : Z) (x : V) : sx (sys V) unit :=
      if fits docid then on_ix (fun ix => set_docweight (put docid (rnd x) (docweight ix)) ix)
      else slift (fun _ => Raise TypeError).
    Definition r_put_docwords (docid : Z) (code : str) : sx (sys V) unit :=
      if fits docid then on_ix (fun ix => set_docwords (put docid code (docwords ix)) ix)
      else slift (fun _ => Raise TypeError).

    (** baseindex.py:121-155 [_reindex_doc] *)
    Definition r_reindex (docid : Z) (src : sx (sys V) (list Z)) : sx (sys V) Z :=
      sdo old_wids <- slift (fun s => get_words (six s) docid);
      sdo (old_wid2w, _) <- slift (fun _ => freqs old_wids);
      sdo new_wids <- src;
      sdo (new_wid2w, new_docw) <- slift (fun _ => freqs new_wids);
      let old_widset := set_of_list (keys old_wid2w) in
      let new_widset := set_of_list (keys new_wid2w) in
      let in_both := sinter old_widset new_widset in
      let only_old := mdiff old_widset in_both in
      let only_new := mdiff new_widset in_both in
      sdo _ <- siter (fun wid => del_wordinfo wid docid) (selems only_old);
      sdo _ <- siter (fun wid => sdo w <- slift (fun _ => item new_wid2w wid);
                                 r_add_wordinfo wid w docid) (selems only_new);
      sdo _ <- siter (fun wid =>
          sdo newscore <- slift (fun _ => item new_wid2w wid);
          sdo oldscore <- slift (fun _ => item old_wid2w wid);
          if negb (veqb oldscore newscore) then r_add_wordinfo wid newscore docid else sret tt)
        (selems in_both);
      sdo _ <- r_put_docweight docid new_docw;
      sdo code <- slift (fun _ => encode new_wids);
      sdo _ <- r_put_docwords docid code;
      sret (Zlen new_wids).

    (** baseindex.py:102-115 [index_doc] *)
    Definition r_base_index_doc (reindex : Z -> sx (sys V) (list Z) -> sx (sys V) Z) (docid : Z) (src : sx (sys V) (list Z)) : sx (sys V) Z :=
      fun s =>
      if r_has_doc (six s) docid then reindex docid src s
      else
        (sdo wids <- src;
         sdo (wid2weight, docw) <- slift (fun _ => freqs wids);
         sdo _ <- r_mass_add_wordinfo (dict_items wids wid2weight) docid;
         sdo _ <- r_put_docweight docid docw;
         sdo code <- slift (fun _ => encode wids);
         sdo _ <- r_put_docwords docid code;
         sdo _ <- on_ix (change_documentCount 1);
         sret (Zlen wids)) s.

    (** baseindex.py:172-183 [unindex_doc] *)
    Definition r_base_unindex_doc (docid : Z) : sx (sys V) unit :=
      fun s => if negb (r_has_doc (six s) docid) then (s, Ok tt) else base_unindex_doc docid s.

    (** A history; the caller goes on after an exception. *)
    Definition r_fold (step : top -> sx (sys V) unit) (h : list top) : sys V :=
      fold_left (fun s o => fst (step o s)) h (mkSys lex_new ix_new).
  End Base.

  Section Okapi.
    Variable pipeline : list elem.
    (** okapiindex.py:245-247 [_reindex_doc] *)
    Definition r_okapi_reindex (docid : Z) (src : sx (sys Z) (list Z)) : sx (sys Z) Z :=
      sdo w <- slift (fun s => item (docweight (six s)) docid);
      sdo _ <- change_doc_len (- w);
      r_reindex f32Z Z.eqb okapi_freqs docid src.
    (** okapiindex.py:240-243 [index_doc] *)
    Definition r_okapi_index_doc (docid : Z) (t : ltext) : sx (sys Z) Z :=
      sdo count <- r_base_index_doc f32Z okapi_freqs r_okapi_reindex docid (source pipeline t);
      sdo _ <- change_doc_len count;
      sret count.
    (** okapiindex.py:249-253 [unindex_doc] *)
    Definition r_okapi_unindex_doc (docid : Z) : sx (sys Z) unit :=
      fun s =>
      if negb (r_has_doc (six s) docid) then (s, Ok tt)
      else
        (sdo w <- slift (fun s => item (docweight (six s)) docid);
         sdo _ <- change_doc_len (- w);
         r_base_unindex_doc docid) s.
    Definition r_okapi_step : top -> sx (sys Z) unit := op_step pipeline r_okapi_index_doc r_okapi_unindex_doc.
    Definition r_okapi_run (h : list top) : sys Z := r_fold r_okapi_step h.
  End Okapi.

  (** The searches of OkapiIndex are those of M_okapi.v: a document id that does not fit is
      looked up in [_docweight] (okapiindex.py:297, okascore.c:90) before anything else is
      done with it, and is not found there. *)

  Section Cosine.
    Context {F : Type} {AF : Arith F}.
    Variable pipeline : list elem.
    Definition r_cos_index_doc (docid : Z) (t : ltext) : sx (sys F) Z :=
      r_base_index_doc f32 cos_freqs (r_reindex f32 feqb cos_freqs) docid (source pipeline t).
    Definition r_cos_step : top -> sx (sys F) unit := op_step pipeline r_cos_index_doc r_base_unindex_doc.
    Definition r_cos_run (h : list top) : sys F := r_fold r_cos_step h.

    (** cosineindex.py:72-79, for one word: [IF.Bucket(d2w)] copies the dict *)
    Definition r_cos_search_wid (ix : bindex F) (wid : Z) : res (smap Z F * F) :=
      do r <- cos_search_wid ix wid;
      do d2w <- item (wordinfo ix) wid;
      if p_dict d2w && negb (forallb fits (keys (p_map d2w))) then Raise TypeError else Ok r.
    (** cosineindex.py:66-80 [_search_wids] *)
    Definition r_cos_search_wids (ix : bindex F) (wids : list Z) : res (list (smap Z F * F)) :=
      mapM (r_cos_search_wid ix) wids.
  End Cosine.
End RText.
