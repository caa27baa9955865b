(** * Model of text indexes stored by old releases
    (/repo/src/zope/index/text: baseindex.py, okapiindex.py, lexicon.py)

    Old releases had no [Length] objects: an index they stored lacks the attributes
    [wordCount] and [documentCount], so that these names mean the methods of the class,
    its [_totaldoclen] is an integer, and its lexicon lacks [wordCount].  The methods that
    change the index put in [Length] objects when they notice.  Here are the methods of
    M_baseindex.v and M_okapi.v with that code; the simplifications are the same. *)
From Verif Require Export M_textindex M_okapi M_cosine M_baseindex Arith SMap Ord.

(** What [self.wordCount] is: the method of the class, or a [Length]. *)
Inductive counter := Method | Length (n : Z).
(** [_totaldoclen] *)
Inductive total := TInt (n : Z) | TLength (n : Z).

(** baseindex.py:110-114, 178-183, 303-308, 315-321:
    [try: c.change(n) / except AttributeError: c = Length(len(...))] *)
Definition count_change (c : counter) (n len : Z) : counter :=
  match c with Length m => Length (m + n) | Method => Length len end.

(** lexicon.py:37-46 *)
Record olex := mkOLex { ol_wids : smap str Z; ol_words : smap Z str; ol_count : counter }.
(** lexicon.py:48-51: the method returns [len(self._wids)] *)
Definition olex_wordCount (lx : olex) : Z := match ol_count lx with Method => Zsize (ol_wids lx) | Length n => n end.
Definition lex_value (lx : olex) : lex := mkLex (ol_wids lx) (ol_words lx) (olex_wordCount lx).
Definition lex_counted (lx : lex) : olex := mkOLex (lwids lx) (lwords lx) (Length (lcount lx)).

Section Old.
  Context {V : Type}.
  Variable rnd : V -> V.
  Variable veqb : V -> V -> bool.
  Variable freqs : list Z -> res (smap Z V * V).
  Variable pipeline : list elem.

  (** baseindex.py:53-83 and okapiindex.py:238 *)
  Record oix := mkOld {
    o_wordinfo : smap Z (posting V);
    o_docweight : smap Z V;
    o_docwords : smap Z str;
    o_wordCount : counter;
    o_documentCount : counter;
    o_total : total
  }.
  Record osys := mkOSys { o_lx : olex; o_ix : oix }.
  Definition on_oix (f : oix -> oix) : sx osys unit := smod (fun s => mkOSys (o_lx s) (f (o_ix s))).
  Definition oset_wordinfo m c ix := mkOld m (o_docweight ix) (o_docwords ix) c (o_documentCount ix) (o_total ix).
  Definition oset_docweight m ix := mkOld (o_wordinfo ix) m (o_docwords ix) (o_wordCount ix) (o_documentCount ix) (o_total ix).
  Definition oset_docwords m ix := mkOld (o_wordinfo ix) (o_docweight ix) m (o_wordCount ix) (o_documentCount ix) (o_total ix).
  Definition oset_documentCount c ix := mkOld (o_wordinfo ix) (o_docweight ix) (o_docwords ix) (o_wordCount ix) c (o_total ix).
  Definition oset_total t ix := mkOld (o_wordinfo ix) (o_docweight ix) (o_docwords ix) (o_wordCount ix) (o_documentCount ix) t.

  (** baseindex.py:53-83 [clear] *)
  Definition o_clear : sx osys unit := on_oix (fun ix => mkOld empty empty empty (Length 0) (Length 0) (o_total ix)).
  (** baseindex.py:85-95: the methods raise NotImplementedError *)
  Definition counted (c : counter) : res Z := match c with Length n => Ok n | Method => Raise NotImplementedError end.
  (** baseindex.py:97-99, 168-169 *)
  Definition o_get_words (ix : oix) (docid : Z) : res (list Z) := do code <- item (o_docwords ix) docid; decode code.
  Definition o_has_doc (ix : oix) (docid : Z) : bool := mem docid (o_docwords ix).

  (** lexicon.py:62-76 [sourceToWordIds]; :68-70 puts in the [Length] *)
  Definition o_source (t : ltext) : sx osys (list Z) :=
    fun s => let '(lx, r) := sourceToWordIds pipeline t (lex_value (o_lx s)) in (mkOSys (lex_counted lx) (o_ix s), r).

  (** baseindex.py:239-280 [_add_wordinfo]; a missing counter becomes
      [Length(len(self._wordinfo))], then 1 more, before the word is added *)
  Definition o_add_wordinfo (wid : Z) (f : V) (docid : Z) (ix : oix) : oix :=
    match get (o_wordinfo ix) wid with
    | None => oset_wordinfo (put wid (p_set rnd docid f (mkPosting true empty)) (o_wordinfo ix))
                (count_change (o_wordCount ix) 1 (Zsize (o_wordinfo ix) + 1)) ix
    | Some p => oset_wordinfo (put wid (p_set rnd docid f (convert rnd p)) (o_wordinfo ix)) (o_wordCount ix) ix
    end.
  (** baseindex.py:290-308 [_mass_add_wordinfo]; [len(self._wordinfo)] is taken at the end *)
  Definition o_mass_add_wordinfo (wid2weight : smap Z V) (docid : Z) (ix : oix) : oix :=
    let '(wi, n) := fold_left (mass_step rnd docid) (elts wid2weight) (o_wordinfo ix, 0) in
    oset_wordinfo wi (count_change (o_wordCount ix) n (Zsize wi)) ix.
  (** baseindex.py:310-321 [_del_wordinfo] *)
  Definition o_del_wordinfo (wid docid : Z) : sx osys unit :=
    sdo p <- slift (fun s => item (o_wordinfo (o_ix s)) wid);
    sdo _ <- slift (fun _ => item (p_map p) docid);
    let p' := mkPosting (p_dict p) (del docid (p_map p)) in
    if is_empty (p_map p')
    then on_oix (fun ix => let wi := del wid (o_wordinfo ix) in
                           oset_wordinfo wi (count_change (o_wordCount ix) (-1) (Zsize wi)) ix)
    else on_oix (fun ix => oset_wordinfo (put wid p' (o_wordinfo ix)) (o_wordCount ix) ix).

  (** baseindex.py:121-155 [_reindex_doc] *)
  Definition o_reindex (docid : Z) (src : sx osys (list Z)) : sx osys Z :=
    sdo old_wids <- slift (fun s => o_get_words (o_ix s) docid);
    sdo (old_wid2w, _) <- slift (fun _ => freqs old_wids);
    sdo new_wids <- src;
    sdo (new_wid2w, new_docw) <- slift (fun _ => freqs new_wids);
    let old_widset := set_of_list (keys old_wid2w) in
    let new_widset := set_of_list (keys new_wid2w) in
    let in_both := sinter old_widset new_widset in
    let only_old := mdiff old_widset in_both in
    let only_new := mdiff new_widset in_both in
    sdo _ <- siter (fun wid => o_del_wordinfo wid docid) (selems only_old);
    sdo _ <- siter (fun wid => sdo w <- slift (fun _ => item new_wid2w wid);
                               on_oix (o_add_wordinfo wid w docid)) (selems only_new);
    sdo _ <- siter (fun wid =>
        sdo newscore <- slift (fun _ => item new_wid2w wid);
        sdo oldscore <- slift (fun _ => item old_wid2w wid);
        if negb (veqb oldscore newscore) then on_oix (o_add_wordinfo wid newscore docid) else sret tt)
      (selems in_both);
    sdo _ <- on_oix (fun ix => oset_docweight (put docid (rnd new_docw) (o_docweight ix)) ix);
    sdo code <- slift (fun _ => encode new_wids);
    sdo _ <- on_oix (fun ix => oset_docwords (put docid code (o_docwords ix)) ix);
    sret (Zlen new_wids).

  (** baseindex.py:102-115 [index_doc]; :110-114 [len(self._docweight)] *)
  Definition o_index_doc (reindex : Z -> sx osys (list Z) -> sx osys Z) (docid : Z) (src : sx osys (list Z)) : sx osys Z :=
    fun s =>
    if o_has_doc (o_ix s) docid then reindex docid src s
    else
      (sdo wids <- src;
       sdo (wid2weight, docw) <- slift (fun _ => freqs wids);
       sdo _ <- on_oix (o_mass_add_wordinfo wid2weight docid);
       sdo _ <- on_oix (fun ix => oset_docweight (put docid (rnd docw) (o_docweight ix)) ix);
       sdo code <- slift (fun _ => encode wids);
       sdo _ <- on_oix (fun ix => oset_docwords (put docid code (o_docwords ix)) ix);
       sdo _ <- on_oix (fun ix => oset_documentCount (count_change (o_documentCount ix) 1 (Zsize (o_docweight ix))) ix);
       sret (Zlen wids)) s.

  (** [del m[k]] *)
  Definition o_delitem {A} (sel : oix -> smap Z A) (upd : smap Z A -> oix -> oix) (k : Z) : sx osys unit :=
    sdo _ <- slift (fun s => item (sel (o_ix s)) k);
    on_oix (fun ix => upd (del k (sel ix)) ix).
  (** baseindex.py:172-183 [unindex_doc] *)
  Definition o_unindex_doc (docid : Z) : sx osys unit :=
    fun s =>
    if negb (o_has_doc (o_ix s) docid) then (s, Ok tt)
    else
      (sdo wids <- slift (fun s => o_get_words (o_ix s) docid);
       sdo _ <- siter (fun wid => o_del_wordinfo wid docid) (selems (set_of_list wids));
       sdo _ <- o_delitem o_docwords oset_docwords docid;
       sdo _ <- o_delitem o_docweight oset_docweight docid;
       on_oix (fun ix => oset_documentCount (count_change (o_documentCount ix) (-1) (Zsize (o_docweight ix))) ix)) s.

  (** Histories.  Others who index texts with the lexicon put in its counter; to set the
      counter it must be there. *)
  Section Run.
    Variable index_doc : Z -> ltext -> sx osys Z.
    Variable unindex_doc : Z -> sx osys unit.
    Definition o_step (o : top) : sx osys unit :=
      match o with
      | TIndex d t => sdo _ <- index_doc d t; sret tt
      | TUnindex d => unindex_doc d
      | TClear => o_clear
      | TOther o => smod (fun s => mkOSys (lex_counted (lex_step pipeline (lex_value (o_lx s)) o)) (o_ix s))
      end.
    Definition o_run (h : list top) : sx osys unit := siter o_step h.
  End Run.

  (** What searches read: the mappings and the counters.  Those that are missing are
      replaced by 0 here; see the definitions below for when they are read. *)
  Definition count_or_0 (c : counter) : Z := match c with Length n => n | Method => 0 end.
  Definition total_value (t : total) : Z := match t with TInt n | TLength n => n end.
  Definition as_new (ix : oix) : bindex V :=
    mkIx (o_wordinfo ix) (o_docweight ix) (o_docwords ix) (count_or_0 (o_wordCount ix)) (count_or_0 (o_documentCount ix))
      (total_value (o_total ix)).
  Definition as_sys (s : osys) : sys V := mkSys (lex_value (o_lx s)) (as_new (o_ix s)).
End Old.
Arguments oix : clear implicits.
Arguments osys : clear implicits.

Section OldOkapi.
  Variable pipeline : list elem.
  (** okapiindex.py:255-262 [_change_doc_len] *)
  Definition o_change_doc_len (delta : Z) : sx (osys Z) unit :=
    on_oix (fun ix => oset_total (match o_total ix with TLength n => TLength (n + delta) | TInt n => TLength (n + delta) end) ix).
  (** okapiindex.py:245-247 [_reindex_doc] *)
  Definition o_okapi_reindex (docid : Z) (src : sx (osys Z) (list Z)) : sx (osys Z) Z :=
    sdo w <- slift (fun s => item (o_docweight (o_ix s)) docid);
    sdo _ <- o_change_doc_len (- w);
    o_reindex f32Z Z.eqb okapi_freqs docid src.
  (** okapiindex.py:240-243 [index_doc] *)
  Definition o_okapi_index_doc (docid : Z) (t : ltext) : sx (osys Z) Z :=
    sdo count <- o_index_doc f32Z okapi_freqs o_okapi_reindex docid (o_source pipeline t);
    sdo _ <- o_change_doc_len count;
    sret count.
  (** okapiindex.py:249-253 [unindex_doc] *)
  Definition o_okapi_unindex_doc (docid : Z) : sx (osys Z) unit :=
    fun s =>
    if negb (o_has_doc (o_ix s) docid) then (s, Ok tt)
    else
      (sdo w <- slift (fun s => item (o_docweight (o_ix s)) docid);
       sdo _ <- o_change_doc_len (- w);
       o_unindex_doc docid) s.
  Definition o_okapi_run : list top -> sx (osys Z) unit := o_run pipeline o_okapi_index_doc o_okapi_unindex_doc.

  (** okapiindex.py:271-301, 322-350: both versions of [_search_wids] ([sw]) call
      [self.documentCount()] first, unless there are no words; :275-279 reads
      [_totaldoclen] whichever it is.  [query_weight] reads no counter (:354-370). *)
  Definition o_okapi_search_wids {F} (sw : bindex Z -> list Z -> res (list (smap Z F * F))) (s : osys Z)
      (ix : bindex Z) (wids : list Z) : res (list (smap Z F * F)) :=
    match wids with
    | [] => sw ix wids
    | _ => do _ <- counted (o_documentCount (o_ix s)); sw ix wids
    end.
End OldOkapi.

Section OldCosine.
  Context {F : Type} {AF : Arith F}.
  Variable pipeline : list elem.
  (** CosineIndex inherits the methods; its searches read no counter
      (cosineindex.py:66-91). *)
  Definition o_cos_index_doc (docid : Z) (t : ltext) : sx (osys F) Z :=
    o_index_doc f32 cos_freqs (o_reindex f32 feqb cos_freqs) docid (o_source pipeline t).
  Definition o_cos_run : list top -> sx (osys F) unit := o_run pipeline o_cos_index_doc o_unindex_doc.
End OldCosine.
