(** * Model of BaseIndex (/repo/src/zope/index/text/baseindex.py)

    The subclass is given by [freqs] (its [_get_frequencies]) and, for searches, by
    its [_search_wids].  [V] is the type of weights, [rnd] the rounding done by an IF
    BTree when it stores a weight, [veqb] Python's [==] on weights.

    Simplifications: document ids and word ids are unbounded integers; the upgrade
    code for counters of old pickles (the [except AttributeError] branches) is in
    M_upgrade.v; BTree iteration order is the order of the keys, and the order in which a
    Python dict is iterated is taken to be the order of the keys too (every loop over a
    dict here treats its entries independently). *)
From Verif Require Export M_lexicon M_widcode M_setops Arith SMap Ord.

(** Methods that change the state and may raise: the state at the time of the
    exception is kept. *)
Definition sx (S A : Type) : Type := S -> S * res A.
Definition sret {S A} (a : A) : sx S A := fun s => (s, Ok a).
Definition sbind {S A B} (m : sx S A) (f : A -> sx S B) : sx S B :=
  fun s => match m s with (s1, Ok a) => f a s1 | (s1, Raise e) => (s1, Raise e) end.
Definition smod {S} (f : S -> S) : sx S unit := fun s => (f s, Ok tt).
Definition slift {S A} (f : S -> res A) : sx S A := fun s => (s, f s).
Notation "'sdo' x <- m ; k" := (sbind m (fun x => k))
  (at level 200, x pattern, m at level 100, k at level 200, right associativity).
Fixpoint siter {S A} (f : A -> sx S unit) (l : list A) : sx S unit :=
  match l with [] => sret tt | x :: l' => sdo _ <- f x; siter f l' end.

Section Base.
  Context {V : Type}.
  Variable rnd : V -> V.
  Variable veqb : V -> V -> bool.
  Variable freqs : list Z -> res (smap Z V * V).
  Variable pipeline : list elem.

  (** A value of [_wordinfo]: a dict or an IF BTree from documents to weights. *)
  Record posting := mkPosting { p_dict : bool; p_map : smap Z V }.

  (** The attributes set in [clear], baseindex.py:53-83, and okapiindex.py:238
      [_totaldoclen] (not used by the other classes). *)
  Record bindex := mkIx {
    wordinfo : smap Z posting;
    docweight : smap Z V;
    docwords : smap Z str;
    wordCount : Z;
    documentCount : Z;
    totaldoclen : Z
  }.
  Definition set_wordinfo m ix := mkIx m (docweight ix) (docwords ix) (wordCount ix) (documentCount ix) (totaldoclen ix).
  Definition set_docweight m ix := mkIx (wordinfo ix) m (docwords ix) (wordCount ix) (documentCount ix) (totaldoclen ix).
  Definition set_docwords m ix := mkIx (wordinfo ix) (docweight ix) m (wordCount ix) (documentCount ix) (totaldoclen ix).
  Definition change_wordCount n ix := mkIx (wordinfo ix) (docweight ix) (docwords ix) (wordCount ix + n) (documentCount ix) (totaldoclen ix).
  Definition change_documentCount n ix := mkIx (wordinfo ix) (docweight ix) (docwords ix) (wordCount ix) (documentCount ix + n) (totaldoclen ix).
  Definition change_totaldoclen n ix := mkIx (wordinfo ix) (docweight ix) (docwords ix) (wordCount ix) (documentCount ix) (totaldoclen ix + n).

  (** The index together with its lexicon, which other indexes may use too. *)
  Record sys := mkSys { slx : lex; six : bindex }.
  Definition on_ix (f : bindex -> bindex) : sx sys unit := smod (fun s => mkSys (slx s) (f (six s))).
  (** [m[k]] of a dict or BTree *)
  Definition item {A} (m : smap Z A) (k : Z) : res A := match get m k with Some v => Ok v | None => Raise KeyError end.

  (** baseindex.py:53-83 [clear] *)
  Definition ix_clear (ix : bindex) : bindex := mkIx empty empty empty 0 0 (totaldoclen ix).
  Definition clear : sx sys unit := on_ix ix_clear.
  (** baseindex.py:47-51 and okapiindex.py:223-238 *)
  Definition ix_new : bindex := mkIx empty empty empty 0 0 0.

  (** baseindex.py:97-99 [get_words] *)
  Definition get_words (ix : bindex) (docid : Z) : res (list Z) := do code <- item (docwords ix) docid; decode code.
  (** baseindex.py:168-169 [has_doc] *)
  Definition has_doc (ix : bindex) (docid : Z) : bool := mem docid (docwords ix).

  Definition DICT_CUTOFF := 10. (* baseindex.py:237 *)
  (** baseindex.py:276-278, 299-301: [IF.BTree(doc2score)] copies the dict *)
  Definition convert (p : posting) : posting :=
    if p_dict p && (Zsize (p_map p) =? DICT_CUTOFF) then mkPosting false (mmap (fun _ => rnd) (p_map p)) else p.
  (** baseindex.py:279, 302: [doc2score[docid] = f] *)
  Definition p_set (docid : Z) (f : V) (p : posting) : posting :=
    mkPosting (p_dict p) (put docid (if p_dict p then f else rnd f) (p_map p)).

  (** baseindex.py:239-280 [_add_wordinfo] *)
  Definition add_wordinfo (wid : Z) (f : V) (docid : Z) (ix : bindex) : bindex :=
    match get (wordinfo ix) wid with
    | None => change_wordCount 1 (set_wordinfo (put wid (p_set docid f (mkPosting true empty)) (wordinfo ix)) ix)
    | Some p => set_wordinfo (put wid (p_set docid f (convert p)) (wordinfo ix)) ix
    end.

  (** baseindex.py:294-303: one round of the loop of [_mass_add_wordinfo]; the second
      component is [new_word_count] *)
  Definition mass_step (docid : Z) (acc : smap Z posting * Z) (kv : Z * V) : smap Z posting * Z :=
    let '(wi, n) := acc in
    match get wi (fst kv) with
    | None => (put (fst kv) (p_set docid (snd kv) (mkPosting true empty)) wi, n + 1)
    | Some p => (put (fst kv) (p_set docid (snd kv) (convert p)) wi, n)
    end.
  (** baseindex.py:290-308 [_mass_add_wordinfo] *)
  Definition mass_add_wordinfo (wid2weight : smap Z V) (docid : Z) (ix : bindex) : bindex :=
    let '(wi, n) := fold_left (mass_step docid) (elts wid2weight) (wordinfo ix, 0) in
    change_wordCount n (set_wordinfo wi ix).

  (** baseindex.py:310-321 [_del_wordinfo].  [del doc2score[docid]] raises KeyError
      before anything is changed. *)
  Definition del_wordinfo (wid docid : Z) : sx sys unit :=
    sdo p <- slift (fun s => item (wordinfo (six s)) wid);
    sdo _ <- slift (fun _ => item (p_map p) docid);
    let p' := mkPosting (p_dict p) (del docid (p_map p)) in
    if is_empty (p_map p')
    then on_ix (fun ix => change_wordCount (-1) (set_wordinfo (del wid (wordinfo ix)) ix))
    else on_ix (fun ix => set_wordinfo (put wid p' (wordinfo ix)) ix).

  (** [self._lexicon.sourceToWordIds(text)] *)
  Definition source (t : ltext) : sx sys (list Z) :=
    fun s => let '(lx, r) := sourceToWordIds pipeline t (slx s) in (mkSys lx (six s), r).

  (** baseindex.py:121-155 [_reindex_doc]; [src] is the call of [sourceToWordIds], which
      may also fail *)
  Definition base_reindex_with (docid : Z) (src : sx sys (list Z)) : sx sys Z :=
    sdo old_wids <- slift (fun s => get_words (six s) docid);
    sdo (old_wid2w, _) <- slift (fun _ => freqs old_wids);
    sdo new_wids <- src;
    sdo (new_wid2w, new_docw) <- slift (fun _ => freqs new_wids);
    let old_widset := set_of_list (keys old_wid2w) in
    let new_widset := set_of_list (keys new_wid2w) in
    let in_both := sinter old_widset new_widset in
    let only_old := mdiff old_widset in_both in
    let only_new := mdiff new_widset in_both in
    sdo _ <- siter (fun wid => del_wordinfo wid docid) (selems only_old);
    sdo _ <- siter (fun wid => sdo w <- slift (fun _ => item new_wid2w wid);
                               on_ix (add_wordinfo wid w docid)) (selems only_new);
    sdo _ <- siter (fun wid =>
        sdo newscore <- slift (fun _ => item new_wid2w wid);
        sdo oldscore <- slift (fun _ => item old_wid2w wid);
        if negb (veqb oldscore newscore) then on_ix (add_wordinfo wid newscore docid) else sret tt)
      (selems in_both);
    sdo _ <- on_ix (fun ix => set_docweight (put docid (rnd new_docw) (docweight ix)) ix);
    sdo code <- slift (fun _ => encode new_wids);
    sdo _ <- on_ix (fun ix => set_docwords (put docid code (docwords ix)) ix);
    sret (Zlen new_wids).
  Definition base_reindex (docid : Z) (t : ltext) : sx sys Z := base_reindex_with docid (source t).

  (** baseindex.py:102-115 [index_doc]; [reindex] is the [_reindex_doc] of the class *)
  Definition base_index_doc_with (reindex : Z -> sx sys (list Z) -> sx sys Z) (docid : Z) (src : sx sys (list Z)) : sx sys Z :=
    fun s =>
    if has_doc (six s) docid then reindex docid src s
    else
      (sdo wids <- src;
       sdo (wid2weight, docw) <- slift (fun _ => freqs wids);
       sdo _ <- on_ix (mass_add_wordinfo wid2weight docid);
       sdo _ <- on_ix (fun ix => set_docweight (put docid (rnd docw) (docweight ix)) ix);
       sdo code <- slift (fun _ => encode wids);
       sdo _ <- on_ix (fun ix => set_docwords (put docid code (docwords ix)) ix);
       sdo _ <- on_ix (change_documentCount 1);
       sret (Zlen wids)) s.
  Definition base_index_doc reindex (docid : Z) (t : ltext) : sx sys Z := base_index_doc_with reindex docid (source t).

  (** [del m[k]] *)
  Definition delitem {A} (sel : bindex -> smap Z A) (upd : smap Z A -> bindex -> bindex) (k : Z) : sx sys unit :=
    sdo _ <- slift (fun s => item (sel (six s)) k);
    on_ix (fun ix => upd (del k (sel ix)) ix).

  (** baseindex.py:172-183 [unindex_doc] *)
  Definition base_unindex_doc (docid : Z) : sx sys unit :=
    fun s =>
    if negb (has_doc (six s) docid) then (s, Ok tt)
    else
      (sdo wids <- slift (fun s => get_words (six s) docid);
       sdo _ <- siter (fun wid => del_wordinfo wid docid) (selems (set_of_list wids));
       sdo _ <- delitem docwords set_docwords docid;
       sdo _ <- delitem docweight set_docweight docid;
       on_ix (change_documentCount (-1))) s.

  (** ** Histories: calls on the index, and changes to the lexicon by others *)
  Inductive top := TIndex (docid : Z) (t : ltext) | TUnindex (docid : Z) | TClear | TOther (o : lop).
  Section Run.
    Variable index_doc : Z -> ltext -> sx sys Z.
    Variable unindex_doc : Z -> sx sys unit.
    Definition op_step (o : top) : sx sys unit :=
      match o with
      | TIndex d t => sdo _ <- index_doc d t; sret tt
      | TUnindex d => unindex_doc d
      | TClear => clear
      | TOther o => smod (fun s => mkSys (lex_step pipeline (slx s) o) (six s))
      end.
    (** stops at the first exception *)
    Definition run_ops (h : list top) : sys * res unit := siter op_step h (mkSys lex_new ix_new).
  End Run.

  (** ** Searches *)
  Section Search.
    Context {F : Type} {AF : Arith F}.
    Local Notation wmap := (smap Z F).
    (** baseindex.py:324-331 [inverse_doc_frequency]; [term_count] is the length of a map *)
    Definition inverse_doc_frequency (term_count : Z) (num_items : F) : res F :=
      do q <- py_div num_items (fofZ term_count); py_log (fadd f1 q).

    Variable search_wids : bindex -> list Z -> res (list (wmap * F)).

    (** baseindex.py:215-216 [_remove_oov_wids] *)
    Definition remove_oov (ix : bindex) (wids : list Z) : list Z := filter (fun w => mem w (wordinfo ix)) wids.

    (** baseindex.py:185-190 [search] *)
    Definition search (s : sys) (term : ltext) : res (option wmap) :=
      match termToWordIds pipeline term (slx s) with
      | [] => Ok None
      | wids =>
          do L <- search_wids (six s) (remove_oov (six s) wids);
          do r <- mass_weightedUnion L; Ok (Some r)
      end.

    (** baseindex.py:192-195 [search_glob] *)
    Definition search_glob (s : sys) (pattern : str) : res wmap :=
      do wids <- globToWordIds pattern (slx s);
      do L <- search_wids (six s) (remove_oov (six s) wids);
      mass_weightedUnion L.

    (** baseindex.py:209-212 *)
    Fixpoint phrase_loop (ix : bindex) (code : str) (hits : list (Z * F)) (result : wmap) : res wmap :=
      match hits with
      | [] => Ok result
      | (docid, weight) :: hits' =>
          do words <- item (docwords ix) docid;
          phrase_loop ix code hits' (if str_contains words code then put docid (f32 weight) result else result)
      end.
    (** baseindex.py:197-213 [search_phrase] *)
    Definition search_phrase (s : sys) (phrase : ltext) : res wmap :=
      let wids := termToWordIds pipeline phrase (slx s) in
      let cleaned := remove_oov (six s) wids in
      if negb (Zlen wids =? Zlen cleaned) then Ok empty
      else
        do scores <- search_wids (six s) wids;
        do hits <- mass_weightedIntersection (map (fun p => (Some (fst p), snd p)) scores);
        if is_empty hits then Ok hits
        else
          do code <- encode wids;
          phrase_loop (six s) code (elts hits) empty.
  End Search.
End Base.
Arguments posting : clear implicits.
Arguments bindex : clear implicits.
Arguments sys : clear implicits.
