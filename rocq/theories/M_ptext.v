(** * Model of a text index and its lexicon stored in a ZODB
    (/repo/src/zope/index/text/baseindex.py, okapiindex.py, cosineindex.py, lexicon.py)

    The index, the lexicon, their BTrees and the [Length] counters are Persistent.  A value
    of [_wordinfo] is a dict for words of few documents, else an IF BTree
    (baseindex.py:239-280).  The dict is not Persistent: it is saved as part of the bucket
    of [_wordinfo] that refers to it, and changing it does not mark that bucket as changed;
    [self._wordinfo[wid] = doc2score] does ("not redundant: Persistency!").

    External, as documented for ZODB and BTrees: a commit saves the objects marked as
    changed, and the new objects they refer to; assigning to or deleting a key of a BTree
    marks its bucket; [Length.change] and [Length.set] mark the counter; an abort makes the
    objects marked as changed, and no others, forget their state; the cache may drop the
    state of unchanged objects.

    Simplifications: which keys share a bucket is not modelled but left open at each commit
    and abort; an IF BTree that is a value of [_wordinfo] is one object, and is saved when
    marked even if nothing refers to it any more; assigning an equal number to a key of an
    IF BTree, which BTrees leaves unmarked, marks it here; one connection, used between
    calls only (no commit or cache eviction in the middle of a method). *)
From Verif Require Export M_okapi M_cosine M_baseindex SMap Ord.

(** ** Persistent mappings and counters *)
Section Stored.
  Context {K : Type} `{OK : Ord K} {X : Type}.
  Record stored := mkStored {
    live : smap K X;     (* in memory *)
    saved : smap K X;    (* in the database *)
    marks : sset K       (* keys in buckets marked as changed *)
  }.
  Definition s_new : stored := mkStored empty empty empty.
  (** [m[k] = x], [del m[k]] *)
  Definition s_put (k : K) (x : X) (m : stored) : stored := mkStored (put k x (live m)) (saved m) (sadd k (marks m)).
  Definition s_del (k : K) (m : stored) : stored := mkStored (del k (live m)) (saved m) (sadd k (marks m)).
  (** The value of [k], not a Persistent object, is changed in place to [x]. *)
  Definition s_inplace (k : K) (x : X) (m : stored) : stored := mkStored (put k x (live m)) (saved m) (marks m).
  (** The entries of [a] at the keys in [ks], those of [b] elsewhere. *)
  Definition mixed (ks : sset K) (a b : smap K X) : smap K X :=
    merge (fun x y => match x, y with Some (Some o), _ => Some o | Some None, _ => None | None, y => y end)
      (merge (fun k x => match k with Some _ => Some x | None => None end) ks a) b.
  (** External.  [ks]: keys that share a bucket with marked ones *)
  Definition s_commit (ks : sset K) (m : stored) : stored :=
    mkStored (live m) (mixed (sunion (marks m) ks) (live m) (saved m)) empty.
  Definition s_abort (ks : sset K) (m : stored) : stored :=
    mkStored (mixed (sunion (marks m) ks) (saved m) (live m)) (saved m) empty.
  (** External.  [ks]: keys in unmarked buckets *)
  Definition s_evict (ks : sset K) (m : stored) : stored :=
    mkStored (mixed (mdiff ks (marks m)) (saved m) (live m)) (saved m) (marks m).
  Definition s_restart (m : stored) : stored := mkStored (saved m) (saved m) empty.
  (** A new object is saved in full. *)
  Definition s_all (m : stored) : stored := mkStored (live m) (live m) empty.
End Stored.
Arguments stored K {OK} X.

(** A [BTrees.Length.Length] *)
Record cell := mkCell { n_live : Z; n_saved : Z; n_mark : bool }.
Definition n_new : cell := mkCell 0 0 false.
(** [change] and [set] *)
Definition n_change (d : Z) (c : cell) : cell := mkCell (n_live c + d) (n_saved c) true.
Definition n_set (n : Z) (c : cell) : cell := mkCell n (n_saved c) true.
Definition n_commit (c : cell) : cell := mkCell (n_live c) (if n_mark c then n_live c else n_saved c) false.
Definition n_abort (c : cell) : cell := mkCell (if n_mark c then n_saved c else n_live c) (n_saved c) false.
Definition n_evict (c : cell) : cell := mkCell (if n_mark c then n_live c else n_saved c) (n_saved c) (n_mark c).
Definition n_restart (c : cell) : cell := mkCell (n_saved c) (n_saved c) false.
Definition n_all (c : cell) : cell := mkCell (n_live c) (n_live c) false.

(** The keys concerned by a commit, an abort or an eviction. *)
Record keysets := mkKs {
  k_wordinfo : sset Z; k_docweight : sset Z; k_docwords : sset Z; k_trees : sset Z; k_wids : sset str; k_words : sset Z
}.
Definition no_keys : keysets := mkKs empty empty empty empty empty empty.

Section PText.
  Context {V : Type}.
  Variable rnd : V -> V.
  Variable veqb : V -> V -> bool.
  Variable freqs : list Z -> res (smap Z V * V).
  Variable pipeline : list elem.

  (** A value of [_wordinfo]: a dict, or an IF BTree, which is an object of its own. *)
  Inductive pobj := PDict (m : smap Z V) | PTree (r : Z).

  (** The objects made in [clear], baseindex.py:53-83 *)
  Record parts := mkParts {
    c_wordinfo : stored Z pobj; c_docweight : stored Z V; c_docwords : stored Z str; c_wordCount : cell; c_documentCount : cell
  }.
  Definition parts_new : parts := mkParts s_new s_new s_new n_new n_new.

  Record dbst := mkDb {
    d_wids : stored str Z; d_words : stored Z str; d_lexCount : cell;   (* lexicon.py:37-46 *)
    d_parts : parts;                                                    (* the attributes of the index *)
    d_old : option parts;                                               (* its attributes before [clear] *)
    d_trees : stored Z (smap Z V);                                      (* IF BTrees in [_wordinfo] *)
    d_fresh : Z;                                                        (* how many there were *)
    d_total : cell                                                      (* okapiindex.py:238 *)
  }.
  Definition db_new : dbst := mkDb s_new s_new n_new parts_new None s_new 0 n_new.

  Definition set_parts c st := mkDb (d_wids st) (d_words st) (d_lexCount st) c (d_old st) (d_trees st) (d_fresh st) (d_total st).
  Definition set_trees t st := mkDb (d_wids st) (d_words st) (d_lexCount st) (d_parts st) (d_old st) t (d_fresh st) (d_total st).
  Definition db_wordinfo m st := let c := d_parts st in
    set_parts (mkParts m (c_docweight c) (c_docwords c) (c_wordCount c) (c_documentCount c)) st.
  Definition db_docweight m st := let c := d_parts st in
    set_parts (mkParts (c_wordinfo c) m (c_docwords c) (c_wordCount c) (c_documentCount c)) st.
  Definition db_docwords m st := let c := d_parts st in
    set_parts (mkParts (c_wordinfo c) (c_docweight c) m (c_wordCount c) (c_documentCount c)) st.
  Definition db_wordCount n st := let c := d_parts st in
    set_parts (mkParts (c_wordinfo c) (c_docweight c) (c_docwords c) (n_change n (c_wordCount c)) (c_documentCount c)) st.
  Definition db_documentCount n st := let c := d_parts st in
    set_parts (mkParts (c_wordinfo c) (c_docweight c) (c_docwords c) (c_wordCount c) (n_change n (c_documentCount c))) st.
  Definition db_total n st :=
    mkDb (d_wids st) (d_words st) (d_lexCount st) (d_parts st) (d_old st) (d_trees st) (d_fresh st) (n_change n (d_total st)).
  Definition on_db (f : dbst -> dbst) : sx dbst unit := smod f.

  (** What a value of [_wordinfo] maps documents to; [T]: the IF BTrees *)
  Definition tree_of (T : smap Z (smap Z V)) (r : Z) : smap Z V := match get T r with Some m => m | None => empty end.
  Definition resolve (T : smap Z (smap Z V)) (o : pobj) : posting V :=
    match o with PDict m => mkPosting true m | PTree r => mkPosting false (tree_of T r) end.

  (** ** Methods *)
  (** baseindex.py:53-83 [clear]: new objects; the index itself is marked *)
  Definition db_clear (st : dbst) : dbst :=
    mkDb (d_wids st) (d_words st) (d_lexCount st) parts_new
      (match d_old st with None => Some (d_parts st) | Some c => Some c end) (d_trees st) (d_fresh st) (d_total st).

  (** lexicon.py:141-155 [_getWordIdCreate] and [_new_wid] *)
  Definition db_lex (st : dbst) : lex := mkLex (live (d_wids st)) (live (d_words st)) (n_live (d_lexCount st)).
  Definition db_getWordIdCreate (word : str) : sx dbst Z := fun st =>
    match get (live (d_wids st)) word with
    | Some wid => (st, Ok wid)
    | None =>
        match new_wid (db_lex st) with
        | Ok wid => (mkDb (s_put word wid (d_wids st)) (s_put wid word (d_words st)) (n_set wid (d_lexCount st))
                       (d_parts st) (d_old st) (d_trees st) (d_fresh st) (d_total st), Ok wid)
        | Raise e => (st, Raise e)
        end
    end.
  Fixpoint db_create_all (ws : list str) : sx dbst (list Z) :=
    match ws with
    | [] => sret []
    | w :: ws' => sdo wid <- db_getWordIdCreate w; sdo wids <- db_create_all ws'; sret (wid :: wids)
    end.
  (** lexicon.py:62-76 [sourceToWordIds] *)
  Definition db_source (t : ltext) : sx dbst (list Z) := db_create_all (run_pipeline pipeline (text2list t)).
  (** What others do to the lexicon, M_lexicon.v *)
  Definition db_other (o : lop) : sx dbst unit :=
    match o with
    | LText t => fun st => (fst (db_source t st), Ok tt)
    | LCounter n => on_db (fun st => mkDb (d_wids st) (d_words st) (n_set n (d_lexCount st))
                                       (d_parts st) (d_old st) (d_trees st) (d_fresh st) (d_total st))
    end.

  (** baseindex.py:265-266, 296-297: a new dict *)
  Definition db_new_dict (wid : Z) (f : V) (docid : Z) (st : dbst) : dbst :=
    db_wordinfo (s_put wid (PDict (put docid f empty)) (c_wordinfo (d_parts st))) st.
  (** baseindex.py:275-280, 299-303: [doc2score] is converted to an IF BTree if it has
      become too long, the score is stored in it, and it is stored in [_wordinfo] *)
  Definition db_set_score (wid : Z) (f : V) (docid : Z) (doc2score : pobj) (st : dbst) : dbst :=
    match doc2score with
    | PDict m =>
        if Zsize m =? DICT_CUTOFF then
          let r := d_fresh st in
          let st1 := mkDb (d_wids st) (d_words st) (d_lexCount st) (d_parts st) (d_old st)
                       (s_put r (put docid (rnd f) (mmap (fun _ => rnd) m)) (d_trees st)) (r + 1) (d_total st) in
          db_wordinfo (s_put wid (PTree r) (c_wordinfo (d_parts st1))) st1
        else
          let m' := put docid f m in
          let st1 := db_wordinfo (s_inplace wid (PDict m') (c_wordinfo (d_parts st))) st in
          db_wordinfo (s_put wid (PDict m') (c_wordinfo (d_parts st1))) st1
    | PTree r =>
        let st1 := set_trees (s_put r (put docid (rnd f) (tree_of (live (d_trees st)) r)) (d_trees st)) st in
        db_wordinfo (s_put wid (PTree r) (c_wordinfo (d_parts st1))) st1
    end.
  (** baseindex.py:239-280 [_add_wordinfo] *)
  Definition db_add_wordinfo (wid : Z) (f : V) (docid : Z) (st : dbst) : dbst :=
    match get (live (c_wordinfo (d_parts st))) wid with
    | None => db_new_dict wid f docid (db_wordCount 1 st)
    | Some doc2score => db_set_score wid f docid doc2score st
    end.
  (** baseindex.py:290-308 [_mass_add_wordinfo] *)
  Definition db_mass_step (docid : Z) (acc : dbst * Z) (kv : Z * V) : dbst * Z :=
    let '(st, n) := acc in
    match get (live (c_wordinfo (d_parts st))) (fst kv) with
    | None => (db_new_dict (fst kv) (snd kv) docid st, n + 1)
    | Some doc2score => (db_set_score (fst kv) (snd kv) docid doc2score st, n)
    end.
  Definition db_mass_add_wordinfo (wid2weight : smap Z V) (docid : Z) (st : dbst) : dbst :=
    let '(st1, n) := fold_left (db_mass_step docid) (elts wid2weight) (st, 0) in
    db_wordCount n st1.
  (** baseindex.py:312, in place: [del doc2score[docid]] *)
  Definition db_del_score (wid docid : Z) (doc2score : pobj) (st : dbst) : dbst :=
    match doc2score with
    | PDict m => db_wordinfo (s_inplace wid (PDict (del docid m)) (c_wordinfo (d_parts st))) st
    | PTree r => set_trees (s_put r (del docid (tree_of (live (d_trees st)) r)) (d_trees st)) st
    end.
  (** baseindex.py:313-316 *)
  Definition db_keep_or_drop (wid : Z) (st : dbst) : dbst :=
    match get (live (c_wordinfo (d_parts st))) wid with
    | None => st
    | Some doc2score =>
        if negb (is_empty (p_map (resolve (live (d_trees st)) doc2score)))
        then db_wordinfo (s_put wid doc2score (c_wordinfo (d_parts st))) st
        else db_wordCount (-1) (db_wordinfo (s_del wid (c_wordinfo (d_parts st))) st)
    end.
  (** baseindex.py:310-321 [_del_wordinfo] *)
  Definition db_del_wordinfo (wid docid : Z) : sx dbst unit :=
    sdo doc2score <- slift (fun st => item (live (c_wordinfo (d_parts st))) wid);
    sdo _ <- slift (fun st => item (p_map (resolve (live (d_trees st)) doc2score)) docid);
    sdo _ <- on_db (db_del_score wid docid doc2score);
    on_db (db_keep_or_drop wid).

  (** baseindex.py:97-99, 168-169 *)
  Definition db_get_words (docid : Z) (st : dbst) : res (list Z) :=
    do code <- item (live (c_docwords (d_parts st))) docid; decode code.
  Definition db_has_doc (st : dbst) (docid : Z) : bool := mem docid (live (c_docwords (d_parts st))).
  (** [self._docweight[docid] = w], [self._docwords[docid] = code] and their deletion *)
  Definition db_put_docweight (docid : Z) (w : V) (st : dbst) : dbst :=
    db_docweight (s_put docid (rnd w) (c_docweight (d_parts st))) st.
  Definition db_put_docwords (docid : Z) (code : str) (st : dbst) : dbst :=
    db_docwords (s_put docid code (c_docwords (d_parts st))) st.

  (** baseindex.py:121-155 [_reindex_doc] *)
  Definition db_reindex (docid : Z) (t : ltext) : sx dbst Z :=
    sdo old_wids <- slift (db_get_words docid);
    sdo (old_wid2w, _) <- slift (fun _ => freqs old_wids);
    sdo new_wids <- db_source t;
    sdo (new_wid2w, new_docw) <- slift (fun _ => freqs new_wids);
    let old_widset := set_of_list (keys old_wid2w) in
    let new_widset := set_of_list (keys new_wid2w) in
    let in_both := sinter old_widset new_widset in
    let only_old := mdiff old_widset in_both in
    let only_new := mdiff new_widset in_both in
    sdo _ <- siter (fun wid => db_del_wordinfo wid docid) (selems only_old);
    sdo _ <- siter (fun wid => sdo w <- slift (fun _ => item new_wid2w wid);
                               on_db (db_add_wordinfo wid w docid)) (selems only_new);
    sdo _ <- siter (fun wid =>
        sdo newscore <- slift (fun _ => item new_wid2w wid);
        sdo oldscore <- slift (fun _ => item old_wid2w wid);
        if negb (veqb oldscore newscore) then on_db (db_add_wordinfo wid newscore docid) else sret tt)
      (selems in_both);
    sdo _ <- on_db (db_put_docweight docid new_docw);
    sdo code <- slift (fun _ => encode new_wids);
    sdo _ <- on_db (db_put_docwords docid code);
    sret (Zlen new_wids).
  (** baseindex.py:102-115 [index_doc] *)
  Definition db_index_doc (reindex : Z -> ltext -> sx dbst Z) (docid : Z) (t : ltext) : sx dbst Z :=
    fun st =>
    if db_has_doc st docid then reindex docid t st
    else
      (sdo wids <- db_source t;
       sdo (wid2weight, docw) <- slift (fun _ => freqs wids);
       sdo _ <- on_db (db_mass_add_wordinfo wid2weight docid);
       sdo _ <- on_db (db_put_docweight docid docw);
       sdo code <- slift (fun _ => encode wids);
       sdo _ <- on_db (db_put_docwords docid code);
       sdo _ <- on_db (db_documentCount 1);
       sret (Zlen wids)) st.
  (** baseindex.py:172-183 [unindex_doc] *)
  Definition db_unindex_doc (docid : Z) : sx dbst unit :=
    fun st =>
    if negb (db_has_doc st docid) then (st, Ok tt)
    else
      (sdo wids <- slift (db_get_words docid);
       sdo _ <- siter (fun wid => db_del_wordinfo wid docid) (selems (set_of_list wids));
       sdo _ <- slift (fun st => item (live (c_docwords (d_parts st))) docid);
       sdo _ <- on_db (fun st => db_docwords (s_del docid (c_docwords (d_parts st))) st);
       sdo _ <- slift (fun st => item (live (c_docweight (d_parts st))) docid);
       sdo _ <- on_db (fun st => db_docweight (s_del docid (c_docweight (d_parts st))) st);
       on_db (db_documentCount (-1))) st.

  (** ** Transactions *)
  Definition parts_commit (ks : keysets) (c : parts) : parts :=
    mkParts (s_commit (k_wordinfo ks) (c_wordinfo c)) (s_commit (k_docweight ks) (c_docweight c)) (s_commit (k_docwords ks) (c_docwords c))
      (n_commit (c_wordCount c)) (n_commit (c_documentCount c)).
  Definition parts_all (c : parts) : parts :=
    mkParts (s_all (c_wordinfo c)) (s_all (c_docweight c)) (s_all (c_docwords c)) (n_all (c_wordCount c)) (n_all (c_documentCount c)).
  Definition parts_abort (ks : keysets) (c : parts) : parts :=
    mkParts (s_abort (k_wordinfo ks) (c_wordinfo c)) (s_abort (k_docweight ks) (c_docweight c)) (s_abort (k_docwords ks) (c_docwords c))
      (n_abort (c_wordCount c)) (n_abort (c_documentCount c)).
  Definition parts_evict (ks : keysets) (c : parts) : parts :=
    mkParts (s_evict (k_wordinfo ks) (c_wordinfo c)) (s_evict (k_docweight ks) (c_docweight c)) (s_evict (k_docwords ks) (c_docwords c))
      (n_evict (c_wordCount c)) (n_evict (c_documentCount c)).
  Definition parts_restart (c : parts) : parts :=
    mkParts (s_restart (c_wordinfo c)) (s_restart (c_docweight c)) (s_restart (c_docwords c)) (n_restart (c_wordCount c)) (n_restart (c_documentCount c)).
  (** The objects the database's copy of the index refers to. *)
  Definition db_base (st : dbst) : parts := match d_old st with Some c => c | None => d_parts st end.

  (** External: commit; after [clear] the index refers to new objects, which are saved. *)
  Definition db_commit (ks : keysets) (st : dbst) : dbst :=
    mkDb (s_commit (k_wids ks) (d_wids st)) (s_commit (k_words ks) (d_words st)) (n_commit (d_lexCount st))
      (match d_old st with None => parts_commit ks (d_parts st) | Some _ => parts_all (d_parts st) end) None
      (s_commit (k_trees ks) (d_trees st)) (d_fresh st) (n_commit (d_total st)).
  (** External: abort; the index refers to the objects it had before [clear]. *)
  Definition db_abort (ks : keysets) (st : dbst) : dbst :=
    mkDb (s_abort (k_wids ks) (d_wids st)) (s_abort (k_words ks) (d_words st)) (n_abort (d_lexCount st))
      (parts_abort ks (db_base st)) None (s_abort (k_trees ks) (d_trees st)) (d_fresh st) (n_abort (d_total st)).
  (** External: the cache drops unchanged objects; objects the database does not have yet
      are not in the cache. *)
  Definition db_evict (ks : keysets) (st : dbst) : dbst :=
    mkDb (s_evict (k_wids ks) (d_wids st)) (s_evict (k_words ks) (d_words st)) (n_evict (d_lexCount st))
      (match d_old st with None => parts_evict ks (d_parts st) | Some _ => d_parts st end)
      (option_map (parts_evict ks) (d_old st)) (s_evict (k_trees ks) (d_trees st)) (d_fresh st) (n_evict (d_total st)).
  (** A new process, or a new connection, reads everything from the database. *)
  Definition db_restart (st : dbst) : dbst :=
    mkDb (s_restart (d_wids st)) (s_restart (d_words st)) (n_restart (d_lexCount st)) (parts_restart (db_base st)) None
      (s_restart (d_trees st)) (d_fresh st) (n_restart (d_total st)).

  (** ** What happens to the index *)
  Inductive zevent := ZCall (o : top) | ZCommit (ks : keysets) | ZAbort (ks : keysets) | ZEvict (ks : keysets) | ZRestart.
  Section Run.
    Variable index_doc : Z -> ltext -> sx dbst Z.
    Variable unindex_doc : Z -> sx dbst unit.
    Definition db_call (o : top) : sx dbst unit :=
      match o with
      | TIndex d t => sdo _ <- index_doc d t; sret tt
      | TUnindex d => unindex_doc d
      | TClear => on_db db_clear
      | TOther o => db_other o
      end.
    (** The second component: whether the calls returned or what they raised. *)
    Definition db_event (s : dbst * list (res unit)) (e : zevent) : dbst * list (res unit) :=
      match e with
      | ZCall o => let (st, r) := db_call o (fst s) in (st, snd s ++ [r])
      | ZCommit ks => (db_commit ks (fst s), snd s)
      | ZAbort ks => (db_abort ks (fst s), snd s)
      | ZEvict ks => (db_evict ks (fst s), snd s)
      | ZRestart => (db_restart (fst s), snd s)
      end.
    Definition db_run (evs : list zevent) : dbst * list (res unit) := fold_left db_event evs (db_new, []).
  End Run.

  (** The index as in M_baseindex.v: in memory, and as a new connection would read it. *)
  Definition db_live (st : dbst) : sys V :=
    let c := d_parts st in
    mkSys (db_lex st)
      (mkIx (mmap (fun _ => resolve (live (d_trees st))) (live (c_wordinfo c))) (live (c_docweight c)) (live (c_docwords c))
         (n_live (c_wordCount c)) (n_live (c_documentCount c)) (n_live (d_total st))).
  Definition db_saved (st : dbst) : sys V :=
    let c := db_base st in
    mkSys (mkLex (saved (d_wids st)) (saved (d_words st)) (n_saved (d_lexCount st)))
      (mkIx (mmap (fun _ => resolve (saved (d_trees st))) (saved (c_wordinfo c))) (saved (c_docweight c)) (saved (c_docwords c))
         (n_saved (c_wordCount c)) (n_saved (c_documentCount c)) (n_saved (d_total st))).
End PText.
Arguments pobj : clear implicits.
Arguments parts : clear implicits.
Arguments dbst : clear implicits.

Section POkapi.
  Variable pipeline : list elem.
  (** okapiindex.py:240-262 *)
  Definition db_change_doc_len (delta : Z) : sx (dbst Z) unit := on_db (db_total delta).
  Definition db_okapi_reindex (docid : Z) (t : ltext) : sx (dbst Z) Z :=
    sdo w <- slift (fun st => item (live (c_docweight (d_parts st))) docid);
    sdo _ <- db_change_doc_len (- w);
    db_reindex f32Z Z.eqb okapi_freqs pipeline docid t.
  Definition db_okapi_index_doc (docid : Z) (t : ltext) : sx (dbst Z) Z :=
    sdo count <- db_index_doc f32Z okapi_freqs pipeline db_okapi_reindex docid t;
    sdo _ <- db_change_doc_len count;
    sret count.
  Definition db_okapi_unindex_doc (docid : Z) : sx (dbst Z) unit :=
    fun st =>
    if negb (db_has_doc st docid) then (st, Ok tt)
    else
      (sdo w <- slift (fun st => item (live (c_docweight (d_parts st))) docid);
       sdo _ <- db_change_doc_len (- w);
       db_unindex_doc docid) st.
  Definition db_okapi_run : list zevent -> dbst Z * list (res unit) := db_run pipeline db_okapi_index_doc db_okapi_unindex_doc.
End POkapi.

Section PCosine.
  Context {F : Type} {AF : Arith F}.
  Variable pipeline : list elem.
  (** CosineIndex inherits the methods. *)
  Definition db_cos_index_doc : Z -> ltext -> sx (dbst F) Z :=
    db_index_doc f32 cos_freqs pipeline (db_reindex f32 feqb cos_freqs pipeline).
  Definition db_cos_run : list zevent -> dbst F * list (res unit) := db_run pipeline db_cos_index_doc db_unindex_doc.
End PCosine.
