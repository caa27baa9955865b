(** * Model of field and keyword indexes stored in a ZODB
    (/repo/src/zope/index/field/index.py, keyword/index.py)

    Both keep a BTree from values (keywords) to sets of document ids, a BTree from document
    ids to values (Sets of keywords) and a [Length].  The index, the BTrees, the sets of
    document ids and the [Length] are Persistent objects.

    External, as documented for ZODB and BTrees: see M_ptext.v, whose mappings and counters
    are used.  [insert] and [remove] mark the set they change; assigning an attribute marks
    the index.

    Simplifications: which keys share a bucket is left open at each commit and abort, and so
    is which sets share one; a set is one object; a set that was changed is saved even if
    nothing refers to it any more; the Set of keywords of a document is new with every
    assignment and not changed afterwards, so that it is part of the BTree here; one
    connection, used between calls only. *)
From Verif Require Export M_field M_keyword M_ptext SMap PyVal Ord.

Section PSets.
  Context {K : Type} `{OK : Ord K} {C R : Type}.
  (** [C]: the state of a set of document ids, [R]: what is stored for a document id *)
  Variable nothing : C.

  (** The objects made in [clear], field/index.py:49-55, keyword/index.py:49-59 *)
  Record iparts := mkIP { ip_fwd : stored K Z; ip_rev : stored Z R; ip_num : cell }.
  Definition ip_new : iparts := mkIP s_new s_new n_new.
  Record ist := mkI {
    i_parts : iparts;           (* the attributes of the index *)
    i_old : option iparts;      (* its attributes before [clear] *)
    i_sets : stored Z C;        (* the sets of document ids *)
    i_fresh : Z;                (* how many there were *)
    i_thr : cell                (* keyword/index.py:42, [tree_threshold] *)
  }.
  Definition i_new : ist := mkI ip_new None s_new 0 (mkCell 64 64 false).
  Definition set_parts_i (c : iparts) (st : ist) : ist := mkI c (i_old st) (i_sets st) (i_fresh st) (i_thr st).
  (** [self._fwd_index[k] = Set()] (a new object), [del self._fwd_index[k]] *)
  Definition i_add_set (k : K) (x : C) (st : ist) : ist :=
    let c := i_parts st in
    mkI (mkIP (s_put k (i_fresh st) (ip_fwd c)) (ip_rev c) (ip_num c)) (i_old st)
      (s_put (i_fresh st) x (i_sets st)) (i_fresh st + 1) (i_thr st).
  Definition i_drop (k : K) (st : ist) : ist :=
    let c := i_parts st in set_parts_i (mkIP (s_del k (ip_fwd c)) (ip_rev c) (ip_num c)) st.
  (** [set.insert(docid)], [set.remove(docid)] *)
  Definition i_write (r : Z) (x : C) (st : ist) : ist :=
    mkI (i_parts st) (i_old st) (s_put r x (i_sets st)) (i_fresh st) (i_thr st).
  (** [self._rev_index[docid] = x], [del self._rev_index[docid]] *)
  Definition i_put_rev (docid : Z) (x : R) (st : ist) : ist :=
    let c := i_parts st in set_parts_i (mkIP (ip_fwd c) (s_put docid x (ip_rev c)) (ip_num c)) st.
  Definition i_del_rev (docid : Z) (st : ist) : ist :=
    let c := i_parts st in set_parts_i (mkIP (ip_fwd c) (s_del docid (ip_rev c)) (ip_num c)) st.
  (** [self._num_docs.change(n)] *)
  Definition i_change (n : Z) (st : ist) : ist :=
    let c := i_parts st in set_parts_i (mkIP (ip_fwd c) (ip_rev c) (n_change n (ip_num c))) st.
  (** [self.tree_threshold = n] *)
  Definition i_set_thr (n : Z) (st : ist) : ist := mkI (i_parts st) (i_old st) (i_sets st) (i_fresh st) (n_set n (i_thr st)).
  (** [clear]: new objects; the index itself is marked *)
  Definition i_clear (st : ist) : ist :=
    mkI ip_new (match i_old st with None => Some (i_parts st) | Some c => Some c end) (i_sets st) (i_fresh st) (i_thr st).

  Definition content (T : smap Z C) (r : Z) : C := match get T r with Some x => x | None => nothing end.
  Definition i_rev_get (docid : Z) (st : ist) : option R := get (live (ip_rev (i_parts st))) docid.
  (** [self._fwd_index.get(k)]: which object, and its state *)
  Definition i_lookup (k : K) (st : ist) : option (Z * C) :=
    match get (live (ip_fwd (i_parts st))) k with Some r => Some (r, content (live (i_sets st)) r) | None => None end.

  (** ** Transactions *)
  Record ikeys := mkIK { ik_fwd : sset K; ik_rev : sset Z; ik_sets : sset Z }.
  Definition ip_commit (ks : ikeys) (c : iparts) : iparts :=
    mkIP (s_commit (ik_fwd ks) (ip_fwd c)) (s_commit (ik_rev ks) (ip_rev c)) (n_commit (ip_num c)).
  Definition ip_all (c : iparts) : iparts := mkIP (s_all (ip_fwd c)) (s_all (ip_rev c)) (n_all (ip_num c)).
  Definition ip_abort (ks : ikeys) (c : iparts) : iparts :=
    mkIP (s_abort (ik_fwd ks) (ip_fwd c)) (s_abort (ik_rev ks) (ip_rev c)) (n_abort (ip_num c)).
  Definition ip_evict (ks : ikeys) (c : iparts) : iparts :=
    mkIP (s_evict (ik_fwd ks) (ip_fwd c)) (s_evict (ik_rev ks) (ip_rev c)) (n_evict (ip_num c)).
  Definition ip_restart (c : iparts) : iparts := mkIP (s_restart (ip_fwd c)) (s_restart (ip_rev c)) (n_restart (ip_num c)).
  (** The objects the database's copy of the index refers to. *)
  Definition i_base (st : ist) : iparts := match i_old st with Some c => c | None => i_parts st end.
  (** External: commit, abort, eviction from the cache, restart, as in M_ptext.v *)
  Definition i_commit (ks : ikeys) (st : ist) : ist :=
    mkI (match i_old st with None => ip_commit ks (i_parts st) | Some _ => ip_all (i_parts st) end) None
      (s_commit (ik_sets ks) (i_sets st)) (i_fresh st) (n_commit (i_thr st)).
  Definition i_abort (ks : ikeys) (st : ist) : ist :=
    mkI (ip_abort ks (i_base st)) None (s_abort (ik_sets ks) (i_sets st)) (i_fresh st) (n_abort (i_thr st)).
  Definition i_evict (ks : ikeys) (st : ist) : ist :=
    mkI (match i_old st with None => ip_evict ks (i_parts st) | Some _ => i_parts st end)
      (option_map (ip_evict ks) (i_old st)) (s_evict (ik_sets ks) (i_sets st)) (i_fresh st) (n_evict (i_thr st)).
  Definition i_restart (st : ist) : ist :=
    mkI (ip_restart (i_base st)) None (s_restart (i_sets st)) (i_fresh st) (n_restart (i_thr st)).

  (** ** What happens to the index *)
  Inductive ievent (O : Type) := ICall (o : O) | ICommit (ks : ikeys) | IAbort (ks : ikeys) | IEvict (ks : ikeys) | IRestart.
  Arguments ICall {O}. Arguments ICommit {O}. Arguments IAbort {O}. Arguments IEvict {O}. Arguments IRestart {O}.
  (** [call o]: a call; the list is of what the calls returned or raised *)
  Definition i_event {O} (call : O -> ist -> ist * res unit) (s : ist * list (res unit)) (e : ievent O) : ist * list (res unit) :=
    match e with
    | ICall o => let (st, r) := call o (fst s) in (st, snd s ++ [r])
    | ICommit ks => (i_commit ks (fst s), snd s)
    | IAbort ks => (i_abort ks (fst s), snd s)
    | IEvict ks => (i_evict ks (fst s), snd s)
    | IRestart => (i_restart (fst s), snd s)
    end.
  Definition i_run {O} (call : O -> ist -> ist * res unit) (evs : list (ievent O)) : ist * list (res unit) :=
    fold_left (i_event call) evs (i_new, []).
End PSets.
Arguments iparts K {OK} R.
Arguments ist K {OK} C R.
Arguments ikeys K {OK}.
Arguments ievent K {OK} O.
Arguments ICall {K OK O}. Arguments ICommit {K OK O}. Arguments IAbort {K OK O}. Arguments IEvict {K OK O}. Arguments IRestart {K OK O}.

(** ** Field index *)
Section PField.
  Context {T : Type} `{OT : Ord T}.
  Notation pyval := (pyval T).
  Notation pst := (ist pyval (sset Z) pyval).

  (** [self._fwd_index.get(value)], as [bt_get] of M_field.v *)
  Definition pf_get (value : pyval) (st : pst) : res (option (Z * sset Z)) :=
    if forallb (key_ok value) (keys (live (ip_fwd (i_parts st)))) then Ok (i_lookup empty value st) else Raise TypeError.
  (** field/index.py:86-107 [unindex_doc] *)
  Definition pf_unindex (docid : Z) (st : pst) : pst * res unit :=
    match i_rev_get docid st with
    | None => (st, Ok tt)
    | Some value =>
        let st1 := i_del_rev docid st in
        match pf_get value st1 with
        | Raise e => (st1, Raise e)
        | Ok None => (i_change (-1) st1, Ok tt)
        | Ok (Some (r, s)) =>
            if mem docid s then
              let st2 := i_write r (srem docid s) st1 in
              let st3 := if is_empty (srem docid s) then i_drop value st2 else st2 in
              (i_change (-1) st3, Ok tt)
            else (i_change (-1) st1, Ok tt)
        end
    end.
  (** field/index.py:73-84, the second half of [index_doc] *)
  Definition pf_insert (docid : Z) (value : pyval) (st : pst) : pst * res unit :=
    match pf_get value st with
    | Raise e => (st, Raise e)
    | Ok found =>
        let '(r, s, st1) := match found with
                            | None => (i_fresh st, empty, i_add_set value empty st)
                            | Some (r, s) => (r, s, st)
                            end in
        (i_put_rev docid value (i_change 1 (i_write r (sadd docid s) st1)), Ok tt)
    end.
  (** field/index.py:65-84 [index_doc] *)
  Definition pf_index (docid : Z) (value : pyval) (st : pst) : pst * res unit :=
    match i_rev_get docid st with
    | Some _ =>
        match pf_get value st with
        | Raise e => (st, Raise e)
        | Ok found =>
            if match found with Some (_, s) => mem docid s | None => false end then (st, Ok tt)
            else
              match pf_unindex docid st with
              | (st', Raise e) => (st', Raise e)
              | (st', Ok _) => pf_insert docid value st'
              end
        end
    | None => pf_insert docid value st
    end.
  Definition pf_call (o : fop T) (st : pst) : pst * res unit :=
    match o with
    | FIndex d v => pf_index d v st
    | FUnindex d => pf_unindex d st
    | FClear => (i_clear st, Ok tt)
    end.
  Definition pf_run : list (ievent pyval (fop T)) -> pst * list (res unit) := i_run pf_call.
  (** The index as in M_field.v: in memory, and as a new connection would read it. *)
  Definition pf_live (st : pst) : fstate T :=
    M_field.mkF (mmap (fun _ => content empty (live (i_sets st))) (live (ip_fwd (i_parts st)))) (live (ip_rev (i_parts st))) (n_live (ip_num (i_parts st))).
  Definition pf_saved (st : pst) : fstate T :=
    M_field.mkF (mmap (fun _ => content empty (saved (i_sets st))) (saved (ip_fwd (i_base st)))) (saved (ip_rev (i_base st))) (n_saved (ip_num (i_base st))).
End PField.

(** ** Keyword index *)
Section PKeyword.
  Context {W : Type} `{OW : Ord W}.
  Variable normalize : list W -> list W.
  Notation pst := (ist W (bool * sset Z) (sset W)).
  Local Notation no_set := (false, empty : sset Z).

  (** keyword/index.py:145-152, the body of the loop of [_insert_forward] *)
  Definition pk_insert_word (docid : Z) (st : pst) (word : W) : pst :=
    let '(r, (is_tree, s), st1) := match i_lookup no_set word st with
                                   | None => (i_fresh st, no_set, i_add_set word no_set st)
                                   | Some (r, x) => (r, x, st)
                                   end in
    let s' := sadd docid s in
    let st2 := i_write r (is_tree, s') st1 in
    if negb is_tree && (Zsize s' >=? n_live (i_thr st2)) then i_add_set word (true, s') st2 else st2.
  (** keyword/index.py:136-152 [_insert_forward] *)
  Definition pk_insert_forward (docid : Z) (words : sset W) (st : pst) : pst :=
    fold_left (pk_insert_word docid) (selems words) st.
  (** keyword/index.py:154-158 [_insert_reverse] *)
  Definition pk_insert_reverse (docid : Z) (words : sset W) (st : pst) : pst :=
    if is_empty words then st else i_put_rev docid words st.
  (** keyword/index.py:106-110 and 120-123 *)
  Fixpoint pk_remove_words (docid : Z) (ws : list W) (st : pst) : pst * res unit :=
    match ws with
    | [] => (st, Ok tt)
    | word :: ws' =>
        match i_lookup no_set word st with
        | None => (st, Raise KeyError)
        | Some (r, (is_tree, s)) =>
            if mem docid s then
              let st1 := i_write r (is_tree, srem docid s) st in
              pk_remove_words docid ws' (if is_empty (srem docid s) then i_drop word st1 else st1)
            else (st, Raise KeyError)
        end
    end.
  (** keyword/index.py:116-134 [unindex_doc]: a KeyError is swallowed *)
  Definition pk_unindex (docid : Z) (st : pst) : pst :=
    match i_rev_get docid st with
    | None => st
    | Some words =>
        match pk_remove_words docid (selems words) st with
        | (st1, Raise _) => st1
        | (st1, Ok _) => i_change (-1) (i_del_rev docid st1)
        end
    end.
  (** keyword/index.py:81-114 [index_doc] *)
  Definition pk_index (docid : Z) (seq : kseq W) (st : pst) : pst * res unit :=
    match seq with
    | SeqStr => (st, Raise TypeError)
    | SeqList l =>
        let old_kw := i_rev_get docid st in
        match l with
        | [] =>
            match old_kw with
            | Some kw => if is_empty kw then (st, Ok tt) else (pk_unindex docid st, Ok tt)
            | None => (st, Ok tt)
            end
        | _ :: _ =>
            let new_kw := set_of_list (normalize l) in
            match old_kw with
            | None => (i_change 1 (pk_insert_reverse docid new_kw (pk_insert_forward docid new_kw st)), Ok tt)
            | Some old =>
                match pk_remove_words docid (selems (mdiff old new_kw)) st with
                | (st1, Raise e) => (st1, Raise e)
                | (st1, Ok _) => (pk_insert_reverse docid new_kw (pk_insert_forward docid (mdiff new_kw old) st1), Ok tt)
                end
            end
        end
    end.
  (** keyword/index.py:199-218 [optimize]: sets of the wrong kind are replaced by new ones *)
  Definition pk_optimize_word (st : pst) (word : W) : pst :=
    match i_lookup no_set word st with
    | None => st
    | Some (_, (is_tree, s)) =>
        if Zsize s >=? n_live (i_thr st) then (if negb is_tree then i_add_set word (true, s) st else st)
        else (if is_tree then i_add_set word (false, s) st else st)
    end.
  Definition pk_optimize (st : pst) : pst := fold_left pk_optimize_word (keys (live (ip_fwd (i_parts st)))) st.
  Definition pk_call (o : kop W) (st : pst) : pst * res unit :=
    match o with
    | KIndex d seq => pk_index d seq st
    | KUnindex d => (pk_unindex d st, Ok tt)
    | KClear => (i_clear st, Ok tt)
    | KOptimize => (pk_optimize st, Ok tt)
    | KThreshold n => (i_set_thr n st, Ok tt)
    end.
  Definition pk_run : list (ievent W (kop W)) -> pst * list (res unit) := i_run pk_call.
  Definition pk_live (st : pst) : kstate W :=
    mkK (mmap (fun _ => content no_set (live (i_sets st))) (live (ip_fwd (i_parts st)))) (live (ip_rev (i_parts st)))
        (n_live (ip_num (i_parts st))) (n_live (i_thr st)).
  Definition pk_saved (st : pst) : kstate W :=
    mkK (mmap (fun _ => content no_set (saved (i_sets st))) (saved (ip_fwd (i_base st)))) (saved (ip_rev (i_base st)))
        (n_saved (ip_num (i_base st))) (n_saved (i_thr st)).
End PKeyword.
