(** * Model of a topic index stored in a ZODB
    (/repo/src/zope/index/topic/index.py and topic/filter.py)

    [TopicIndex] (topic/index.py:27) is Persistent, and so are its BTree [_filters] and
    the [IF.Set] each filter has.  [FilteredSetBase] (filter.py:25) is not: a filter is
    saved as part of the BTree bucket that refers to it, and assigning to an attribute of
    the filter does not mark that bucket as changed.

    External, as documented for ZODB and BTrees: a commit saves the objects marked as
    changed, and the new objects they refer to; assigning to or deleting a BTree key marks
    its bucket; [insert] and [remove] mark a Set that is in the database already; an
    abort makes the objects marked as changed, and no others, forget their state; at
    the end of a transaction the cache may drop the state of unchanged objects.

    Simplifications: which keys share a bucket is not modelled but left open at each
    commit and abort ([extra]); a filter object is used by one index, under one id, and
    [addFilter] gets a new object or the one that is there already; one connection. *)
From Verif Require Export M_topic SMap Ord.

Section PTopic.
  Context {I : Type} `{OI : Ord I} {E C : Type}.
  Variable eval : E -> Z -> C -> evres.
  Notation filt := (filt I E).
  Notation top := (top I E C).

  (** A filter object, filter.py:34-42; [o_set] says which Set object [_ids] is. *)
  Record fobj := mkO { o_python : bool; o_id : I; o_expr : E; o_set : Z }.

  Record pstate := mkP {
    filters : smap I fobj;                    (* [_filters] in memory *)
    sets : smap Z (sset Z);                   (* the Set objects in memory *)
    fresh : Z;                                (* Set objects created so far *)
    dirty : sset I;                           (* keys of [_filters] assigned or deleted *)
    replaced : option (smap I fobj * sset I); (* the BTree before [clear], and its changed keys *)
    s_filters : smap I fobj;                  (* what the database has *)
    s_sets : smap Z (sset Z)
  }.
  Definition p_new : pstate := mkP empty empty 0 empty None empty empty.

  Definition set_of (ss : smap Z (sset Z)) (r : Z) : sset Z := match get ss r with Some s => s | None => empty end.
  Definition set_sets ss st := mkP (filters st) ss (fresh st) (dirty st) (replaced st) (s_filters st) (s_sets st).
  Definition set_filters fs st := mkP fs (sets st) (fresh st) (dirty st) (replaced st) (s_filters st) (s_sets st).
  (** [self._filters[i] = o] or [del self._filters[i]]: marks the bucket *)
  Definition store fs i st := mkP fs (sets st) (fresh st) (sadd i (dirty st)) (replaced st) (s_filters st) (s_sets st).
  (** [self._ids = self.family.IF.Set()], filter.py:41-42: a new Set object *)
  Definition new_set (s : sset Z) st : Z * pstate :=
    (fresh st, mkP (filters st) (put (fresh st) s (sets st)) (fresh st + 1) (dirty st) (replaced st) (s_filters st) (s_sets st)).

  (** topic/index.py:46-48, with a new filter object *)
  Definition p_add (f : filt) (st : pstate) : pstate :=
    let (r, st1) := new_set (f_ids f) st in
    store (put (f_id f) (mkO (f_python f) (f_id f) (f_expr f) r) (filters st1)) (f_id f) st1.
  (** topic/index.py:46-48, with the filter object that is there already *)
  Definition p_again (i : I) (st : pstate) : pstate :=
    match get (filters st) i with Some o => store (put i o (filters st)) i st | None => st end.
  (** topic/index.py:50-52 *)
  Definition p_del (i : I) (st : pstate) : pstate :=
    match get (filters st) i with Some _ => store (del i (filters st)) i st | None => st end.
  (** topic/index.py:42-44: the attribute of the (Persistent) index names a new BTree *)
  Definition p_clear (st : pstate) : pstate :=
    mkP empty (sets st) (fresh st) empty
        (match replaced st with None => Some (filters st, dirty st) | Some x => Some x end) (s_filters st) (s_sets st).
  (** topic/index.py:54-58 and filter.py:41-42: the buckets are not marked *)
  Definition p_clear_one (st : pstate) (i : I) : pstate :=
    match get (filters st) i with
    | None => st
    | Some o => let (r, st1) := new_set empty st in
                set_filters (put i (mkO (o_python o) (o_id o) (o_expr o) r) (filters st1)) st1
    end.
  Definition p_clearFilters (st : pstate) : pstate := fold_left p_clear_one (keys (filters st)) st.
  (** filter.py:59-60: the bucket is not marked *)
  Definition p_setExpr (i : I) (e : E) (st : pstate) : pstate :=
    match get (filters st) i with
    | None => st
    | Some o => set_filters (put i (mkO (o_python o) (o_id o) e (o_set o)) (filters st)) st
    end.
  (** topic/index.py:60-64 and filter.py:44-45, 74-79 *)
  Fixpoint p_index (docid : Z) (context : C) (ids : list I) (st : pstate) : pstate :=
    match ids with
    | [] => st
    | i :: ids' =>
        match get (filters st) i with
        | None => p_index docid context ids' st
        | Some o =>
            if o_python o then
              p_index docid context ids'
                match eval (o_expr o) docid context with
                | Truthy => set_sets (put (o_set o) (sadd docid (set_of (sets st) (o_set o))) (sets st)) st
                | Falsy | Exc => st
                end
            else st (* NotImplementedError *)
        end
    end.
  (** topic/index.py:66-70 and filter.py:47-51 *)
  Definition p_unindex_one (docid : Z) (st : pstate) (i : I) : pstate :=
    match get (filters st) i with
    | None => st
    | Some o => set_sets (put (o_set o) (srem docid (set_of (sets st) (o_set o))) (sets st)) st
    end.
  Definition p_unindex (docid : Z) (st : pstate) : pstate := fold_left (p_unindex_one docid) (keys (filters st)) st.

  (** Calls: those of M_topic, and [addFilter] of a filter the index has. *)
  Inductive pcall := PCall (o : top) | PAgain (i : I).
  Definition p_call (st : pstate) (c : pcall) : pstate :=
    match c with
    | PCall (TAdd f) => p_add f st
    | PCall (TDel i) => p_del i st
    | PCall TClear => p_clear st
    | PCall TClearFilters => p_clearFilters st
    | PCall (TSetExpr i e) => p_setExpr i e st
    | PCall (TIndex d c) => p_index d c (keys (filters st)) st
    | PCall (TUnindex d) => p_unindex d st
    | PAgain i => p_again i st
    end.

  (** The entries of [a] at the keys in [ks], those of [b] elsewhere. *)
  Definition mix (ks : sset I) (a b : smap I fobj) : smap I fobj :=
    merge (fun x y => match x, y with Some (Some o), _ => Some o | Some None, _ => None | None, y => y end)
      (merge (fun k x => match k with Some _ => Some x | None => None end) ks a) b.
  (** External: commit.  The Sets saved are those in the database already and those that
      saved filters refer to. *)
  Definition p_commit (extra : sset I) (st : pstate) : pstate :=
    let fs := match replaced st with
              | Some _ => filters st
              | None => mix (sunion (dirty st) extra) (filters st) (s_filters st)
              end in
    let saved := match replaced st with
                 | Some _ => filters st
                 | None => sfilter (fun i _ => mem i (sunion (dirty st) extra)) (filters st)
                 end in
    let refs := set_of_list (map o_set (vals saved)) in
    let ss := mmap (fun r _ => set_of (sets st) r) (merge (fun x y => match x, y with None, None => None | _, _ => Some tt end) (s_sets st) refs) in
    mkP (filters st) (sets st) (fresh st) empty None fs ss.
  (** External: abort.  Sets in the database and buckets marked as changed are read
      again; other objects stay as they are. *)
  Definition p_abort (extra : sset I) (st : pstate) : pstate :=
    let (fs, d) := match replaced st with Some x => x | None => (filters st, dirty st) end in
    mkP (mix (sunion d extra) (s_filters st) fs)
        (merge (fun x y => match y with Some s => Some s | None => x end) (sets st) (s_sets st))
        (fresh st) empty None (s_filters st) (s_sets st).
  (** External: the cache drops unchanged buckets (with any keys [ks]). *)
  Definition p_evict (ks : sset I) (st : pstate) : pstate :=
    match replaced st with
    | Some _ => st
    | None => set_filters (mix (mdiff ks (dirty st)) (s_filters st) (filters st)) st
    end.
  (** A new process, or a new connection, reads everything from the database. *)
  Definition p_restart (st : pstate) : pstate :=
    mkP (s_filters st) (s_sets st) (fresh st) empty None (s_filters st) (s_sets st).

  Inductive pevent :=
  | ZCall (c : pcall) | ZCommit (extra : sset I) | ZAbort (extra : sset I) | ZEvict (ks : sset I) | ZRestart.
  Definition p_step (st : pstate) (e : pevent) : pstate :=
    match e with
    | ZCall c => p_call st c
    | ZCommit x => p_commit x st
    | ZAbort x => p_abort x st
    | ZEvict ks => p_evict ks st
    | ZRestart => p_restart st
    end.
  Definition p_run (evs : list pevent) : pstate := fold_left p_step evs p_new.

  (** The filters, as in M_topic, in memory and in the database. *)
  Definition view (fs : smap I fobj) (ss : smap Z (sset Z)) : smap I filt :=
    mmap (fun _ o => mkF (o_python o) (o_id o) (o_expr o) (set_of ss (o_set o))) fs.
  Definition p_live (st : pstate) : smap I filt := view (filters st) (sets st).
  Definition p_saved (st : pstate) : smap I filt := view (s_filters st) (s_sets st).
End PTopic.
Arguments fobj I E : clear implicits.
Arguments pstate I {OI} E.
Arguments pcall I E C : clear implicits.
Arguments pevent I {OI} E C.
