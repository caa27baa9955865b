(** * Concurrent transactions on a topic index stored in a ZODB

    topic/index.py keeps its filters in an OOBTree, and topic/filter.py the documents of a
    filter in an IF.Set of its own; see [M_zodb] for what a commit does when others have
    committed since the transaction began, and [M_ptopic] for what is saved at all.

    Simplifications: transactions call [addFilter], with new filter objects, [delFilter], [clear],
    [index_doc] and [unindex_doc]; what [clearFilters] and [setExpression] do is not reliably saved
    (C73).  A key of the BTree of filters is changed if another filter object is stored under it.
    The real resolution refuses more: if both sides changed the same bucket of that BTree and a
    filter is in the bucket before and after, it is a conflict, since filters are compared by identity
    and those read back for the comparison are different objects. *)
From Verif Require Export M_zodb M_topic SMap Ord.

Section ZTopic.
  Context {I : Type} `{OI : Ord I} {E C : Type}.
  Variable eval : E -> Z -> C -> evres.
  Notation filt := (filt I E).

  (** filter.py:34-42; the id is the key under which the filter is stored, [q_set] says which
      Set object [_ids] is.  Every filter object has its own Set, so that it is known by it. *)
  Record zfilt := mkQ { q_python : bool; q_expr : E; q_set : Z }.
  (** topic/index.py:37-44.  [tz_gen]: the number of calls of [clear], each of which gives the
      index another BTree of filters. *)
  Record ztopic := mkTZ { tz_filters : smap I zfilt; tz_heap : mem_heap; tz_gen : Z }.
  Definition tz_new : ztopic := mkTZ empty new_heap 0.

  Definition docs_at (hp : mem_heap) (l : Z) : sset Z := snd (load hp l).
  (** What a client sees. *)
  Definition view (st : ztopic) : smap I filt :=
    mmap (fun i q => mkF (q_python q) i (q_expr q) (docs_at (tz_heap st) (q_set q))) (tz_filters st).

  Inductive zop :=
  | ZAdd (f : filt)
  | ZDel (i : I)
  | ZClear
  | ZIndex (docid : Z) (context : C)
  | ZUnindex (docid : Z).
  Definition to_top (o : zop) : top I E C :=
    match o with ZAdd f => TAdd f | ZDel i => TDel i | ZClear => TClear | ZIndex d c => TIndex d c | ZUnindex d => TUnindex d end.

  (** topic/index.py:46-48, with a new filter and its Set (filter.py:35-42) *)
  Definition tz_add (f : filt) (st : ztopic) : ztopic :=
    let (hp, l) := alloc (false, f_ids f) (tz_heap st) in
    mkTZ (put (f_id f) (mkQ (f_python f) (f_expr f) l) (tz_filters st)) hp (tz_gen st).
  (** topic/index.py:50-52; an unknown id raises KeyError *)
  Definition tz_del (i : I) (st : ztopic) : ztopic := mkTZ (del i (tz_filters st)) (tz_heap st) (tz_gen st).
  (** topic/index.py:42-44 *)
  Definition tz_clear (st : ztopic) : ztopic := mkTZ empty (tz_heap st) (tz_gen st + 1).
  (** filter.py:44-45 and 74-79; None: NotImplementedError *)
  Definition tz_filt_index (d : Z) (c : C) (q : zfilt) (hp : mem_heap) : option mem_heap :=
    if q_python q then
      match eval (q_expr q) d c with
      | Truthy => Some (M_kwheap.store (q_set q) (false, sadd d (docs_at hp (q_set q))) hp)
      | Falsy => Some hp
      | Exc => Some hp
      end
    else None.
  (** topic/index.py:60-64 *)
  Fixpoint tz_index (d : Z) (c : C) (qs : list zfilt) (hp : mem_heap) : mem_heap :=
    match qs with
    | [] => hp
    | q :: qs' => match tz_filt_index d c q hp with Some hp' => tz_index d c qs' hp' | None => hp end
    end.
  (** filter.py:47-51 *)
  Definition tz_filt_unindex (d : Z) (q : zfilt) (hp : mem_heap) : mem_heap :=
    if mem d (docs_at hp (q_set q)) then M_kwheap.store (q_set q) (false, srem d (docs_at hp (q_set q))) hp else hp.
  (** topic/index.py:66-70 *)
  Definition tz_unindex (d : Z) (qs : list zfilt) (hp : mem_heap) : mem_heap :=
    fold_left (fun hp q => tz_filt_unindex d q hp) qs hp.
  Definition on_heap (f : list zfilt -> mem_heap -> mem_heap) (st : ztopic) : ztopic :=
    mkTZ (tz_filters st) (f (map snd (elts (tz_filters st))) (tz_heap st)) (tz_gen st).
  (** A call that raises is followed by the next one. *)
  Definition tz_step (st : ztopic) (o : zop) : ztopic :=
    match o with
    | ZAdd f => tz_add f st
    | ZDel i => tz_del i st
    | ZClear => tz_clear st
    | ZIndex d c => on_heap (tz_index d c) st
    | ZUnindex d => on_heap (tz_unindex d) st
    end.

  (** ** Commits *)
  Definition same_filter (p q : zfilt) : bool := q_set p =? q_set q.
  Definition tz_merge (o a b : ztopic) : option ztopic :=
    if tz_gen a =? tz_gen o then
      if tz_gen b =? tz_gen o then
        match map3 (fun _ => key3 same_filter) (tz_filters o) (tz_filters a) (tz_filters b),
              heap3 (tz_heap o) (tz_heap a) (tz_heap b) with
        | Some fs, Some hp => Some (mkTZ fs hp (tz_gen o))
        | _, _ => None
        end
      else Some b
    else if tz_gen b =? tz_gen o then Some a else None.
  (** The Sets a transaction creates are not those of anyone else. *)
  Definition tz_begin (cur snap : ztopic) : ztopic :=
    mkTZ (tz_filters snap) (mkHeap (cells (tz_heap snap)) (next (tz_heap cur))) (tz_gen snap).
  Definition tz_exec (ops : list zop) (st : ztopic) : ztopic := fold_left tz_step ops st.
  (** The transaction began with version [i] (0: the latest). *)
  Definition tz_commit (versions : list ztopic) (i : nat) (ops : list zop) : option ztopic :=
    match versions, nth_error versions i with
    | cur :: _, Some snap => tz_merge snap cur (tz_exec ops (tz_begin cur snap))
    | _, _ => None
    end.
  Definition tz_db_step (versions : list ztopic) (t : nat * list zop) : list ztopic :=
    match tz_commit versions (fst t) (snd t) with Some st => st :: versions | None => versions end.
  Definition tz_run (schedule : list (nat * list zop)) : list ztopic := fold_left tz_db_step schedule [tz_new].
End ZTopic.
Arguments zfilt E : clear implicits.
Arguments ztopic I {OI} E.
Arguments zop I E C : clear implicits.
