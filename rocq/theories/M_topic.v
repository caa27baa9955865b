(** * Model of /repo/src/zope/index/topic/index.py and topic/filter.py *)
From Verif Require Export M_keyword SMap Ord.

(** What [eval(self.expr)] does (filter.py:76): a true value, a false value or any
    exception (filter.py:78 catches BaseException). *)
Inductive evres := Truthy | Falsy | Exc.

Section Topic.
  (** Filter ids, expressions and indexed objects. *)
  Context {I : Type} `{OI : Ord I} {E C : Type}.
  (** External: evaluation of an expression with [docid] and [context] in scope.
      Simplification: evaluation has no side effects. *)
  Variable eval : E -> Z -> C -> evres.

  (** filter.py:34-42.  [f_python]: an instance of PythonFilteredSet rather than of
      the abstract FilteredSetBase. *)
  Record filt := mkF { f_python : bool; f_id : I; f_expr : E; f_ids : sset Z }.
  Definition filt_new (python : bool) (i : I) (e : E) : filt := mkF python i e empty.
  (** filter.py:41-42 *)
  Definition filt_clear (f : filt) : filt := mkF (f_python f) (f_id f) (f_expr f) empty.
  (** filter.py:44-45 and 74-79 *)
  Definition filt_index (docid : Z) (context : C) (f : filt) : res filt :=
    if f_python f then
      match eval (f_expr f) docid context with
      | Truthy => Ok (mkF (f_python f) (f_id f) (f_expr f) (sadd docid (f_ids f)))
      | Falsy => Ok f
      | Exc => Ok f
      end
    else Raise NotImplementedError.
  (** filter.py:47-51: removing an absent docid raises KeyError, which is caught. *)
  Definition filt_unindex (docid : Z) (f : filt) : filt :=
    if mem docid (f_ids f) then mkF (f_python f) (f_id f) (f_expr f) (srem docid (f_ids f)) else f.
  (** filter.py:59-60 *)
  Definition filt_setExpression (e : E) (f : filt) : filt := mkF (f_python f) (f_id f) e (f_ids f).

  (** topic/index.py:42-44: the filters by id.  Simplification: a filter object is
      used by one index only. *)
  Notation tstate := (smap I filt).

  (** topic/index.py:46-48 *)
  Definition t_addFilter (f : filt) (st : tstate) : tstate := put (f_id f) f st.
  (** topic/index.py:50-52 *)
  Definition t_delFilter (i : I) (st : tstate) : tstate * res unit :=
    match get st i with None => (st, Raise KeyError) | Some _ => (del i st, Ok tt) end.
  (** topic/index.py:54-58 *)
  Definition t_clearFilters (st : tstate) : tstate := mmap (fun _ f => filt_clear f) st.
  (** topic/index.py:60-64: in the order of the filter ids *)
  Fixpoint index_filters (docid : Z) (context : C) (ids : list I) (st : tstate) : tstate * res unit :=
    match ids with
    | [] => (st, Ok tt)
    | i :: ids' =>
        match get st i with
        | None => index_filters docid context ids' st
        | Some f =>
            match filt_index docid context f with
            | Ok f' => index_filters docid context ids' (put i f' st)
            | Raise e => (st, Raise e)
            end
        end
    end.
  Definition t_index (docid : Z) (context : C) (st : tstate) : tstate * res unit :=
    index_filters docid context (keys st) st.
  (** topic/index.py:66-70 *)
  Definition t_unindex (docid : Z) (st : tstate) : tstate := mmap (fun _ f => filt_unindex docid f) st.

  (** The query of [search]: one filter id, a list or tuple of ids, anything else. *)
  Inductive tquery := TId (i : I) | TIds (l : list I) | TOther.

  (** topic/index.py:72-104 [search]; lines 86-104 are the same code as
      keyword/index.py:172-189. *)
  Definition t_search (q : tquery) (op : koperator) (st : tstate) : res (sset Z) :=
    match q with
    | TOther => Raise TypeError
    | TId _ | TIds _ =>
        let query := match q with TId i => [i] | TIds l => l | TOther => [] end in
        let named := filter (fun i => existsb (eqb i) query) (keys st) in
        combine_sets op (map (fun i => match get st i with Some f => f_ids f | None => empty end) named)
    end.

  (** topic/index.py:106-112 [apply]: returns the argument as the call leaves it. *)
  Record tdict := mkTDict { td_operator : option koperator; td_query : option tquery }.
  Inductive tapply := TDict (d : tdict) | TPlain (q : tquery).
  Definition t_apply (a : tapply) (st : tstate) : tapply * res (sset Z) :=
    match a with
    | TPlain q => (a, t_search q OpAnd st)
    | TDict d =>
        let op := match td_operator d with Some o => o | None => OpAnd end in
        let d' := mkTDict None (td_query d) in
        match td_query d with
        | None => (TDict d', Raise KeyError)
        | Some q => (TDict d', t_search q op st)
        end
    end.

  (** Calls that change the index or its filters. *)
  Inductive top :=
  | TAdd (f : filt)
  | TDel (i : I)
  | TClear
  | TClearFilters
  | TSetExpr (i : I) (e : E)
  | TIndex (docid : Z) (context : C)
  | TUnindex (docid : Z).
  Definition t_step (st : tstate) (o : top) : tstate * res unit :=
    match o with
    | TAdd f => (t_addFilter f st, Ok tt)
    | TDel i => t_delFilter i st
    | TClear => (empty, Ok tt)
    | TClearFilters => (t_clearFilters st, Ok tt)
    | TSetExpr i e => match get st i with Some f => (put i (filt_setExpression e f) st, Ok tt) | None => (st, Ok tt) end
    | TIndex d c => t_index d c st
    | TUnindex d => (t_unindex d st, Ok tt)
    end.
  Definition t_run (h : list top) : tstate := fold_left (fun st o => fst (t_step st o)) h empty.
End Topic.
Arguments filt I E : clear implicits.
Arguments tquery I : clear implicits.
Arguments tdict I : clear implicits.
Arguments tapply I : clear implicits.
Arguments top I E C : clear implicits.
