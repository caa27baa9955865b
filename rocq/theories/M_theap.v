(** * Topic indexes whose filters and sets are objects (topic/index.py, topic/filter.py)

    Refines M_topic.v: there a filter is a value owned by one index and a search
    returns a value.  Here filters and sets have an identity, several indexes may
    hold the same filter, filters may be called directly, and a search returns a
    set object.  The set objects live in the heap of M_kwheap.v. *)
From Verif Require Export M_topic M_kwheap SMap Ord.

Section THeap.
  Context {I : Type} `{OI : Ord I} {E C : Type}.
  (** External: evaluation of an expression (see M_topic.v). *)
  Variable eval : E -> Z -> C -> evres.

  (** filter.py:34-42: the attributes of a filter object; [hf_set] is the address of
      its Set.  Simplification: the attribute [id] is not assigned afterwards. *)
  Record hfilt := mkHF { hf_python : bool; hf_id : I; hf_expr : E; hf_set : Z }.
  (** The set objects, the filter objects (numbered as they are created), and the
      filters of every index by id (topic/index.py:42-44); an index without entry
      in [w_indexes] is a newly created one. *)
  Record world := mkWd {
    w_heap : mem_heap; w_filters : smap Z hfilt; w_count : Z; w_indexes : smap Z (smap I Z) }.
  Definition w_new : world := mkWd new_heap empty 0 empty.
  Definition index_at (w : world) (n : Z) : smap I Z :=
    match get (w_indexes w) n with Some m => m | None => empty end.
  (** What a client sees looking at the set [l]. *)
  Definition set_at (w : world) (l : Z) : sset Z := snd (load (w_heap w) l).

  (** filter.py:34-39 and 41-42: a new filter with a new Set *)
  Definition w_filter (python : bool) (i : I) (e : E) (w : world) : world :=
    let '(hp, l) := alloc (false, empty) (w_heap w) in
    mkWd hp (put (w_count w) (mkHF python i e l) (w_filters w)) (w_count w + 1) (w_indexes w).
  (** filter.py:41-42: a new Set takes the place of the old one *)
  Definition w_fclear (r : Z) (w : world) : world :=
    match get (w_filters w) r with
    | None => w
    | Some f =>
        let '(hp, l) := alloc (false, empty) (w_heap w) in
        mkWd hp (put r (mkHF (hf_python f) (hf_id f) (hf_expr f) l) (w_filters w)) (w_count w) (w_indexes w)
    end.
  (** filter.py:44-45 and 74-79: the Set is changed in place *)
  Definition w_findex (docid : Z) (context : C) (r : Z) (w : world) : world * res unit :=
    match get (w_filters w) r with
    | None => (w, Ok tt)
    | Some f =>
        if hf_python f then
          match eval (hf_expr f) docid context with
          | Truthy => (mkWd (store (hf_set f) (false, sadd docid (set_at w (hf_set f))) (w_heap w))
                            (w_filters w) (w_count w) (w_indexes w), Ok tt)
          | Falsy => (w, Ok tt)
          | Exc => (w, Ok tt)
          end
        else (w, Raise NotImplementedError)
    end.
  (** filter.py:47-51 *)
  Definition w_funindex (docid r : Z) (w : world) : world :=
    match get (w_filters w) r with
    | None => w
    | Some f =>
        if mem docid (set_at w (hf_set f))
        then mkWd (store (hf_set f) (false, srem docid (set_at w (hf_set f))) (w_heap w))
                  (w_filters w) (w_count w) (w_indexes w)
        else w
    end.
  (** filter.py:59-60 *)
  Definition w_fsetExpression (r : Z) (e : E) (w : world) : world :=
    match get (w_filters w) r with
    | None => w
    | Some f => mkWd (w_heap w) (put r (mkHF (hf_python f) (hf_id f) e (hf_set f)) (w_filters w)) (w_count w) (w_indexes w)
    end.
  (** filter.py:62-63: the Set itself *)
  Definition w_getIds (r : Z) (w : world) : option Z :=
    match get (w_filters w) r with Some f => Some (hf_set f) | None => None end.

  Definition with_index (n : Z) (m : smap I Z) (w : world) : world :=
    mkWd (w_heap w) (w_filters w) (w_count w) (put n m (w_indexes w)).
  (** topic/index.py:46-48 *)
  Definition w_addFilter (n r : Z) (w : world) : world :=
    match get (w_filters w) r with
    | None => w
    | Some f => with_index n (put (hf_id f) r (index_at w n)) w
    end.
  (** topic/index.py:50-52 *)
  Definition w_delFilter (n : Z) (i : I) (w : world) : world * res unit :=
    match get (index_at w n) i with
    | None => (w, Raise KeyError)
    | Some _ => (with_index n (del i (index_at w n)) w, Ok tt)
    end.
  (** topic/index.py:42-44 *)
  Definition w_clear (n : Z) (w : world) : world := with_index n empty w.
  (** topic/index.py:54-58 *)
  Definition w_clearFilters (n : Z) (w : world) : world :=
    fold_left (fun w' r => w_fclear r w') (vals (index_at w n)) w.
  (** topic/index.py:60-64: in the order of the filter ids *)
  Fixpoint w_index_filters (docid : Z) (context : C) (rs : list Z) (w : world) : world * res unit :=
    match rs with
    | [] => (w, Ok tt)
    | r :: rs' =>
        match w_findex docid context r w with
        | (w', Ok _) => w_index_filters docid context rs' w'
        | (w', Raise e) => (w', Raise e)
        end
    end.
  Definition w_index (n docid : Z) (context : C) (w : world) : world * res unit :=
    w_index_filters docid context (vals (index_at w n)) w.
  (** topic/index.py:66-70 *)
  Definition w_unindex (n docid : Z) (w : world) : world :=
    fold_left (fun w' r => w_funindex docid r w') (vals (index_at w n)) w.

  Definition with_heap (hp : mem_heap) (w : world) : world :=
    mkWd hp (w_filters w) (w_count w) (w_indexes w).
  (** topic/index.py:80-84: the list [sets] *)
  Definition named_sets (n : Z) (query : list I) (w : world) : list Z :=
    map (fun i => match get (index_at w n) i with
                  | Some r => match w_getIds r w with Some l => l | None => 0 end
                  | None => 0
                  end)
        (filter (fun i => existsb (eqb i) query) (keys (index_at w n))).
  (** topic/index.py:72-104: the returned set object; lines 86-104 are the code of
      keyword/index.py:172-189 (M_kwheap.v). *)
  Definition w_search (n : Z) (q : tquery I) (op : koperator) (w : world) : world * res Z :=
    match q with
    | TOther => (w, Raise TypeError)
    | TId _ | TIds _ =>
        let query := match q with TId i => [i] | TIds l => l | TOther => [] end in
        let ls := named_sets n query w in
        let hp := w_heap w in
        match op with
        | OpOr =>
            let '(hp1, r) := alloc (false, multiunion (map (fun l => snd (load hp l)) ls)) hp in
            let '(hp2, r2) := h_result hp1 (Some r) in
            (with_heap hp2 w, Ok r2)
        | OpAnd =>
            let '(hp1, rs) := h_and_loop None (isort (h_len_le hp) ls) hp in
            let '(hp2, r2) := h_result hp1 rs in
            (with_heap hp2 w, Ok r2)
        | OpOther => (w, Raise TypeError)
        end
    end.

  (** The calls.  [n]: a topic index; [r]: the filter created by the [r]-th
      [WNew], counted from 0. *)
  Inductive wop :=
  | WNew (python : bool) (i : I) (e : E)
  | WSetExpr (r : Z) (e : E)
  | WFClear (r : Z)
  | WFIndex (r docid : Z) (context : C)
  | WFUnindex (r docid : Z)
  | WAdd (n r : Z)
  | WDel (n : Z) (i : I)
  | WClear (n : Z)
  | WClearFilters (n : Z)
  | WIndex (n docid : Z) (context : C)
  | WUnindex (n docid : Z)
  | WSearch (n : Z) (q : tquery I) (op : koperator).
  Definition w_step (w : world) (o : wop) : world * res unit :=
    match o with
    | WNew p i e => (w_filter p i e w, Ok tt)
    | WSetExpr r e => (w_fsetExpression r e w, Ok tt)
    | WFClear r => (w_fclear r w, Ok tt)
    | WFIndex r d c => w_findex d c r w
    | WFUnindex r d => (w_funindex d r w, Ok tt)
    | WAdd n r => (w_addFilter n r w, Ok tt)
    | WDel n i => w_delFilter n i w
    | WClear n => (w_clear n w, Ok tt)
    | WClearFilters n => (w_clearFilters n w, Ok tt)
    | WIndex n d c => w_index n d c w
    | WUnindex n d => (w_unindex n d w, Ok tt)
    | WSearch n q op => let '(w', out) := w_search n q op w in (w', rmap (fun _ => tt) out)
    end.
  Definition w_exec (h : list wop) (w : world) : world := fold_left (fun w' o => fst (w_step w' o)) h w.
  Definition w_run (h : list wop) : world := w_exec h w_new.

  (** The caller of a search changes the returned set. *)
  Definition w_assign (l : Z) (s : sset Z) (w : world) : world := with_heap (store l (false, s) (w_heap w)) w.
End THeap.
Arguments hfilt I E : clear implicits.
Arguments world I {OI} E.
Arguments wop I E C : clear implicits.
