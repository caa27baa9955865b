(** * The keyword index with object identities

    The same code as [M_keyword], but posting sets and search results are
    objects on a heap, so that a set handed out by a search can be observed after
    later calls.  Addresses are integers; objects are a TreeSet flag and elements. *)
From Verif Require Export M_keyword SMap Ord.

Notation obj := (bool * sset Z)%type.
Record mem_heap := mkHeap { cells : smap Z obj; next : Z }.
Definition new_heap : mem_heap := mkHeap empty 0.
(** Object creation, mutation and observation. *)
Definition alloc (o : obj) (hp : mem_heap) : mem_heap * Z :=
  (mkHeap (put (next hp) o (cells hp)) (next hp + 1), next hp).
Definition store (l : Z) (o : obj) (hp : mem_heap) : mem_heap := mkHeap (put l o (cells hp)) (next hp).
Definition load (hp : mem_heap) (l : Z) : obj := match get (cells hp) l with Some o => o | None => (false, empty) end.

Section Heap.
  Context {W : Type} `{OW : Ord W}.

  (** keyword/index.py:49-59 *)
  Record hstate := mkH {
    hheap : mem_heap;
    hfwd : smap W Z;
    hrev : smap Z (sset W);
    hnum : Z;
    hthr : Z
  }.
  Definition h_new : hstate := mkH new_heap empty empty 0 64.

  Notation hf := (mem_heap * smap W Z)%type.

  (** keyword/index.py:145-152: one word of [_insert_forward] *)
  Definition h_insert_word (thr docid : Z) (s : hf) (word : W) : hf :=
    let '(hp, fwd) := s in
    let '(hp1, fwd1, l) :=
      match get fwd word with
      | Some l => (hp, fwd, l)
      | None => let '(hp', l) := alloc (false, empty) hp in (hp', put word l fwd, l)
      end in
    let '(is_tree, els) := load hp1 l in
    let els' := sadd docid els in
    let hp2 := store l (is_tree, els') hp1 in
    if negb is_tree && (Zsize els' >=? thr) then
      let '(hp3, l') := alloc (true, els') hp2 in (hp3, put word l' fwd1)
    else (hp2, fwd1).
  Definition h_insert_forward (thr docid : Z) (words : sset W) (s : hf) : hf :=
    fold_left (h_insert_word thr docid) (selems words) s.

  (** keyword/index.py:106-110 and 120-123 *)
  Fixpoint h_remove_words (docid : Z) (ws : list W) (s : hf) : hf * res unit :=
    match ws with
    | [] => (s, Ok tt)
    | word :: ws' =>
        let '(hp, fwd) := s in
        match get fwd word with
        | None => (s, Raise KeyError)
        | Some l =>
            let '(is_tree, els) := load hp l in
            if mem docid els then
              let els' := srem docid els in
              h_remove_words docid ws'
                (store l (is_tree, els') hp, if is_empty els' then del word fwd else fwd)
            else (s, Raise KeyError)
        end
    end.

  (** keyword/index.py:116-134 *)
  Definition h_unindex (docid : Z) (st : hstate) : hstate :=
    match get (hrev st) docid with
    | None => st
    | Some words =>
        match h_remove_words docid (selems words) (hheap st, hfwd st) with
        | ((hp, fwd'), Raise _) => mkH hp fwd' (hrev st) (hnum st) (hthr st)
        | ((hp, fwd'), Ok _) => mkH hp fwd' (del docid (hrev st)) (hnum st - 1) (hthr st)
        end
    end.

  Variable normalize : list W -> list W.

  (** keyword/index.py:81-114 *)
  Definition h_index (docid : Z) (seq : kseq W) (st : hstate) : hstate * res unit :=
    match seq with
    | SeqStr => (st, Raise TypeError)
    | SeqList l =>
        let old_kw := get (hrev st) docid in
        match l with
        | [] =>
            match old_kw with
            | Some kw => if is_empty kw then (st, Ok tt) else (h_unindex docid st, Ok tt)
            | None => (st, Ok tt)
            end
        | _ :: _ =>
            let new_kw := set_of_list (normalize l) in
            match old_kw with
            | None =>
                let '(hp, fwd') := h_insert_forward (hthr st) docid new_kw (hheap st, hfwd st) in
                (mkH hp fwd' (insert_reverse docid new_kw (hrev st)) (hnum st + 1) (hthr st), Ok tt)
            | Some old =>
                let kw_added := mdiff new_kw old in
                let kw_removed := mdiff old new_kw in
                match h_remove_words docid (selems kw_removed) (hheap st, hfwd st) with
                | ((hp, fwd'), Raise e) => (mkH hp fwd' (hrev st) (hnum st) (hthr st), Raise e)
                | (s', Ok _) =>
                    let '(hp, fwd') := h_insert_forward (hthr st) docid kw_added s' in
                    (mkH hp fwd' (insert_reverse docid new_kw (hrev st)) (hnum st) (hthr st), Ok tt)
                end
            end
        end
    end.

  (** keyword/index.py:210-218: one item of the loop of [optimize] *)
  Definition h_optimize_word (thr : Z) (s : hf) (item : W * Z) : hf :=
    let '(hp, fwd) := s in
    let '(word, l) := item in
    let '(is_tree, els) := load hp l in
    if Zsize els >=? thr then
      (if negb is_tree then let '(hp', l') := alloc (true, els) hp in (hp', put word l' fwd) else s)
    else
      (if is_tree then let '(hp', l') := alloc (false, els) hp in (hp', put word l' fwd) else s).
  (** keyword/index.py:199-218 *)
  Definition h_optimize (st : hstate) : hstate :=
    let '(hp, fwd') := fold_left (h_optimize_word (hthr st)) (elts (hfwd st)) (hheap st, hfwd st) in
    mkH hp fwd' (hrev st) (hnum st) (hthr st).

  (** keyword/index.py:167-170: the list [sets]; the default argument of [get] is a
      fresh Set (created for every word, kept only for unknown words). *)
  Fixpoint h_sets (ws : list W) (hp : mem_heap) (fwd : smap W Z) : mem_heap * list Z :=
    match ws with
    | [] => (hp, [])
    | w :: ws' =>
        let '(hp1, fresh) := alloc (false, empty) hp in
        let l := match get fwd w with Some l => l | None => fresh end in
        let '(hp2, ls) := h_sets ws' hp1 fwd in
        (hp2, l :: ls)
    end.
  (** keyword/index.py:177-182; [intersection(None, s)] is the object [s] itself,
      any other intersection is a new Set. *)
  Fixpoint h_and_loop (rs : option Z) (ls : list Z) (hp : mem_heap) : mem_heap * option Z :=
    match ls with
    | [] => (hp, rs)
    | l :: ls' =>
        let '(hp1, r1) :=
          match rs with
          | None => (hp, l)
          | Some r => alloc (false, sinter (snd (load hp r)) (snd (load hp l))) hp
          end in
        if is_empty (snd (load hp1 r1)) then (hp1, Some r1) else h_and_loop (Some r1) ls' hp1
    end.
  Definition h_len_le (hp : mem_heap) (a b : Z) : bool := len_le (snd (load hp a)) (snd (load hp b)).
  (** keyword/index.py:187-189 *)
  Definition h_result (hp : mem_heap) (rs : option Z) : mem_heap * Z :=
    match rs with
    | Some r => if is_empty (snd (load hp r)) then alloc (false, empty) hp else (hp, r)
    | None => alloc (false, empty) hp
    end.
  (** keyword/index.py:160-189: the heap after the call and the returned object *)
  Definition h_search (q : kquery W) (op : koperator) (st : hstate) : hstate * res Z :=
    let '(hp, ls) := h_sets (query_words normalize q) (hheap st) (hfwd st) in
    let with_heap hp' := mkH hp' (hfwd st) (hrev st) (hnum st) (hthr st) in
    match op with
    | OpOr =>
        let '(hp1, r) := alloc (false, multiunion (map (fun l => snd (load hp l)) ls)) hp in
        let '(hp2, r2) := h_result hp1 (Some r) in
        (with_heap hp2, Ok r2)
    | OpAnd =>
        let '(hp1, rs) := h_and_loop None (isort (h_len_le hp) ls) hp in
        let '(hp2, r2) := h_result hp1 rs in
        (with_heap hp2, Ok r2)
    | OpOther => (with_heap hp, Raise TypeError)
    end.

  (** Later calls: updates and searches. *)
  Inductive hop := HUpdate (o : kop W) | HSearch (q : kquery W) (op : koperator).
  Definition h_step (st : hstate) (o : hop) : hstate :=
    match o with
    | HUpdate (KIndex d seq) => fst (h_index d seq st)
    | HUpdate (KUnindex d) => h_unindex d st
    | HUpdate KClear => mkH (hheap st) empty empty 0 (hthr st)
    | HUpdate KOptimize => h_optimize st
    | HUpdate (KThreshold n) => mkH (hheap st) (hfwd st) (hrev st) (hnum st) n
    | HSearch q op => fst (h_search q op st)
    end.
  Definition h_exec (h : list hop) (st : hstate) : hstate := fold_left h_step h st.

  (** What a client sees when looking at the set [l] in state [st]. *)
  Definition contents (st : hstate) (l : Z) : sset Z := snd (load (hheap st) l).
End Heap.
Arguments hstate W {OW}.
Arguments hop W : clear implicits.

(** Spec: the updates in a history. *)
Definition updates {W} (h : list (hop W)) : list (kop W) :=
  flat_map (fun o => match o with HUpdate u => [u] | HSearch _ _ => [] end) h.
