(** * Model of /repo/src/zope/index/field/index.py and field/sorting.py *)
From Verif Require Export Sort SMap PyVal Ord.

Section Field.
  Context {T : Type} `{OT : Ord T}.
  Notation pyval := (pyval T).

  (** field/index.py:49-55: [_fwd_index], [_rev_index], [_num_docs]. *)
  Record fstate := mkF {
    fwd : smap pyval (sset Z);
    rev_ix : smap Z pyval;
    num_docs : Z
  }.

  (** field/index.py:44-55 [__init__], [clear] *)
  Definition f_clear : fstate := mkF empty empty 0.

  (** field/index.py:57-63 *)
  Definition f_documentCount (st : fstate) : Z := num_docs st.
  Definition f_wordCount (st : fstate) : Z := Zsize (fwd st).

  (** External: lookup in an OOBTree.  Comparing the key with the stored keys
      raises TypeError when they are not orderable. *)
  Definition bt_get {X} (m : smap pyval X) (v : pyval) : res (option X) :=
    if forallb (key_ok v) (keys m) then Ok (get m v) else Raise TypeError.

  (** field/index.py:86-107 [unindex_doc].  The state is returned together with
      the outcome because an exception would leave it half updated. *)
  Definition f_unindex (docid : Z) (st : fstate) : fstate * res unit :=
    match get (rev_ix st) docid with
    | None => (st, Ok tt)
    | Some value =>
        let rev' := del docid (rev_ix st) in
        match bt_get (fwd st) value with
        | Raise e => (mkF (fwd st) rev' (num_docs st), Raise e)
        | Ok None => (mkF (fwd st) rev' (num_docs st - 1), Ok tt)
        | Ok (Some s) =>
            if mem docid s then
              let s' := srem docid s in
              let fwd' := if is_empty s' then del value (fwd st) else put value s' (fwd st) in
              (mkF fwd' rev' (num_docs st - 1), Ok tt)
            else (mkF (fwd st) rev' (num_docs st - 1), Ok tt)
        end
    end.

  (** field/index.py:73-84, the second half of [index_doc] *)
  Definition f_insert (docid : Z) (value : pyval) (st : fstate) : fstate * res unit :=
    match bt_get (fwd st) value with
    | Raise e => (st, Raise e)
    | Ok s =>
        let s' := match s with None => empty | Some s0 => s0 end in
        (mkF (put value (sadd docid s') (fwd st)) (put docid value (rev_ix st)) (num_docs st + 1), Ok tt)
    end.

  (** field/index.py:65-84 [index_doc] *)
  Definition f_index (docid : Z) (value : pyval) (st : fstate) : fstate * res unit :=
    if mem docid (rev_ix st) then
      match bt_get (fwd st) value with
      | Raise e => (st, Raise e)
      | Ok s =>
          if match s with Some s0 => mem docid s0 | None => false end then (st, Ok tt)
          else
            match f_unindex docid st with
            | (st', Raise e) => (st', Raise e)
            | (st', Ok _) => f_insert docid value st'
            end
      end
    else f_insert docid value st.

  (** External: OOBTree [values(min, max)], None = unbounded.  The lower end is
      located first; if every key is smaller the upper bound is not looked at. *)
  Definition bt_range {X} (m : smap pyval X) (lo hi : pyval) : res (list X) :=
    let lo_in k := is_none lo || leb lo k in
    let hi_in k := is_none hi || leb k hi in
    if is_empty m then Ok []
    else if negb (is_none lo || forallb (key_ok lo) (keys m)) then Raise TypeError
    else if negb (existsb lo_in (keys m)) then Ok []
    else if negb (is_none hi || forallb (key_ok hi) (keys m)) then Raise TypeError
    else Ok (vals (sfilter (fun k _ => lo_in k && hi_in k) m)).

  (** The argument of [apply]: a tuple of the given values, or anything else. *)
  Inductive fquery := QTuple (l : list pyval) | QOther.

  (** field/index.py:109-113 [apply] *)
  Definition f_apply (q : fquery) (st : fstate) : res (sset Z) :=
    match q with
    | QTuple [lo; hi] => do vs <- bt_range (fwd st) lo hi; Ok (multiunion vs)
    | _ => Raise TypeError
    end.

  (** Calls that change the index. *)
  Inductive fop := FIndex (docid : Z) (value : pyval) | FUnindex (docid : Z) | FClear.
  Definition f_step (st : fstate) (o : fop) : fstate * res unit :=
    match o with
    | FIndex d v => f_index d v st
    | FUnindex d => f_unindex d st
    | FClear => (f_clear, Ok tt)
    end.
  (** State after a history of calls; a caller may go on after an exception. *)
  Definition f_run (h : list fop) : fstate := fold_left (fun st o => fst (f_step st o)) h f_clear.

  (** ** Sorting (field/sorting.py) *)

  (** External: [sorted].  Raises TypeError when two elements are not comparable. *)
  Definition py_sorted {A} (ok R : A -> A -> bool) (l : list A) : res (list A) :=
    if all_pairs ok l then Ok (isort R l) else Raise TypeError.

  (** Comparison of the tuples [(val, docid)]. *)
  Definition vd_ok (p q : pyval * Z) : bool := tuple_ok (fst p) (fst q).
  Definition vd_le (p q : pyval * Z) : res bool :=
    if vd_ok p q then Ok (leb p q) else Raise TypeError.

  (** External: [bisect.insort(result, elem)]: insert after the elements not larger. *)
  Definition insort (l : list (pyval * Z)) (x : pyval * Z) : res (list (pyval * Z)) :=
    if forallb (vd_ok x) l then Ok (filter (fun y => leb y x) l ++ x :: filter (fun y => negb (leb y x)) l)
    else Raise TypeError.

  (** [result[-1]] *)
  Definition last_of {A} (l : list A) : res A :=
    match rev l with [] => Raise IndexError | x :: _ => Ok x end.

  (** sorting.py:97-102 *)
  Fixpoint nsmallest_loop (result : list (pyval * Z)) (los : pyval * Z) (it : list (pyval * Z))
    : res (list (pyval * Z)) :=
    match it with
    | [] => Ok result
    | elem :: it' =>
        do c <- vd_le los elem;
        if c then nsmallest_loop result los it'
        else
          do r1 <- insort result elem;
          let r2 := removelast r1 in
          do los' <- last_of r2;
          nsmallest_loop r2 los' it'
    end.

  (** sorting.py:89-104 *)
  Definition nsmallest (limit : option Z) (it : list (pyval * Z)) : res (list Z) :=
    let n := match limit with Some k => Z.to_nat k | None => length it end in
    do result <- py_sorted vd_ok leb (firstn n it);
    match result with
    | [] => Ok []
    | _ =>
        do los <- last_of result;
        do r <- nsmallest_loop result los (skipn n it);
        Ok (map snd r)
    end.

  (** External: [heapq.nlargest(limit, iterable)] = [sorted(iterable,
      reverse=True)[:limit]]; TypeError for [None] or incomparable elements. *)
  Definition nlargest (limit : option Z) (it : list (pyval * Z)) : res (list (pyval * Z)) :=
    match limit with
    | None => Raise TypeError
    | Some k => do s <- py_sorted vd_ok (fun p q => leb q p) it; Ok (firstn (Z.to_nat k) s)
    end.

  (** sorting.py:122-123 and 133-134: yield until [limit] items were produced. *)
  Fixpoint yield_limit (limit : option Z) (n : Z) (l : list Z) : list Z :=
    match l with
    | [] => []
    | d :: l' =>
        let n' := n + 1 in
        d :: (if match limit with Some k => negb (k =? 0) && (n' >=? k) | None => false end
              then [] else yield_limit limit n' l')
    end.

  (** sorting.py:73-77 [nsort] *)
  Definition nsort (rev_index : smap Z pyval) (docids : sset Z) : list (pyval * Z) :=
    concat (map (fun d => match get rev_index d with Some v => [(v, d)] | None => [] end) (selems docids)).

  (** sorting.py:53 [getValue] with its default -1 *)
  Definition getValue (rev_index : smap Z pyval) (d : Z) : pyval :=
    match get rev_index d with Some v => v | None => VInt (-1) end.

  (** sorting.py:58: [rlen > numdocs * (rlen / 100 + 1)] is a float computation;
      the theorems hold for every outcome of it. *)
  Variable lazy_heuristic : Z -> Z -> bool.

  (** sorting.py:35-134 [sort]; the result is what iterating the generator to its
      end produces (an exception surfaces at the first [next]).  [ov_lazy] and
      [ov_nbest] are the [_use_lazy] and [_use_nbest] overrides. *)
  Definition f_sort (ov_lazy ov_nbest : bool) (docids0 : list Z) (reverse : bool) (limit : option Z)
      (st : fstate) : res (list Z) :=
    if match limit with Some k => k <? 1 | None => false end then Raise ValueError
    else if num_docs st =? 0 then Ok []
    else
      let docids := set_of_list docids0 in
      if is_empty docids then Ok []
      else
        let rlen := Zsize docids in
        let use_lazy := ov_lazy || lazy_heuristic rlen (num_docs st) in
        let use_nbest := ov_nbest ||
          match limit with Some k => negb (k =? 0) && (k * 4 <? rlen) | None => false end in
        if use_nbest then
          if reverse then do r <- nlargest limit (nsort (rev_ix st) docids); Ok (map snd r)
          else nsmallest limit (nsort (rev_ix st) docids)
        else if use_lazy && negb reverse then
          Ok (yield_limit limit 0 (concat (map (fun s => selems (sinter docids s)) (vals (fwd st)))))
        else
          let key := getValue (rev_ix st) in
          do s <- py_sorted (fun a b => lt_ok (key a) (key b))
                            (fun a b => if reverse then leb (key b) (key a) else leb (key a) (key b))
                            (selems docids);
          Ok (yield_limit limit 0 (filter (fun d => mem d (rev_ix st)) s)).
End Field.
Arguments fstate T {OT}.
Arguments fquery T : clear implicits.
Arguments fop T : clear implicits.
