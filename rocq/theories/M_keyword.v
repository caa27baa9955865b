(** * Model of /repo/src/zope/index/keyword/index.py

    Keywords are of any totally ordered type [W] (mutually orderable keywords);
    [normalize] is the method of that name, an extension point of the class. *)
From Verif Require Export Sort SMap Ord.

Section Keyword.
  Context {W : Type} `{OW : Ord W}.

  (** keyword/index.py:49-59 [clear] and :42 [tree_threshold].  A posting set is a
      flag (true = TreeSet, false = Set) and its elements. *)
  Record kstate := mkK {
    kfwd : smap W (bool * sset Z);
    krev : smap Z (sset W);
    knum : Z;
    threshold : Z
  }.
  Definition k_new : kstate := mkK empty empty 0 64.
  Definition k_clear (st : kstate) : kstate := mkK empty empty 0 (threshold st).

  (** keyword/index.py:61-70 *)
  Definition k_documentCount (st : kstate) : Z := knum st.
  Definition k_wordCount (st : kstate) : Z := Zsize (kfwd st).
  Definition k_has_doc (docid : Z) (st : kstate) : bool := mem docid (krev st).

  (** keyword/index.py:145-152, the body of the loop of [_insert_forward] *)
  Definition insert_word (thr docid : Z) (fwd : smap W (bool * sset Z)) (word : W) : smap W (bool * sset Z) :=
    let '(is_tree, s) := match get fwd word with None => (false, empty) | Some p => p end in
    let s' := sadd docid s in
    if negb is_tree && (Zsize s' >=? thr) then put word (true, s') fwd
    else put word (is_tree, s') fwd.

  (** keyword/index.py:136-152 [_insert_forward] *)
  Definition insert_forward (thr docid : Z) (words : sset W) (fwd : smap W (bool * sset Z))
    : smap W (bool * sset Z) :=
    fold_left (insert_word thr docid) (selems words) fwd.

  (** keyword/index.py:154-158 [_insert_reverse] *)
  Definition insert_reverse (docid : Z) (words : sset W) (rev : smap Z (sset W)) : smap Z (sset W) :=
    if is_empty words then rev else put docid words rev.

  (** keyword/index.py:106-110 and 120-123: remove [docid] from the sets of the
      words; a missing word or docid raises KeyError after the preceding words
      have been processed. *)
  Fixpoint remove_words (docid : Z) (ws : list W) (fwd : smap W (bool * sset Z))
    : smap W (bool * sset Z) * res unit :=
    match ws with
    | [] => (fwd, Ok tt)
    | word :: ws' =>
        match get fwd word with
        | None => (fwd, Raise KeyError)
        | Some (is_tree, s) =>
            if mem docid s then
              let s' := srem docid s in
              remove_words docid ws'
                (if is_empty s' then del word fwd else put word (is_tree, s') fwd)
            else (fwd, Raise KeyError)
        end
    end.

  (** keyword/index.py:116-134 [unindex_doc]: a KeyError is swallowed. *)
  Definition k_unindex (docid : Z) (st : kstate) : kstate :=
    match get (krev st) docid with
    | None => st
    | Some words =>
        match remove_words docid (selems words) (kfwd st) with
        | (fwd', Raise _) => mkK fwd' (krev st) (knum st) (threshold st)
        | (fwd', Ok _) => mkK fwd' (del docid (krev st)) (knum st - 1) (threshold st)
        end
    end.

  (** The argument [seq] of [index_doc]: a string, or a sequence of keywords. *)
  Inductive kseq := SeqStr | SeqList (l : list W).

  Variable normalize : list W -> list W.

  (** keyword/index.py:81-114 [index_doc] *)
  Definition k_index (docid : Z) (seq : kseq) (st : kstate) : kstate * res unit :=
    match seq with
    | SeqStr => (st, Raise TypeError)
    | SeqList l =>
        let old_kw := get (krev st) docid in
        match l with
        | [] =>
            match old_kw with
            | Some kw => if is_empty kw then (st, Ok tt) else (k_unindex docid st, Ok tt)
            | None => (st, Ok tt)
            end
        | _ :: _ =>
            let new_kw := set_of_list (normalize l) in
            match old_kw with
            | None =>
                (mkK (insert_forward (threshold st) docid new_kw (kfwd st))
                     (insert_reverse docid new_kw (krev st)) (knum st + 1) (threshold st), Ok tt)
            | Some old =>
                let kw_added := mdiff new_kw old in
                let kw_removed := mdiff old new_kw in
                match remove_words docid (selems kw_removed) (kfwd st) with
                | (fwd', Raise e) => (mkK fwd' (krev st) (knum st) (threshold st), Raise e)
                | (fwd', Ok _) =>
                    (mkK (insert_forward (threshold st) docid kw_added fwd')
                         (insert_reverse docid new_kw (krev st)) (knum st) (threshold st), Ok tt)
                end
            end
        end
    end.

  (** keyword/index.py:199-218 [optimize] *)
  Definition k_optimize (st : kstate) : kstate :=
    mkK (mmap (fun _ p => let '(is_tree, s) := p in
                          if Zsize s >=? threshold st then (if negb is_tree then (true, s) else (is_tree, s))
                          else (if is_tree then (false, s) else (is_tree, s))) (kfwd st))
        (krev st) (knum st) (threshold st).

  (** The query of [search]: one keyword or a sequence of keywords. *)
  Inductive kquery := KWord (w : W) | KWords (ws : list W).
  Inductive koperator := OpAnd | OpOr | OpOther.

  (** keyword/index.py:162-165 *)
  Definition query_words (q : kquery) : list W :=
    normalize (match q with KWord w => [w] | KWords ws => ws end).

  (** keyword/index.py:177-182 (also topic/index.py:91-96).  External: BTrees
      [intersection(None, s)] is [s]. *)
  Definition len_le (a b : sset Z) : bool := Zsize a <=? Zsize b.
  Fixpoint and_loop (rs : option (sset Z)) (sets : list (sset Z)) : option (sset Z) :=
    match sets with
    | [] => rs
    | s :: sets' =>
        let rs' := match rs with None => s | Some r => sinter r s end in
        if is_empty rs' then Some rs' else and_loop (Some rs') sets'
    end.
  (** keyword/index.py:172-189 *)
  Definition combine_sets (op : koperator) (sets : list (sset Z)) : res (sset Z) :=
    match op with
    | OpOr => Ok (let rs := multiunion sets in if is_empty rs then empty else rs)
    | OpAnd => Ok (match and_loop None (isort len_le sets) with
                   | Some rs => if is_empty rs then empty else rs
                   | None => empty
                   end)
    | OpOther => Raise TypeError
    end.

  (** keyword/index.py:160-189 [search] *)
  Definition k_search (q : kquery) (op : koperator) (st : kstate) : res (sset Z) :=
    combine_sets op (map (fun w => match get (kfwd st) w with Some p => snd p | None => empty end) (query_words q)).

  (** The argument of [apply]: a mapping with optional 'operator' and 'query'
      entries, or a plain query. *)
  Record kdict := mkDict { d_operator : option koperator; d_query : option kquery }.
  Inductive kapply := ADict (d : kdict) | AQuery (q : kquery).

  (** keyword/index.py:191-197 [apply]; the argument is returned as the call
      leaves it. *)
  Definition k_apply (a : kapply) (st : kstate) : kapply * res (sset Z) :=
    match a with
    | AQuery q => (a, k_search q OpAnd st)
    | ADict d =>
        let op := match d_operator d with Some o => o | None => OpAnd end in
        match d_query d with
        | None => (a, Raise KeyError)
        | Some q => (a, k_search q op st)
        end
    end.

  (** Calls that change the index; the threshold is a plain attribute. *)
  Inductive kop :=
  | KIndex (docid : Z) (seq : kseq)
  | KUnindex (docid : Z)
  | KClear
  | KOptimize
  | KThreshold (n : Z).
  Definition k_step (st : kstate) (o : kop) : kstate * res unit :=
    match o with
    | KIndex d seq => k_index d seq st
    | KUnindex d => (k_unindex d st, Ok tt)
    | KClear => (k_clear st, Ok tt)
    | KOptimize => (k_optimize st, Ok tt)
    | KThreshold n => (mkK (kfwd st) (krev st) (knum st) n, Ok tt)
    end.
  Definition k_run (h : list kop) : kstate := fold_left (fun st o => fst (k_step st o)) h k_new.
End Keyword.
Arguments kstate W {OW}.
Arguments kseq W : clear implicits.
Arguments kop W : clear implicits.
Arguments kquery W : clear implicits.
Arguments kdict W : clear implicits.
Arguments kapply W : clear implicits.

(** keyword/index.py:79: the default [normalize]. *)
Definition normalize_id {W} (seq : list W) : list W := seq.
(** keyword/index.py:224-228 [CaseInsensitiveKeywordIndex.normalize] *)
Definition normalize_lower {W} (lower : W -> W) (seq : list W) : list W := map lower seq.
