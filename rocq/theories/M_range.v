(** * Model of field, keyword and topic indexes given document ids out of range
    (/repo/src/zope/index/field/index.py, field/sorting.py, keyword/index.py,
    topic/index.py, topic/filter.py)

    The BTrees of a family take 32 (or 64) bit integers as document ids: [fits docid] tells
    whether it is one.  Other document ids stand for anything else a caller may pass, such
    as larger integers or strings.

    External, as in BTrees: looking for a key that does not fit finds nothing; storing one,
    or removing one from a set or tree, raises TypeError. *)
From Verif Require Export M_field M_keyword M_topic SMap PyVal Ord.

Section Range.
  Variable fits : Z -> bool.

  (** External: [docid in m], [m.get(docid)]; [m[docid] = x]; [s.insert(docid)];
      [s.remove(docid)]; [Set(docids)] *)
  Definition r_get {X} (m : smap Z X) (docid : Z) : option X := if fits docid then get m docid else None.
  Definition r_put {X} (docid : Z) (x : X) (m : smap Z X) : res (smap Z X) :=
    if fits docid then Ok (put docid x m) else Raise TypeError.
  Definition r_del {X} (docid : Z) (m : smap Z X) : res (smap Z X) :=
    if fits docid then match get m docid with Some _ => Ok (del docid m) | None => Raise KeyError end else Raise TypeError.
  Definition r_insert (docid : Z) (s : sset Z) : res (sset Z) := r_put docid tt s.
  Definition r_remove (docid : Z) (s : sset Z) : res (sset Z) := r_del docid s.
  Definition r_set (docids : list Z) : res (sset Z) :=
    if forallb fits docids then Ok (set_of_list docids) else Raise TypeError.

  (** ** Field index *)
  Section Field.
    Context {T : Type} `{OT : Ord T}.
    Notation pyval := (pyval T).

    (** field/index.py:86-107 [unindex_doc] *)
    Definition rf_unindex (docid : Z) (st : fstate T) : fstate T * res unit :=
      match r_get (rev_ix st) docid with
      | None => (st, Ok tt)
      | Some value =>
          match r_del docid (rev_ix st) with
          | Raise e => (st, Raise e)
          | Ok rev' =>
              match bt_get (fwd st) value with
              | Raise e => (M_field.mkF (fwd st) rev' (num_docs st), Raise e)
              | Ok None => (M_field.mkF (fwd st) rev' (num_docs st - 1), Ok tt)
              | Ok (Some s) =>
                  match r_remove docid s with
                  | Ok s' => (M_field.mkF (if is_empty s' then del value (fwd st) else put value s' (fwd st)) rev' (num_docs st - 1), Ok tt)
                  | Raise KeyError => (M_field.mkF (fwd st) rev' (num_docs st - 1), Ok tt)
                  | Raise e => (M_field.mkF (fwd st) rev' (num_docs st), Raise e)
                  end
              end
          end
      end.
    (** field/index.py:73-84, the second half of [index_doc] *)
    Definition rf_insert (docid : Z) (value : pyval) (st : fstate T) : fstate T * res unit :=
      match bt_get (fwd st) value with
      | Raise e => (st, Raise e)
      | Ok found =>
          let '(fwd1, s) := match found with None => (put value empty (fwd st), empty) | Some s => (fwd st, s) end in
          match r_insert docid s with
          | Raise e => (M_field.mkF fwd1 (rev_ix st) (num_docs st), Raise e)
          | Ok s' =>
              let fwd2 := put value s' fwd1 in
              match r_put docid value (rev_ix st) with
              | Raise e => (M_field.mkF fwd2 (rev_ix st) (num_docs st + 1), Raise e)
              | Ok rev' => (M_field.mkF fwd2 rev' (num_docs st + 1), Ok tt)
              end
          end
      end.
    (** field/index.py:65-84 [index_doc] *)
    Definition rf_index (docid : Z) (value : pyval) (st : fstate T) : fstate T * res unit :=
      match r_get (rev_ix st) docid with
      | Some _ =>
          match bt_get (fwd st) value with
          | Raise e => (st, Raise e)
          | Ok found =>
              if match found with Some s => match r_get s docid with Some _ => true | None => false end | None => false end
              then (st, Ok tt)
              else
                match rf_unindex docid st with
                | (st', Raise e) => (st', Raise e)
                | (st', Ok _) => rf_insert docid value st'
                end
          end
      | None => rf_insert docid value st
      end.
    Definition rf_step (st : fstate T) (o : fop T) : fstate T * res unit :=
      match o with
      | FIndex d v => rf_index d v st
      | FUnindex d => rf_unindex d st
      | FClear => (f_clear, Ok tt)
      end.
    Definition rf_run (h : list (fop T)) : fstate T := fold_left (fun st o => fst (rf_step st o)) h f_clear.
    (** sorting.py:35-134 [sort]: the checks before the documents are looked at (line 45
        for anything but a Set or TreeSet), then as in M_field.v *)
    Definition rf_sort (heuristic : Z -> Z -> bool) (ov_lazy ov_nbest : bool) (docids : list Z) (reverse : bool)
        (limit : option Z) (st : fstate T) : res (list Z) :=
      if match limit with Some k => k <? 1 | None => false end then Raise ValueError
      else if num_docs st =? 0 then Ok []
      else do _ <- r_set docids; f_sort heuristic ov_lazy ov_nbest docids reverse limit st.
  End Field.

  (** ** Keyword index *)
  Section Keyword.
    Context {W : Type} `{OW : Ord W}.
    Variable normalize : list W -> list W.

    (** keyword/index.py:136-152 [_insert_forward] *)
    Fixpoint rk_insert_words (thr docid : Z) (words : list W) (fwd : smap W (bool * sset Z)) : smap W (bool * sset Z) * res unit :=
      match words with
      | [] => (fwd, Ok tt)
      | word :: words' =>
          let '(fwd1, (is_tree, s)) :=
            match get fwd word with None => (put word (false, empty) fwd, (false, empty)) | Some p => (fwd, p) end in
          match r_insert docid s with
          | Raise e => (fwd1, Raise e)
          | Ok s' => rk_insert_words thr docid words' (put word (is_tree || (Zsize s' >=? thr), s') fwd1)
          end
      end.
    (** keyword/index.py:154-158 [_insert_reverse] *)
    Definition rk_insert_reverse (docid : Z) (words : sset W) (rev : smap Z (sset W)) : res (smap Z (sset W)) :=
      if is_empty words then Ok rev else r_put docid words rev.
    (** keyword/index.py:106-110 and 120-123 *)
    Fixpoint rk_remove_words (docid : Z) (ws : list W) (fwd : smap W (bool * sset Z)) : smap W (bool * sset Z) * res unit :=
      match ws with
      | [] => (fwd, Ok tt)
      | word :: ws' =>
          match get fwd word with
          | None => (fwd, Raise KeyError)
          | Some (is_tree, s) =>
              match r_remove docid s with
              | Raise e => (fwd, Raise e)
              | Ok s' => rk_remove_words docid ws' (if is_empty s' then del word fwd else put word (is_tree, s') fwd)
              end
          end
      end.
    (** keyword/index.py:116-134 [unindex_doc]: a KeyError is swallowed *)
    Definition rk_unindex (docid : Z) (st : kstate W) : kstate W * res unit :=
      match r_get (krev st) docid with
      | None => (st, Ok tt)
      | Some words =>
          match rk_remove_words docid (selems words) (kfwd st) with
          | (fwd', Raise KeyError) => (mkK fwd' (krev st) (knum st) (threshold st), Ok tt)
          | (fwd', Raise e) => (mkK fwd' (krev st) (knum st) (threshold st), Raise e)
          | (fwd', Ok _) =>
              match r_del docid (krev st) with
              | Ok rev' => (mkK fwd' rev' (knum st - 1) (threshold st), Ok tt)
              | Raise KeyError => (mkK fwd' (krev st) (knum st - 1) (threshold st), Ok tt)
              | Raise e => (mkK fwd' (krev st) (knum st) (threshold st), Raise e)
              end
          end
      end.
    (** keyword/index.py:81-114 [index_doc] *)
    Definition rk_index (docid : Z) (seq : kseq W) (st : kstate W) : kstate W * res unit :=
      match seq with
      | SeqStr => (st, Raise TypeError)
      | SeqList l =>
          let old_kw := r_get (krev st) docid in
          match l with
          | [] =>
              match old_kw with
              | Some kw => if is_empty kw then (st, Ok tt) else rk_unindex docid st
              | None => (st, Ok tt)
              end
          | _ :: _ =>
              let new_kw := set_of_list (normalize l) in
              let '(removed, added, n) :=
                match old_kw with
                | None => ((kfwd st, Ok tt), new_kw, knum st + 1)
                | Some old => (rk_remove_words docid (selems (mdiff old new_kw)) (kfwd st), mdiff new_kw old, knum st)
                end in
              match removed with
              | (fwd', Raise e) => (mkK fwd' (krev st) (knum st) (threshold st), Raise e)
              | (fwd', Ok _) =>
                  match rk_insert_words (threshold st) docid (selems added) fwd' with
                  | (fwd2, Raise e) => (mkK fwd2 (krev st) (knum st) (threshold st), Raise e)
                  | (fwd2, Ok _) =>
                      match rk_insert_reverse docid new_kw (krev st) with
                      | Raise e => (mkK fwd2 (krev st) (knum st) (threshold st), Raise e)
                      | Ok rev' => (mkK fwd2 rev' n (threshold st), Ok tt)
                      end
                  end
              end
          end
      end.
    Definition rk_step (st : kstate W) (o : kop W) : kstate W * res unit :=
      match o with
      | KIndex d seq => rk_index d seq st
      | KUnindex d => rk_unindex d st
      | KClear => (k_clear st, Ok tt)
      | KOptimize => (k_optimize st, Ok tt)
      | KThreshold n => (mkK (kfwd st) (krev st) (knum st) n, Ok tt)
      end.
    Definition rk_run (h : list (kop W)) : kstate W := fold_left (fun st o => fst (rk_step st o)) h k_new.
    (** keyword/index.py:72-73 *)
    Definition rk_has_doc (docid : Z) (st : kstate W) : bool := match r_get (krev st) docid with Some _ => true | None => false end.
  End Keyword.

  (** ** Topic index *)
  Section Topic.
    Context {I : Type} `{OI : Ord I} {E C : Type}.
    Variable eval : E -> Z -> C -> evres.
    Notation filt := (filt I E).

    (** topic/filter.py:44-45 and 74-79: the TypeError is swallowed *)
    Definition rt_index_one (docid : Z) (context : C) (f : filt) : res filt :=
      if f_python f then
        match eval (f_expr f) docid context with
        | Truthy =>
            match r_insert docid (f_ids f) with
            | Ok s => Ok (mkF (f_python f) (f_id f) (f_expr f) s)
            | Raise _ => Ok f
            end
        | Falsy => Ok f
        | Exc => Ok f
        end
      else Raise NotImplementedError.
    (** topic/filter.py:47-51: only a KeyError is caught *)
    Definition rt_unindex_one (docid : Z) (f : filt) : res filt :=
      match r_remove docid (f_ids f) with
      | Ok s => Ok (mkF (f_python f) (f_id f) (f_expr f) s)
      | Raise KeyError => Ok f
      | Raise e => Raise e
      end.
    (** topic/index.py:60-70: in the order of the filter ids *)
    Fixpoint rt_each (step : filt -> res filt) (ids : list I) (st : smap I filt) : smap I filt * res unit :=
      match ids with
      | [] => (st, Ok tt)
      | i :: ids' =>
          match get st i with
          | None => rt_each step ids' st
          | Some f => match step f with Ok f' => rt_each step ids' (put i f' st) | Raise e => (st, Raise e) end
          end
      end.
    Definition rt_step (st : smap I filt) (o : top I E C) : smap I filt * res unit :=
      match o with
      | TIndex d c => rt_each (rt_index_one d c) (keys st) st
      | TUnindex d => rt_each (rt_unindex_one d) (keys st) st
      | _ => t_step eval st o
      end.
    Definition rt_run (h : list (top I E C)) : smap I filt := fold_left (fun st o => fst (rt_step st o)) h empty.
  End Topic.
End Range.
