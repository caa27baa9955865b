(** * Concurrent transactions on an index stored in a ZODB

    The field index (field/index.py) and the keyword index (keyword/index.py) are
    made of persistent objects: an OOBTree of posting sets, an IOBTree of the
    documents' values, one set per value and a Length counter.  Each has its own
    conflict resolution.  This file models the two indexes with object identities
    and, as the external semantics of ZODB, BTrees and BTrees.Length, what a commit
    does when other transactions have committed since it began.

    External semantics (BTrees [_p_resolveConflict]; BTrees/Length.py): an object
    changed by one side only takes that side's state.  An object changed by both:
    - a mapping or set is merged key by key; a key changed by both is a conflict;
    - a set that one side has emptied, or that the merge would leave empty, is a
      conflict;
    - keys that cannot be compared with each other are a conflict;
    - a Length adds up both changes;
    - the index object itself (its attributes, replaced by [clear]) is a conflict.
    Simplification: the real resolution refuses more, e.g. when a bucket was split.
    "Changed" is decided here by comparing states; an object written back with the
    state it had counts as unchanged. *)
From Verif Require Export M_field M_keyword M_kwheap SMap PyVal Ord.

(** ** Three-way merges: state before, first and second committer *)

Definition opt_same {X} (same : X -> X -> bool) (a b : option X) : bool :=
  match a, b with Some x, Some y => same x y | None, None => true | _, _ => false end.
Definition set_same {K} `{Ord K} (s t : sset K) : bool :=
  forallb (fun k => mem k t) (selems s) && forallb (fun k => mem k s) (selems t).
Definition obj_same (p q : obj) : bool := Bool.eqb (fst p) (fst q) && set_same (snd p) (snd q).

(** One key: [Some r] is the merged entry, [None] a conflict. *)
Definition key3 {X} (same : X -> X -> bool) (o a b : option X) : option (option X) :=
  if opt_same same a o then Some b else if opt_same same b o then Some a else None.

Definition keyset {K X} `{Ord K} (m : smap K X) : sset K := mmap (fun _ _ => tt) m.
Definition map3 {K X} `{Ord K} (f : K -> option X -> option X -> option X -> option (option X))
    (o a b : smap K X) : option (smap K X) :=
  fold_left (fun acc k =>
      match acc, f k (get o k) (get a k) (get b k) with
      | Some m, Some (Some x) => Some (put k x m)
      | Some m, Some None => Some m
      | _, _ => None
      end) (selems (sunion (keyset o) (sunion (keyset a) (keyset b)))) (Some empty).

(** Sets of document ids. *)
Definition set3 (o a b : sset Z) : option (sset Z) :=
  if set_same a o then Some b
  else if set_same b o then Some a
  else if is_empty a || is_empty b then None
  else match map3 (fun _ => key3 (fun _ _ => true)) o a b with
       | Some s => if is_empty s then None else Some s
       | None => None
       end.
Definition obj3 (o a b : obj) : option obj :=
  if obj_same a o then Some b
  else if obj_same b o then Some a
  else match set3 (snd o) (snd a) (snd b) with Some s => Some (fst o, s) | None => None end.
Definition the_obj (o : option obj) : obj := match o with Some p => p | None => (false, empty) end.
(** Objects created since belong to one side: [a]'s have addresses below [next a],
    [b]'s from there on (see [z_begin]). *)
Definition heap3 (o a b : mem_heap) : option mem_heap :=
  match map3 (fun l x y z =>
                if next a <=? l then Some z
                else if next o <=? l then Some y
                else option_map Some (obj3 (the_obj x) (the_obj y) (the_obj z))) (cells o) (cells a) (cells b) with
  | Some c => Some (mkHeap c (Z.max (next a) (next b)))
  | None => None
  end.

(** ** A stored index *)
Section Store.
  Context {V R : Type} `{OV : Ord V}.

  (** field/index.py:47-55, keyword/index.py:49-59: posting sets by value,
      the documents' values, the number of documents.  [zgen] is the identity of the
      three attributes, which [clear] replaces: the number of calls of [clear]. *)
  Record zstate := mkZ {
    zheap : mem_heap;
    zfwd : smap V Z;
    zrev : smap Z R;
    znum : Z;
    zgen : Z
  }.
  Definition z_new : zstate := mkZ new_heap empty empty 0 0.
  Definition z_clear (st : zstate) : zstate := mkZ (zheap st) empty empty 0 (zgen st + 1).

  Variable same : R -> R -> bool.
  Variable comparable : V -> V -> bool.

  Definition merge_parts (o a b : zstate) : option zstate :=
    match heap3 (zheap o) (zheap a) (zheap b),
          map3 (fun _ => key3 eqb) (zfwd o) (zfwd a) (zfwd b),
          map3 (fun _ => key3 same) (zrev o) (zrev a) (zrev b) with
    | Some hp, Some fwd, Some rev =>
        if all_pairs comparable (keys fwd) then Some (mkZ hp fwd rev (znum a + znum b - znum o) (zgen o)) else None
    | _, _, _ => None
    end.
  (** [clear] changes the index object only: the other side's changes were made in
      objects no longer part of the index.  Both cleared: a conflict. *)
  Definition z_merge (o a b : zstate) : option zstate :=
    if zgen a =? zgen o then
      if zgen b =? zgen o then merge_parts o a b else Some b
    else if zgen b =? zgen o then Some a else None.

  (** A transaction sees the committed version it began with.  The objects it
      creates get identities not used by anyone else. *)
  Definition z_begin (cur snap : zstate) : zstate :=
    mkZ (mkHeap (cells (zheap snap)) (next (zheap cur))) (zfwd snap) (zrev snap) (znum snap) (zgen snap).

  (** ** Commits.  [versions] are the committed versions, the latest first. *)
  Context {Op : Type}.
  Variable step : zstate -> Op -> zstate.
  Definition z_exec (ops : list Op) (st : zstate) : zstate := fold_left step ops st.
  (** The transaction that began with version [i] (0: the latest) and made the calls [ops]. *)
  Definition commit (versions : list zstate) (i : nat) (ops : list Op) : option zstate :=
    match versions, nth_error versions i with
    | cur :: _, Some snap => z_merge snap cur (z_exec ops (z_begin cur snap))
    | _, _ => None
    end.
  (** A transaction that meets a conflict changes nothing. *)
  Definition db_step (versions : list zstate) (t : nat * list Op) : list zstate :=
    match commit versions (fst t) (snd t) with Some st => st :: versions | None => versions end.
  Definition db_run (schedule : list (nat * list Op)) : list zstate := fold_left db_step schedule [z_new].
End Store.
Arguments zstate V R {OV}.

(** ** The field index with object identities: the code of [M_field] *)
Section Field.
  Context {T : Type} `{OT : Ord T}.
  Notation pyval := (pyval T).
  Notation zst := (zstate pyval pyval).

  (** field/index.py:86-107 [unindex_doc] *)
  Definition zf_unindex (docid : Z) (st : zst) : zst * res unit :=
    match get (zrev st) docid with
    | None => (st, Ok tt)
    | Some value =>
        let rev' := del docid (zrev st) in
        match bt_get (zfwd st) value with
        | Raise e => (mkZ (zheap st) (zfwd st) rev' (znum st) (zgen st), Raise e)
        | Ok None => (mkZ (zheap st) (zfwd st) rev' (znum st - 1) (zgen st), Ok tt)
        | Ok (Some l) =>
            let '(kind, els) := load (zheap st) l in
            if mem docid els then
              let els' := srem docid els in
              (mkZ (store l (kind, els') (zheap st)) (if is_empty els' then del value (zfwd st) else zfwd st)
                   rev' (znum st - 1) (zgen st), Ok tt)
            else (mkZ (zheap st) (zfwd st) rev' (znum st - 1) (zgen st), Ok tt)
        end
    end.

  (** field/index.py:73-84 *)
  Definition zf_insert (docid : Z) (value : pyval) (st : zst) : zst * res unit :=
    match bt_get (zfwd st) value with
    | Raise e => (st, Raise e)
    | Ok found =>
        let '(hp1, fwd1, l) :=
          match found with
          | Some l => (zheap st, zfwd st, l)
          | None => let '(hp', l) := alloc (true, empty) (zheap st) in (hp', put value l (zfwd st), l)
          end in
        let '(kind, els) := load hp1 l in
        (mkZ (store l (kind, sadd docid els) hp1) fwd1 (put docid value (zrev st)) (znum st + 1) (zgen st), Ok tt)
    end.

  (** field/index.py:65-84 [index_doc] *)
  Definition zf_index (docid : Z) (value : pyval) (st : zst) : zst * res unit :=
    if mem docid (zrev st) then
      match bt_get (zfwd st) value with
      | Raise e => (st, Raise e)
      | Ok found =>
          if match found with Some l => mem docid (snd (load (zheap st) l)) | None => false end then (st, Ok tt)
          else
            match zf_unindex docid st with
            | (st', Raise e) => (st', Raise e)
            | (st', Ok _) => zf_insert docid value st'
            end
      end
    else zf_insert docid value st.

  Definition zf_step (st : zst) (o : fop T) : zst :=
    match o with
    | FIndex d v => fst (zf_index d v st)
    | FUnindex d => fst (zf_unindex d st)
    | FClear => z_clear st
    end.
  Definition zf_commit : list zst -> nat -> list (fop T) -> option zst := commit eqb key_ok zf_step.
  Definition zf_run : list (nat * list (fop T)) -> list zst := db_run eqb key_ok zf_step.

  (** The index a reader of this version sees. *)
  Definition zf_view (st : zst) : fstate T :=
    mkF (mmap (fun _ l => snd (load (zheap st) l)) (zfwd st)) (zrev st) (znum st).
End Field.

(** ** The keyword index: the code of [M_kwheap] *)
Section Keyword.
  Context {W : Type} `{OW : Ord W}.
  Variable normalize : list W -> list W.
  (** keyword/index.py:42 [tree_threshold], the same in every transaction *)
  Variable thr : Z.
  Notation zst := (zstate W (sset W)).

  Definition zk_in (st : zst) : hstate W := mkH (zheap st) (zfwd st) (zrev st) (znum st) thr.
  Definition zk_out (gen : Z) (h : hstate W) : zst := mkZ (hheap h) (hfwd h) (hrev h) (hnum h) gen.
  Definition zk_step (st : zst) (o : kop W) : zst :=
    match o with
    | KIndex d seq => zk_out (zgen st) (fst (h_index normalize d seq (zk_in st)))
    | KUnindex d => zk_out (zgen st) (h_unindex d (zk_in st))
    | KClear => z_clear st
    | KOptimize => zk_out (zgen st) (h_optimize (zk_in st))
    | KThreshold _ => st (* not considered: transactions do not change the threshold *)
    end.
  Definition zk_commit : list zst -> nat -> list (kop W) -> option zst := commit set_same (fun _ _ => true) zk_step.
  Definition zk_run : list (nat * list (kop W)) -> list zst := db_run set_same (fun _ _ => true) zk_step.

  (** The index a reader of this version sees. *)
  Definition zk_view (st : zst) : kstate W :=
    mkK (mmap (fun _ l => load (zheap st) l) (zfwd st)) (zrev st) (znum st) thr.
End Keyword.
