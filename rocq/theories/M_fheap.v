(** * Model of a field index whose answers the caller keeps and changes
    (/repo/src/zope/index/field/index.py)

    The sets of document ids are objects (M_pindex.v); so is the set that [apply] returns.

    Simplification: everything is in memory, without transactions. *)
From Verif Require Export M_pindex M_field SMap PyVal Ord.

Section FHeap.
  Context {T : Type} `{OT : Ord T}.
  Notation pyval := (pyval T).
  Notation pst := (ist pyval (sset Z) pyval).

  (** A new set, known to the caller only *)
  Definition h_new_set (x : sset Z) (st : pst) : pst :=
    mkI (i_parts st) (i_old st) (s_put (i_fresh st) x (i_sets st)) (i_fresh st + 1) (i_thr st).
  (** field/index.py:109-113 [apply].  External: [multiunion] returns a new set, also when it
      is given only one.  The result is the number of the set. *)
  Definition h_apply (q : fquery T) (st : pst) : pst * res Z :=
    match q with
    | QTuple [lo; hi] =>
        match bt_range (live (ip_fwd (i_parts st))) lo hi with
        | Ok sets => (h_new_set (multiunion (map (content empty (live (i_sets st))) sets)) st, Ok (i_fresh st))
        | Raise e => (st, Raise e)
        end
    | _ => (st, Raise TypeError)
    end.

  (** What happens: a call that changes the index; a query; the caller changes the set of
      the [k]-th query that was answered in some way [f] ([insert], [remove], [clear],
      [update], ...). *)
  Inductive hevent := HCall (o : fop T) | HQuery (q : fquery T) | HChange (k : nat) (f : sset Z -> sset Z).
  Definition h_event (s : pst * list Z) (e : hevent) : pst * list Z :=
    match e with
    | HCall o => (fst (pf_call o (fst s)), snd s)
    | HQuery q => let (st, r) := h_apply q (fst s) in (st, match r with Ok r => snd s ++ [r] | Raise _ => snd s end)
    | HChange k f =>
        match nth_error (snd s) k with
        | Some r => (i_write r (f (content empty (live (i_sets (fst s))) r)) (fst s), snd s)
        | None => s
        end
    end.
  Definition h_run (evs : list hevent) : pst * list Z := fold_left h_event evs (i_new, []).
  (** The answers as the caller finds them now *)
  Definition h_answers (s : pst * list Z) : list (sset Z) := map (content empty (live (i_sets (fst s)))) (snd s).
End FHeap.
Arguments hevent T : clear implicits.
