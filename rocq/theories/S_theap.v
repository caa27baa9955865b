(** * Specification: topic indexes sharing filter objects (histories latest call first) *)
From Verif Require Export S_topic M_theap SMap Ord.

Section Spec.
  Context {I : Type} `{OI : Ord I} {E C : Type}.
  Variable eval : E -> Z -> C -> evres.
  Notation history := (list (wop I E C)).

  (** How many filters have been created. *)
  Fixpoint filters_made (rh : history) : Z :=
    match rh with
    | [] => 0
    | WNew _ _ _ :: rh' => filters_made rh' + 1
    | _ :: rh' => filters_made rh'
    end.
  (** The id of the filter [r], None if it has not been created. *)
  Fixpoint id_of (r : Z) (rh : history) : option I :=
    match rh with
    | [] => None
    | WNew _ i _ :: rh' => if eqb r (filters_made rh') then Some i else id_of r rh'
    | _ :: rh' => id_of r rh'
    end.
  (** Its current expression. *)
  Fixpoint expr_now (r : Z) (rh : history) : option E :=
    match rh with
    | [] => None
    | WNew _ _ e :: rh' => if eqb r (filters_made rh') then Some e else expr_now r rh'
    | WSetExpr r' e :: rh' =>
        if eqb r r' then match expr_now r rh' with Some _ => Some e | None => None end else expr_now r rh'
    | _ :: rh' => expr_now r rh'
    end.
  (** The filter the index [n] holds under the id [i]. *)
  Fixpoint held (n : Z) (i : I) (rh : history) : option Z :=
    match rh with
    | [] => None
    | WAdd n' r :: rh' =>
        if eqb n n' && match id_of r rh' with Some i' => eqb i i' | None => false end then Some r else held n i rh'
    | WDel n' i' :: rh' => if eqb n n' && eqb i i' then None else held n i rh'
    | WClear n' :: rh' => if eqb n n' then None else held n i rh'
    | _ :: rh' => held n i rh'
    end.
  (** Does the index [n] hold the filter [r]? *)
  Definition holds (n r : Z) (rh : history) : bool :=
    match id_of r rh with
    | Some i => match held n i rh with Some r' => eqb r r' | None => false end
    | None => false
    end.
  (** Is [d] in the filter [r]: was it indexed with an object satisfying the
      expression of that moment, by the filter itself or by an index holding it then,
      since the filter was last cleared and [d] last unindexed, by the filter itself
      or by an index holding it then? *)
  Definition fits_expr (r d : Z) (c : C) (rh : history) : bool :=
    match expr_now r rh with Some e => satisfies eval e d c | None => false end.
  Fixpoint inside (r d : Z) (rh : history) : bool :=
    match rh with
    | [] => false
    | WNew _ _ _ :: rh' => if eqb r (filters_made rh') then false else inside r d rh'
    | WFClear r' :: rh' => if eqb r r' then false else inside r d rh'
    | WClearFilters n :: rh' => if holds n r rh' then false else inside r d rh'
    | WFIndex r' d' c :: rh' => eqb r r' && eqb d d' && fits_expr r d c rh' || inside r d rh'
    | WIndex n d' c :: rh' => holds n r rh' && eqb d d' && fits_expr r d c rh' || inside r d rh'
    | WFUnindex r' d' :: rh' => if eqb r r' && eqb d d' then false else inside r d rh'
    | WUnindex n d' :: rh' => if holds n r rh' && eqb d d' then false else inside r d rh'
    | _ :: rh' => inside r d rh'
    end.
  (** How often the filter [r] has been emptied by a clear. *)
  Fixpoint clearings (r : Z) (rh : history) : Z :=
    match rh with
    | [] => 0
    | WFClear r' :: rh' => clearings r rh' + (if eqb r r' then 1 else 0)
    | WClearFilters n :: rh' => clearings r rh' + (if holds n r rh' then 1 else 0)
    | _ :: rh' => clearings r rh'
    end.

  (** Only PythonFilteredSet filters are created. *)
  Definition python_filters (h : history) : Prop :=
    forall p i e, In (WNew p i e) h -> p = true.

  (** What a call returns or raises. *)
  Definition outcome (o : wop I E C) (rh : history) : res unit :=
    match o with
    | WDel n i => match held n i rh with Some _ => Ok tt | None => Raise KeyError end
    | WSearch _ TOther _ => Raise TypeError
    | WSearch _ _ OpOther => Raise TypeError
    | _ => Ok tt
    end.
  (** Only new, empty filters are added (see [embed] below). *)
  Definition new_filters (th : list (top I E C)) : Prop := forall f : filt I E, In (TAdd f) th -> f_ids f = empty.

  (** What a search of the index [n] should find: documents in some filter the
      query names, or in all of them (none if the query names no filter). *)
  Definition asked_for (n : Z) (q : tquery I) (r : Z) (rh : history) : Prop :=
    exists i, named i q /\ held n i rh = Some r.
  Definition finds (n : Z) (q : tquery I) (op : koperator) (d : Z) (rh : history) : Prop :=
    match op with
    | OpOr => exists r, asked_for n q r rh /\ inside r d rh = true
    | OpAnd => (exists r, asked_for n q r rh) /\ forall r, asked_for n q r rh -> inside r d rh = true
    | OpOther => False
    end.

  (** The set returned by searching the index [n] after the calls [h] (oldest first),
      and the documents in it. *)
  Definition result (h : history) (n : Z) (q : tquery I) (op : koperator) : res Z :=
    snd (w_search n q op (w_run eval h)).
  Definition answer (h : history) (n : Z) (q : tquery I) (op : koperator) : res (sset Z) :=
    rmap (set_at (fst (w_search n q op (w_run eval h)))) (result h n q op).
  (** What the client holding the set [l] sees in it after the calls [h]. *)
  Definition seen (h : history) (l : Z) : sset Z := set_at (w_run eval h) l.

  (** The query names exactly one filter of the index. *)
  Definition only (n : Z) (q : tquery I) (r : Z) (h : history) : Prop :=
    forall r', asked_for n q r' (rev h) <-> r' = r.

  (** [o] is no call of the index [n], and concerns no filter held by it. *)
  Definition elsewhere (n : Z) (o : wop I E C) (h : history) : Prop :=
    match o with
    | WNew _ _ _ | WSearch _ _ _ => True
    | WSetExpr r _ | WFClear r | WFIndex r _ _ | WFUnindex r _ => holds n r (rev h) = false
    | WAdd m _ | WDel m _ | WClear m => m <> n
    | WClearFilters m | WIndex m _ _ | WUnindex m _ =>
        m <> n /\ forall r, holds m r (rev h) = true -> holds n r (rev h) = false
    end.

  (** The calls of one index all of whose filters are its own, as calls of the index 0. *)
  Fixpoint embed (rh : list (top I E C)) : history :=
    match rh with
    | [] => []
    | TAdd f :: rh' => WAdd 0 (filters_made (embed rh')) :: WNew (f_python f) (f_id f) (f_expr f) :: embed rh'
    | TDel i :: rh' => WDel 0 i :: embed rh'
    | TClear :: rh' => WClear 0 :: embed rh'
    | TClearFilters :: rh' => WClearFilters 0 :: embed rh'
    | TSetExpr i e :: rh' =>
        match held 0 i (embed rh') with Some r => WSetExpr r e :: embed rh' | None => embed rh' end
    | TIndex d c :: rh' => WIndex 0 d c :: embed rh'
    | TUnindex d :: rh' => WUnindex 0 d :: embed rh'
    end.
End Spec.
