(** * Specification of the field index *)
From Verif Require Export M_field SMap PyVal Ord.

Section Spec.
  Context {T : Type} `{OT : Ord T}.
  Notation pyval := (pyval T).
  Notation fop := (fop T).

  (** The current docid -> value mapping: the last call for a document counts.  A
      value that cannot be ordered with those present is refused. *)
  Definition orderable_in (v : pyval) (m : smap Z pyval) : Prop :=
    forall d w, get m d = Some w -> key_ok v w = true.
  Definition current_step (m : smap Z pyval) (o : fop) : smap Z pyval :=
    match o with
    | FIndex d v => if forallb (key_ok v) (vals m) then put d v m else m
    | FUnindex d => del d m
    | FClear => empty
    end.
  Definition current (h : list fop) : smap Z pyval := fold_left current_step h empty.

  (** What the last call about document [d] says, most recent call first. *)
  Fixpoint last_said (d : Z) (rh : list fop) : option pyval :=
    match rh with
    | [] => None
    | FIndex d' v :: rh' => if d =? d' then Some v else last_said d rh'
    | FUnindex d' :: rh' => if d =? d' then None else last_said d rh'
    | FClear :: _ => None
    end.
  Definition values_of (h : list fop) : list pyval :=
    concat (map (fun o => match o with FIndex _ v => [v] | _ => [] end) h).
  Definition mutually_orderable (h : list fop) : Prop :=
    forall v w, In v (values_of h) -> In w (values_of h) -> key_ok v w = true.

  (** [lo <= v <= hi], None meaning unbounded. *)
  Definition in_range (lo hi v : pyval) : Prop :=
    (lo = VNone \/ le lo v) /\ (hi = VNone \/ le v hi).

  (** Document [d] is in the answer to the range query [(lo, hi)]. *)
  Definition in_answer (lo hi : pyval) (st : fstate T) (d : Z) : Prop :=
    exists s, f_apply (QTuple [lo; hi]) st = Ok s /\ mem d s = true.

  (** Sorted results. *)
  Definition limit_ok (limit : option Z) : Prop := match limit with Some k => 1 <= k | None => True end.
  Definition distinct_values (m : smap Z pyval) (docids : list Z) : Prop :=
    forall a b v, In a docids -> In b docids -> get m a = Some v -> get m b = Some v -> a = b.
  Definition truncate {A} (limit : option Z) (l : list A) : list A :=
    match limit with Some k => firstn (Z.to_nat k) l | None => l end.
  Definition indexed_among (m : smap Z pyval) (docids l : list Z) : Prop :=
    NoDup l /\ forall d, In d l <-> In d docids /\ exists v, get m d = Some v.
  (** by (value, docid) *)
  Definition asc_order (m : smap Z pyval) (a b : Z) : Prop :=
    exists va vb, get m a = Some va /\ get m b = Some vb /\ (lt va vb \/ (va = vb /\ a < b)).
  (** by descending value, then ascending docid *)
  Definition desc_order (m : smap Z pyval) (a b : Z) : Prop :=
    exists va vb, get m a = Some va /\ get m b = Some vb /\ (lt vb va \/ (va = vb /\ a < b)).
  (** by descending (value, docid) *)
  Definition desc_order_nbest (m : smap Z pyval) (a b : Z) : Prop :=
    exists va vb, get m a = Some va /\ get m b = Some vb /\ (lt vb va \/ (va = vb /\ b < a)).
  Definition sorted_list (order : smap Z pyval -> Z -> Z -> Prop) (m : smap Z pyval) (docids l : list Z) : Prop :=
    StronglySorted (order m) l /\ indexed_among m docids l.
  (** by descending value only *)
  Definition value_desc (m : smap Z pyval) (a b : Z) : Prop :=
    exists va vb, get m a = Some va /\ get m b = Some vb /\ le vb va.

  (** When sorting meets a comparison Python refuses.
      The heap/bisect strategy compares (value, docid) tuples of indexed
      documents: None and another value. *)
  Definition nbest_type_error (m : smap Z pyval) (docids : list Z) : Prop :=
    exists a b vb, In a docids /\ In b docids /\ get m a = Some VNone /\ get m b = Some vb /\ vb <> VNone.
  (** The full sort compares values, -1 standing for documents not indexed. *)
  Definition full_type_error (m : smap Z pyval) (docids : list Z) : Prop :=
    (exists a b, In a docids /\ In b docids /\ a <> b /\ get m a = Some VNone) \/
    (exists a b t, In a docids /\ In b docids /\ get m a = None /\ get m b = Some (VObj t)).
End Spec.
