(** * Specification of range queries whose answer is sorted *)
From Verif Require Export M_field S_field SMap PyVal Ord.

(** The documents with a value in the range, by value, equal values by document id. *)
Definition range_sorted {T} `{Ord T} (lo hi : pyval T) (m : smap Z (pyval T)) (l : list Z) : Prop :=
  StronglySorted (asc_order m) l /\
  forall d, In d l <-> exists v, get m d = Some v /\ in_range lo hi v.
(** A document in the range. *)
Definition within {T} `{Ord T} (lo hi : pyval T) (m : smap Z (pyval T)) (d : Z) : Prop :=
  exists v, get m d = Some v /\ in_range lo hi v.
(** No document has the value None. *)
Definition no_none {T} (m : smap Z (pyval T)) : Prop := forall d, get m d <> Some VNone.
