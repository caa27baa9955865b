(** * Specification of the topic index: histories are given latest call first *)
From Verif Require Export M_topic SMap Ord.

Section Spec.
  Context {I : Type} `{OI : Ord I} {E C : Type}.
  Variable eval : E -> Z -> C -> evres.

  Definition satisfies (e : E) (d : Z) (c : C) : bool :=
    match eval e d c with Truthy => true | _ => false end.

  (** The expression of the filter [i], None if there is no such filter. *)
  Fixpoint expr_of (i : I) (rh : list (top I E C)) : option E :=
    match rh with
    | [] => None
    | TAdd f :: rh' => if eqb i (f_id f) then Some (f_expr f) else expr_of i rh'
    | TDel i' :: rh' => if eqb i i' then None else expr_of i rh'
    | TClear :: _ => None
    | TSetExpr i' e :: rh' =>
        if eqb i i' then match expr_of i rh' with Some _ => Some e | None => None end else expr_of i rh'
    | _ :: rh' => expr_of i rh'
    end.
  (** Was [d] indexed with an object satisfying the expression the filter [i] had
      then, since [d] was last unindexed and the filter last cleared or added? *)
  Fixpoint selected (i : I) (d : Z) (rh : list (top I E C)) : bool :=
    match rh with
    | [] => false
    | TAdd f :: rh' => if eqb i (f_id f) then mem d (f_ids f) else selected i d rh'
    | TDel i' :: rh' => if eqb i i' then false else selected i d rh'
    | TClear :: _ => false
    | TClearFilters :: _ => false
    | TSetExpr _ _ :: rh' => selected i d rh'
    | TIndex d' c :: rh' =>
        (eqb d d' && match expr_of i rh' with Some e => satisfies e d c | None => false end) || selected i d rh'
    | TUnindex d' :: rh' => if eqb d d' then false else selected i d rh'
    end.
  (** Only PythonFilteredSet filters are added. *)
  Definition python_only (h : list (top I E C)) : Prop :=
    forall f, In (TAdd f) h -> f_python f = true.

  Definition named (i : I) (q : tquery I) : Prop :=
    match q with TId j => i = j | TIds l => In i l | TOther => False end.
End Spec.
