(** * PyVal: values a field index can store, and which comparisons raise.

    [T] is any further Python type with a total order of its own (str, datetime,
    tuple, ...), not comparable with int. *)
From Verif Require Export Prelude Ord.

Inductive pyval (T : Type) := VNone | VInt (z : Z) | VObj (t : T).
Arguments VNone {T}.
Arguments VInt {T} z.
Arguments VObj {T} t.

Section PyVal.
  Context {T : Type} `{OT : Ord T}.
  Notation pyval := (pyval T).

  (** The order of OOBTree keys: None is smaller than everything (BTrees
      [objectkeymacros.h]).  The relative order of VInt and VObj is never used:
      such comparisons raise TypeError. *)
  Definition val_cmp (a b : pyval) : comparison :=
    match a, b with
    | VNone, VNone => Eq
    | VNone, _ => Lt
    | _, VNone => Gt
    | VInt x, VInt y => cmp x y
    | VInt _, VObj _ => Lt
    | VObj _, VInt _ => Gt
    | VObj x, VObj y => cmp x y
    end.
  #[global] Instance Ord_pyval : Ord pyval.
  Proof.
    refine {| cmp := val_cmp |}.
    - intros [|x|x] [|y|y]; cbn; try discriminate; try reflexivity; intros H.
      + apply Z.compare_eq in H; congruence.
      + apply cmp_eq in H; congruence.
    - intros [|x|x]; cbn; [reflexivity|apply Z.compare_refl|apply cmp_refl].
    - intros [|x|x] [|y|y]; cbn; try reflexivity; [apply Z.compare_antisym|apply cmp_sym].
    - intros [|x|x] [|y|y] [|z|z]; cbn; try discriminate; try reflexivity.
      + rewrite !Z.compare_lt_iff; apply Z.lt_trans.
      + apply cmp_trans.
  Defined.

  Definition is_none (a : pyval) : bool := match a with VNone => true | _ => false end.
  Definition same_kind (a b : pyval) : bool :=
    match a, b with VNone, VNone | VInt _, VInt _ | VObj _, VObj _ => true | _, _ => false end.

  (** A BTree can compare the two keys. *)
  Definition key_ok (a b : pyval) : bool := is_none a || is_none b || same_kind a b.
  (** Python's [a < b] does not raise. *)
  Definition lt_ok (a b : pyval) : bool := negb (is_none a) && same_kind a b.
  (** Python's comparison of tuples [(a, x) < (b, y)] does not raise: tuples are
      first searched for a differing component with [==], which never raises. *)
  Definition tuple_ok (a b : pyval) : bool := same_kind a b.
End PyVal.

(** Some comparison needed to sort [l] raises. *)
Fixpoint all_pairs {A} (f : A -> A -> bool) (l : list A) : bool :=
  match l with [] => true | x :: l' => forallb (f x) l' && all_pairs f l' end.
